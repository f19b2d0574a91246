(** What is claimed about tests, commands in a context and completion, without the helpers of the model. *)
From Coq Require Export Permutation.
From Verif Require Import Base.
Open Scope string_scope. Open Scope list_scope.

(** a pattern of a shell: a star is any text, anything else is itself *)
Inductive Glob : text -> text -> Prop :=
| Glob_nil : Glob [] []
| Glob_star p u t : Glob p t -> Glob ("*"%char :: p) (u ++ t)
| Glob_char c p t : c <> "*"%char -> Glob p t -> Glob (c :: p) (c :: t).
(** a pattern of letters and stars, without characters that mean something else in regular expressions *)
Definition plain_pattern (p : text) : Prop := forall c, In c p -> ~ In c (T "\+?()|[]{}^$.").
(** a text of one line *)
Definition one_line (t : text) : Prop := ~ In "010"%char t.
(** each first occurrence, in order *)
Fixpoint firsts_after (seen l : list text) : list text :=
  match l with [] => [] | x :: r => if existsb (text_eqb x) seen then firsts_after seen r else x :: firsts_after (x :: seen) r end.
Definition firsts (l : list text) : list text := firsts_after [] l.
(** one text comes before or is the same as another, letter by letter *)
Definition in_order (l : list text) : Prop := forall a x b y c, l = a ++ x :: b ++ y :: c -> text_cmp x y = Lt.

(** a word of a command line for the shell: as it is, or in single quotes *)
Inductive word := Bare (w : text) | Quoted (w : text).
Definition bare_char (c : ascii) : Prop := is_alnum c = true \/ In c (T "_-./:,").
Definition word_fine (w : word) : Prop := match w with Bare w => w <> [] /\ forall c, In c w -> bare_char c | Quoted w => ~ In "'"%char w end.
Definition written (w : word) : text := match w with Bare w => w | Quoted w => ("'"%char :: w) ++ ["'"%char] end.
Definition meant (w : word) : text := match w with Bare w => w | Quoted w => w end.
(** how the shell reads a line of such words: these are the program and its arguments *)
Definition shell_reads (line : text) (argv : list text) : Prop :=
  exists ws, ws <> [] /\ Forall word_fine ws /\ line = join (T " ") (map written ws) /\ argv = map meant ws.

(** the value of a variable in layers, the first that has it *)
Fixpoint layered (layers : list (text -> option text)) (k : text) : option text :=
  match layers with [] => None | f :: r => match f k with Some v => Some v | None => layered r k end end.
(** words with single blanks between them *)
Definition line_of (ws : list text) : text := join (T " ") ws.
(** a word: not empty, without blanks *)
Definition is_word (w : text) : Prop := w <> [] /\ forall c, In c w -> is_ws c = false.
(** the part of a text is in it *)
Definition part_of (p t : text) : Prop := exists a b, t = a ++ p ++ b.
(** a text starts with another *)
Definition headed (p t : text) : Prop := exists b, t = p ++ b.
