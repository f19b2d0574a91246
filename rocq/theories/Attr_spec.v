(** What Python and YAML make of the written data, stated without the writers.
    Python is read as far as it is needed: escapes other than those of quotes, backslashes and line feeds are not read, and the text of a file has no null characters. *)
From Verif Require Import Base Json.
Open Scope string_scope. Open Scope list_scope.

(** what an escaped character stands for *)
Definition escaped (c : ascii) : option ascii :=
  if Ascii.eqb c "039" || Ascii.eqb c "034" || Ascii.eqb c "092" then Some c else if Ascii.eqb c "n" then Some "010"%char else None.
Definition with_char (c : ascii) (r : option (text * text)) : option (text * text) := match r with Some (s, t) => Some (c :: s, t) | None => None end.
(** a text on one line up to its quote: what it stands for and what is left *)
Fixpoint short_rest (q : ascii) (s : text) : option (text * text) :=
  match s with
  | [] => None
  | c :: r =>
    if Ascii.eqb c q then Some ([], r)
    else if Ascii.eqb c "010" || Ascii.eqb c "013" then None
    else if Ascii.eqb c "092" then match r with d :: r' => match escaped d with Some e => with_char e (short_rest q r') | None => None end | [] => None end
    else with_char c (short_rest q r)
  end.
(** the same up to three single quotes; lines may end *)
Fixpoint long_rest (s : text) : option (text * text) :=
  match s with
  | [] => None
  | c :: r =>
    if starts_with ["039"%char; "039"%char; "039"%char] s then Some ([], skipn 2 r)
    else if Ascii.eqb c "013" then None
    else if Ascii.eqb c "092" then match r with d :: r' => match escaped d with Some e => with_char e (long_rest r') | None => None end | [] => None end
    else with_char c (long_rest r)
  end.
(** a text in Python *)
Definition py_text (s : text) : option (text * text) :=
  if starts_with ["039"%char; "039"%char; "039"%char] s then long_rest (skipn 3 s)
  else match s with
       | c :: r => if Ascii.eqb c "039" then short_rest "039" r else if Ascii.eqb c "034" && negb (starts_with ["034"%char; "034"%char] r) then short_rest "034" r else None
       | [] => None
       end.
(** texts for which this works: no backslashes, no carriage returns, and no single quote at the end if three are needed around it *)
Definition readable (s : text) : Prop :=
  ~ In "092"%char s /\ ~ In "013"%char s /\ (In "010"%char s \/ (In "039"%char s /\ In "034"%char s) -> forall r, s <> r ++ ["039"%char]).

(** white space *)
Definition blank (s : text) : Prop := forall c, In c s -> c = " "%char \/ c = "010"%char.
(** a number in digits *)
Definition digits_of (t : text) (n : N) : Prop := t <> [] /\ forallb is_digit t = true /\ digits_val t = n.
(** what an expression in Python stands for *)
Inductive denotes : text -> json -> Prop :=
| D_none : denotes (T "None") JNull
| D_true : denotes (T "True") (JBool true)
| D_false : denotes (T "False") (JBool false)
| D_num t n : digits_of t n -> denotes t (JNum (Z.of_N n))
| D_neg t n : digits_of t n -> denotes ("-"%char :: t) (JNum (- Z.of_N n))
| D_text t s : py_text t = Some (s, []) -> denotes t (JStr s)
| D_empty w : blank w -> denotes ("["%char :: w ++ T "]") (JArr [])
| D_list t l : items t l -> denotes ("["%char :: t ++ T "]") (JArr l)
with items : text -> list json -> Prop :=
| I_last a t b v : blank a -> blank b -> denotes t v -> items (a ++ t ++ b) [v]
| I_more a t b v u l : blank a -> blank b -> denotes t v -> items u l -> items (a ++ t ++ b ++ ","%char :: u) (v :: l).
(** values without objects whose texts are readable *)
Fixpoint simple (v : json) : Prop :=
  match v with
  | JStr s => readable s
  | JArr l => (fix all (l : list json) : Prop := match l with [] => True | x :: r => simple x /\ all r end) l
  | JObj _ => False
  | _ => True
  end.
(** in a list of keys, which comes first *)
Definition before (order : list text) (x y : text) : Prop :=
  x = y \/ (exists a b c, order = a ++ x :: b ++ y :: c) \/ (In x order /\ ~ In y order) \/ (~ In x order /\ ~ In y order /\ text_cmp x y = Lt).

(** a text of YAML in single quotes, where two stand for one *)
Fixpoint yaml_rest (s : text) : option text :=
  match s with
  | [] => None
  | c :: r => if Ascii.eqb c "039" then match r with [] => Some [] | d :: r' => if Ascii.eqb d "039" then option_map (cons d) (yaml_rest r') else None end else option_map (cons c) (yaml_rest r)
  end.
Definition yaml_quoted (s : text) : option text := match s with c :: r => if Ascii.eqb c "039" then yaml_rest r else None | [] => None end.
