(** Model of the helpers for texts and times that are part of the interface of the library.
    Source: crates/rez-next-util/src/string.rs (US), crates/rez-next-util/src/time.rs (UT).
    Simplifications: texts are ASCII, so that characters and bytes are the same and cutting never falls inside a character; times are whole seconds below 2^64. *)
From Verif Require Import Base.
From Verif Require Bundle_model.
Open Scope string_scope. Open Scope list_scope.

(** US:6-11 [normalize_name] *)
Definition normalize_name (s : text) : text := map (fun c => if Ascii.eqb c " " || Ascii.eqb c "-" then "_"%char else c) (map to_lower s).
(** US:14-27 [is_valid_identifier] *)
Definition is_valid_identifier (s : text) : bool :=
  match s with [] => false | c :: r => if negb (is_alpha c) && negb (Ascii.eqb c "_") then false else forallb (fun c => is_alnum c || Ascii.eqb c "_") r end.
(** US:30-38 [truncate] *)
Definition truncate (s : text) (max : nat) : text :=
  if (max <=? 3)%nat then T "..." else if (length s <=? max - 3)%nat then s else firstn (max - 3) s ++ T "...".
(** US:41-47 [indent] *)
Definition indent (s : text) (n : nat) : text := join ["010"%char] (map (fun l => repeat " "%char n ++ l) (Bundle_model.file_lines s)).
(** US:52-64: characters of other kinds become underscores *)
Definition python_char (c : ascii) : ascii := if is_alnum c || Ascii.eqb c "_" then c else "_".
(** US:50-72 [to_python_identifier] *)
Definition to_python_identifier (s : text) : text :=
  let s := map python_char (map (fun c => if Ascii.eqb c "-" || Ascii.eqb c " " then "_"%char else c) s) in
  if match s with [] => true | c :: _ => negb (is_alpha c) end then T "_" ++ s else s.
(** US:80-96: the items from the second on *)
Fixpoint list_rest (conj : text) (l : list text) : text :=
  match l with [] => [] | [x] => T ", " ++ conj ++ T " " ++ x | x :: r => T ", " ++ x ++ list_rest conj r end.
(** US:75-98 [format_list] *)
Definition format_list (l : list text) (conj : text) : text :=
  match l with [] => [] | [x] => x | [x; y] => x ++ T " " ++ conj ++ T " " ++ y | x :: r => x ++ list_rest conj r end.

(** UT:36-68: a duration in seconds, an error, or an overflow, which panics or wraps *)
Inductive duration := Secs (n : N) | BadNumber | Overflow.
(** UT:40-60: a number of units *)
Definition times (s : text) (unit : N) : duration := match parse_u64 (trim s) with Some n => if (n * unit <=? U64_MAX)%N then Secs (n * unit) else Overflow | None => BadNumber end.
(** UT:36-68 [parse_duration] *)
Definition parse_duration (s0 : text) : duration :=
  let s := map to_lower (trim s0) in
  match rev s with
  | c :: r => if Ascii.eqb c "s" then times (rev r) 1 else if Ascii.eqb c "m" then times (rev r) 60 else if Ascii.eqb c "h" then times (rev r) 3600 else if Ascii.eqb c "d" then times (rev r) 86400
              else match parse_u64 s with Some n => Secs n | None => BadNumber end
  | [] => BadNumber
  end.
(** UT:71-95 [human_time_diff] with the present time *)
Definition human_time_diff (now t : N) : text :=
  if (now <? t)%N then T "in the future"
  else let d := (now - t)%N in
    if (d <? 60)%N then show_N d ++ T " seconds ago" else if (d <? 3600)%N then show_N (d / 60) ++ T " minutes ago" else if (d <? 86400)%N then show_N (d / 3600) ++ T " hours ago"
    else if (d <? 604800)%N then show_N (d / 86400) ++ T " days ago" else if (d <? 2592000)%N then show_N (d / 604800) ++ T " weeks ago" else if (d <? 31536000)%N then show_N (d / 2592000) ++ T " months ago"
    else show_N (d / 31536000) ++ T " years ago".
