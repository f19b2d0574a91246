(** What is claimed about helpers for texts and times, without the helpers of the model. *)
From Verif Require Import Base.
Open Scope string_scope. Open Scope list_scope.

(** characters of identifiers *)
Definition starts_name (c : ascii) : Prop := is_alpha c = true \/ c = "_"%char.
Definition in_name (c : ascii) : Prop := is_alnum c = true \/ c = "_"%char.
Definition identifier (s : text) : Prop := exists c r, s = c :: r /\ starts_name c /\ forall d, In d r -> in_name d.
(** units of durations and their seconds *)
Definition units : list (ascii * N) := [("s"%char, 1%N); ("S"%char, 1%N); ("m"%char, 60%N); ("M"%char, 60%N); ("h"%char, 3600%N); ("H"%char, 3600%N); ("d"%char, 86400%N); ("D"%char, 86400%N)].
Definition blanks (s : text) : Prop := forall c, In c s -> is_ws c = true.
(** units of differences and their seconds *)
Definition spans : list (text * N) :=
  [(T "seconds", 1%N); (T "minutes", 60%N); (T "hours", 3600%N); (T "days", 86400%N); (T "weeks", 604800%N); (T "months", 2592000%N); (T "years", 31536000%N)].
(** lines *)
Definition lined (ls : list text) : text := join ["010"%char] ls.
Definition whole_line (l : text) : Prop := l <> [] /\ ~ In "010"%char l /\ forall r, l <> r ++ ["013"%char].
