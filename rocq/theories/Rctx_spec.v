(** Specification vocabulary for resolved contexts: what a value in an export line stands for. Of the model only the type of
    resolved packages is used. *)
From Verif Require Import Base Rctx_model.
Open Scope char_scope.

(** a value as its author sees it: characters, fields of the package such as [{root}], references to variables *)
Inductive piece := Lit (c : ascii) | Field (k : text) | Ref (x : text).
(** how a piece is written *)
Definition written (q : piece) : text :=
  match q with Lit c => [c] | Field k => "{" :: k ++ ["}"] | Ref x => "$" :: "{" :: x ++ ["}"] end.
Definition spelled (t : list piece) : text := flat_map written t.
(** the fields of a package *)
Inductive field_of (p : rpack) : text -> text -> Prop :=
| field_root : field_of p (T "root") (rp_root p)
| field_version v : rp_version p = Some v -> field_of p (T "version") v
| field_index i : rp_index p = Some i -> field_of p (T "variant_index") (show_N (N.of_nat i)).
(** names and characters that cannot be mistaken for something else *)
Definition bare (s : text) : Prop := ~ In "{" s /\ ~ In "}" s /\ ~ In "$" s.
Definition clear_piece (q : piece) : Prop :=
  match q with
  | Lit c => c <> "$" /\ c <> "{"
  | Field k => bare k
  | Ref x => bare x /\ x <> T "root" /\ x <> T "version" /\ x <> T "variant_index"
  end.
Definition clear (t : list piece) : Prop := forall q, In q t -> clear_piece q.
(** an environment tells the value of each variable *)
Definition environ : Type := text -> option text.
(** [stands p e t v]: the value [t] in a command of [p], read in [e], is [v]; every reference is to a variable that is set *)
Inductive stands (p : rpack) (e : environ) : list piece -> text -> Prop :=
| stands_nil : stands p e [] []
| stands_lit c t v : stands p e t v -> stands p e (Lit c :: t) (c :: v)
| stands_field k w t v : field_of p k w -> stands p e t v -> stands p e (Field k :: t) (w ++ v)
| stands_unknown k t v : (forall w, ~ field_of p k w) -> stands p e t v -> stands p e (Field k :: t) ("{" :: k ++ "}" :: v)
| stands_ref x w t v : e x = Some w -> stands p e t v -> stands p e (Ref x :: t) (w ++ v).
(** the values that get into a text have no dollar sign, those of fields no opening brace either *)
Definition tame (p : rpack) (e : environ) (t : list piece) : Prop :=
  (forall x w, In (Ref x) t -> e x = Some w -> ~ In "$" w) /\ (forall k w, field_of p k w -> ~ In "$" w /\ ~ In "{" w).
(** an environment with one variable set *)
Definition set (x v : text) (e : environ) : environ := fun y => if text_eqb y x then Some v else e y.
(** white space *)
Definition blanks (s : text) : Prop := forall c, In c s -> is_ws c = true.
(** a name on the left of the equals sign *)
Definition name_like (x : text) : Prop := bare x /\ forall c, In c x -> is_ws c = false /\ c <> "=".
(** how a line is read: as the export of a value, quoted or not, or as nothing *)
Inductive reads : text -> option (text * list piece) -> Prop :=
| reads_quoted u w x t : blanks u -> blanks w -> name_like x -> clear t -> ~ In """" (spelled t) ->
    reads (u ++ T "export " ++ x ++ "=" :: """" :: spelled t ++ """" :: w) (Some (x, t))
| reads_bare u w x t : blanks u -> blanks w -> name_like x -> clear t -> ~ In """" (spelled t) ->
    (forall s c, spelled t = s ++ [c] -> is_ws c = false) -> reads (u ++ T "export " ++ x ++ "=" :: spelled t ++ w) (Some (x, t))
| reads_other l : (forall u r, blanks u -> l <> u ++ T "export " ++ r) -> reads l None
| reads_no_value l : ~ In "=" l -> reads l None.
(** [runs p e ls e']: the lines of a package turn one environment into another *)
Inductive runs (p : rpack) : environ -> list text -> environ -> Prop :=
| runs_nil e : runs p e [] e
| runs_export e l ls x t v e' : reads l (Some (x, t)) -> tame p e t -> stands p e t v -> runs p (set x v e) ls e' -> runs p e (l :: ls) e'
| runs_skip e l ls e' : reads l None -> runs p e ls e' -> runs p e (l :: ls) e'.
(** the lines of a text *)
Inductive lines_of : text -> list text -> Prop :=
| lines_last l : ~ In "010" l -> lines_of l [l]
| lines_more l s ls : ~ In "010" l -> lines_of s ls -> lines_of (l ++ "010" :: s) (l :: ls).
(** all packages in turn *)
Inductive runs_all : environ -> list rpack -> environ -> Prop :=
| all_nil e : runs_all e [] e
| all_none e p ps e' : rp_commands p = None -> runs_all e ps e' -> runs_all e (p :: ps) e'
| all_some e p ps c ls e1 e' : rp_commands p = Some c -> lines_of c ls -> runs p e ls e1 -> runs_all e1 ps e' -> runs_all e (p :: ps) e'.
(** a line that exports a variable, with any value *)
Definition exports (l y : text) : Prop :=
  exists u a b r, blanks u /\ blanks a /\ blanks b /\ ~ In "=" (a ++ y ++ b) /\ l = u ++ T "export " ++ a ++ y ++ b ++ "=" :: r.
Definition exported (ps : list rpack) (y : text) : Prop :=
  exists p c ls l, In p ps /\ rp_commands p = Some c /\ lines_of c ls /\ In l ls /\ exports l y.
(** the last package that has a tool *)
Definition last_with (t : text) (p : rpack) (ps : list rpack) : Prop :=
  exists a b, ps = a ++ p :: b /\ In t (rp_tools p) /\ forall q, In q b -> ~ In t (rp_tools q).
(** the first package of a name *)
Definition first_named (n : text) (p : rpack) (ps : list rpack) : Prop :=
  exists a b, ps = a ++ p :: b /\ rp_name p = n /\ forall q, In q a -> rp_name q <> n.
