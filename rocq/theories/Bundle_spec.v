(** What a bundle is expected to be. Of the model only the types and [get] are used. *)
From Verif Require Import Base Maps Files_model Files_spec.
Open Scope string_scope. Open Scope list_scope.

(** a line of text *)
Definition one_line (s : text) : Prop := ~ In (ascii_of_nat 10) s.
(** a text that ends visibly *)
Definition ends_visibly (s : text) : Prop := exists r c, s = r ++ [c] /\ is_ws c = false.
(** [t] is [s] without the white space at its end *)
Definition without_end (s t : text) : Prop := exists u, s = t ++ u /\ Forall (fun c => is_ws c = true) u /\ (t = [] \/ ends_visibly t).
(** the texts of a list that show, without the white space at their ends *)
Inductive shown : list text -> list text -> Prop :=
| shown_nil : shown [] []
| shown_blank s l r : without_end s [] -> shown l r -> shown (s :: l) r
| shown_text s t l r : t <> [] -> without_end s t -> shown l r -> shown (s :: l) (t :: r).
(** a bundle in a directory: a directory with the manifest *)
Definition has_bundle (base : path) (n : text) (x : node) : Prop := dir_at (base ++ [n]) x /\ ~ absent (base ++ [n; T "bundle.yaml"]) x.
(** an argument that is a path by its looks *)
Definition pathlike (s : text) : Prop :=
  In "/"%char s \/ In "\"%char s \/ exists a b r, s = a :: ":"%char :: b :: r.
(** the character is one of the three that are alike in the name of a bundle *)
Definition separating (c : ascii) : Prop := c = "-"%char \/ c = "."%char \/ c = "_"%char.
(** only files and directories *)
Fixpoint ordinary (y : node) : Prop :=
  match y with
  | File _ => True
  | Dir es => (fix all (l : list (text * node)) : Prop := match l with [] => True | (_, z) :: r => ordinary z /\ all r end) es
  | _ => False
  end.
(** where a package of a bundle is *)
Definition slot (out : path) (p : text * text) : path := out ++ [T "packages"; fst p; snd p].
(** where a package is found: in the first of the paths that has it *)
Definition source_of (bases : list path) (p : text * text) (x : node) (src : path) : Prop :=
  exists l b r, bases = l ++ b :: r /\ src = b ++ [fst p; snd p] /\ ~ absent src x /\ forall a, In a l -> absent (a ++ [fst p; snd p]) x.
(** name and version of a resolved package *)
Definition named (p : text * option text) : text * text := (fst p, match snd p with Some v => v | None => T "unknown" end).
(** calls that do not fail *)
Definition calm_calls (n : nat) : option (option text) := None.
(** the root of a package in the bundle, for names, versions and directories without a slash at the wrong places *)
Definition relative (s : text) : Prop := forall r, s <> "/"%char :: r.
Definition root_text (out name version : text) : text := out ++ T "/packages/" ++ name ++ T "/" ++ version.
(** a usual directory name: no slash at the end, not empty *)
Definition dir_text (s : text) : Prop := s <> [] /\ forall r, s <> r ++ T "/".
