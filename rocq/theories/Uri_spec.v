(** What it means for a directory to hold a package and for a text to be a path below another. *)
From Verif Require Import Base Version_model Package_model Uri_model.
From Verif Require Scan_model.
Open Scope string_scope. Open Scope list_scope.

(** a path that starts in the working directory *)
Definition relative (p : text) : Prop := forall r, p <> "/"%char :: r.
(** a name without a slash *)
Definition plain (n : text) : Prop := ~ In "/"%char n.
(** the path of an entry of a directory *)
Inductive below : text -> text -> text -> Prop :=
| b_here n : below [] n n
| b_slash d n : below (d ++ [ "/"%char ]) n (d ++ "/"%char :: n)
| b_plain d c n : c <> "/"%char -> below (d ++ [c]) n (d ++ c :: "/"%char :: n).
(** a file that is on the disk and gives a package *)
Definition gives (w : world) (f : text) (p : package) : Prop := w_kind w f <> Scan_model.KNone /\ w_load w f = Some p.
(** a directory holds the package of its package.py, or of its package.json if the first gives none *)
Inductive holds (w : world) (d : text) (p : package) : Prop :=
| h_py f : below d (T "package.py") f -> gives w f p -> holds w d p
| h_json f g : below d (T "package.py") f -> (forall q, ~ gives w f q) -> below d (T "package.json") g -> gives w g p -> holds w d p.
(** the version of a package is written so *)
Definition version_text (p : package) (v : text) : Prop := exists x, p_version p = Some x /\ v_str x = v.
(** a path ends in this part; slashes after it do not matter *)
Definition ends_in (p f : text) : Prop := exists k, p = f ++ repeat "/"%char k \/ exists d, p = d ++ "/"%char :: f ++ repeat "/"%char k.
Definition package_name (f : text) : Prop := f = T "package.py" \/ f = T "package.json".
