(** What scanning directories should mean, stated without the scanners. *)
From Verif Require Import Base Maps Sorting Version_model Package_model Order_model Order_spec Scan_model.
Open Scope string_scope. Open Scope list_scope.

(** what a pattern means: a question mark for one character, two stars for anything, one star for anything without slashes, and every other character for itself *)
Inductive glob : text -> text -> Prop :=
| G_end : glob [] []
| G_char c p s : c <> "*"%char -> c <> "?"%char -> glob p s -> glob (c :: p) (c :: s)
| G_one c p s : glob p s -> glob ("?"%char :: p) (c :: s)
| G_all u p s : glob p s -> glob ("*"%char :: "*"%char :: p) (u ++ s)
| G_part u p s : ~ In "/"%char u -> hd_error p <> Some "*"%char -> glob p s -> glob ("*"%char :: p) (u ++ s).
(** the same for names of packages, where one star is for anything *)
Inductive wildcard : text -> text -> Prop :=
| W_end : wildcard [] []
| W_char c p s : c <> "*"%char -> c <> "?"%char -> wildcard p s -> wildcard (c :: p) (c :: s)
| W_one c p s : wildcard p s -> wildcard ("?"%char :: p) (c :: s)
| W_all u p s : wildcard p s -> wildcard ("*"%char :: p) (u ++ s).
(** a pattern in which points are question marks *)
Definition loose (p : text) : text := map (fun c => if Ascii.eqb c "." then "?"%char else c) p.
(** no line feeds *)
Definition one_line (s : text) : Prop := ~ In "010"%char s.
(** a text, or what is behind one of its slashes *)
Definition end_of (p q : text) : Prop := p = q \/ exists a, p = a ++ "/"%char :: q /\ q <> [].

(** the directories in which packages are looked for: families with a package file, and the directories in the other families *)
Definition places (d : disk) (root : text) (es : list text) : list text :=
  flat_map (fun f =>
    let dir := root ++ T "/" ++ f in
    match d_kind d dir with
    | KDir => match d_kind d (dir ++ T "/package.py") with
              | KNone => match d_list d dir with Some vs => filter (fun q => match d_kind d q with KDir => true | _ => false end) (map (fun v => dir ++ T "/" ++ v) vs) | None => [] end
              | _ => [dir]
              end
    | _ => []
    end) es.
(** the packages in them, one after another *)
Definition loaded (load_file : text -> option package) (d : disk) (dirs : list text) : list package :=
  flat_map (fun dir => match d_kind d (dir ++ T "/package.py") with KNone => [] | _ => match load_file (dir ++ T "/package.py") with Some p => [p] | None => [] end end) dirs.
(** the text of a version, which stands for itself *)
Definition called (n : text) (v : text) (p : package) : Prop := p_name p = n /\ match p_version p with Some w => v_str w = v | None => v = T "latest" end.
(** the last of a list for which something holds *)
Definition last_one {A} (P : A -> Prop) (l : list A) (x : A) : Prop := exists a b, l = a ++ x :: b /\ P x /\ forall y, In y b -> ~ P y.

(** directories below one, with the number of steps; every one on the way is a directory for which [ok] holds *)
Inductive below (d : disk) (ok : text -> Prop) (root : text) : nat -> text -> Prop :=
| B_here : ok root -> below d ok root 0 root
| B_step k p es e : below d ok root k p -> d_list d p = Some es -> In e es -> d_kind d (p ++ T "/" ++ e) = KDir -> ok (p ++ T "/" ++ e) -> below d ok root (S k) (p ++ T "/" ++ e).
(** names of entries have no slashes *)
Definition named (d : disk) : Prop := forall p es e, d_list d p = Some es -> In e es -> ~ In "/"%char e.
(** what a file holds: the package and the size *)
Definition holds (load : text -> option package) (d : disk) (file : text) (p : package) (size : N) : Prop :=
  exists time t, d_stat d file = Some (time, size) /\ d_text d file = Some t /\ load t = Some p.
(** a package file in a directory *)
Definition package_in (d : disk) (name_ok : text -> Prop) (dir file : text) : Prop :=
  exists es e, d_list d dir = Some es /\ In e es /\ name_ok e /\ file = dir ++ T "/" ++ e /\ d_kind d file = KFile.
(** what a cache remembers of a file that seems unchanged is what is in the file *)
Definition faithful (load : text -> option package) (d : disk) (c : list (text * entry)) : Prop :=
  forall file e, In (file, e) c -> d_stat d file = Some (n_time e, n_size e) ->
  (exists p, holds load d file p (n_size e) /\ o_package (n_result e) = p) /\ o_file (n_result e) = file /\ (exists n, file = o_dir (n_result e) ++ T "/" ++ n /\ ~ In "/"%char n) /\ o_size (n_result e) = n_size e.
(** the text of a file at a time is the one that a record of all times says *)
Definition agrees (W : text -> N -> N -> option text) (d : disk) : Prop := forall file time size, d_stat d file = Some (time, size) -> d_text d file = W file time size.
(** what a cache remembers was the case at that time *)
Definition true_to (load : text -> option package) (W : text -> N -> N -> option text) (c : list (text * entry)) : Prop :=
  forall file e, In (file, e) c -> (exists t, W file (n_time e) (n_size e) = Some t /\ load t = Some (o_package (n_result e))) /\
  o_file (n_result e) = file /\ (exists n, file = o_dir (n_result e) ++ T "/" ++ n /\ ~ In "/"%char n) /\ o_size (n_result e) = n_size e.
(** one path is above another, or the same *)
Definition within (p q : text) : Prop := p = q \/ exists r, q = p ++ "/"%char :: r.
(** the sum *)
Fixpoint total (l : list N) : N := match l with [] => 0%N | x :: r => (x + total r)%N end.
