(** Property C146: wildcards in requirements. *)
From Verif Require Import Base Base_lemmas Rex_model Requirement_model Pyfile_model Pkgfile_model Expand_model Expand_spec Expand_proofs.
Open Scope string_scope. Open Scope list_scope.

(** a request without wildcards is kept *)
Theorem C146_plain_partial uid order q s : no_star s -> expand_requirement uid order q s = Ok s.
Proof. exact (plain_request uid order q s). Qed.
Print Assumptions C146_plain_partial.
(** whatever the callback knows about packages, a wildcard at the end is not expanded: the callback is asked for a package whose name is the whole request *)
Theorem C146_refuted uid order q a : simple_request a -> placeholder (uid 0) -> no_star a -> knows_names uid q -> expand_requirement uid order q (a ++ T "*") = Ok (a ++ T "*").
Proof. exact (never_expanded uid order q a). Qed.
Print Assumptions C146_refuted.
(** what the callback is asked, and what becomes of an answer *)
Theorem C146_asked_partial uid order q a : simple_request a -> placeholder (uid 0) -> no_star a ->
  expand_requirement uid order q (a ++ T "*") =
  match q (a ++ uid 0) None with
  | None => Ok (a ++ T "*")
  | Some v => Ok (restore_wildcards order ((a ++ uid 0) ++ T "-" ++ v) [(uid 0, T "*")])
  end.
Proof. exact (one_star uid order q a). Qed.
Print Assumptions C146_asked_partial.
(** two stars at the end are a panic, also in a list of requests *)
Theorem C146_panic_refuted uid order q a l l' : no_star a -> (forall r, In r l -> no_star r) ->
  expand_requirement uid order q (a ++ T "**") = Panic /\ expand_requirements uid order q (l ++ (a ++ T "**") :: l') = Panic.
Proof.
  intros N NL. pose proof (two_stars_last uid order q a N) as E. split; [exact E|]. induction l as [|r l IH]; cbn [app expand_requirements].
  - rewrite E. reflexivity.
  - rewrite (plain_request uid order q r) by (apply NL; left; reflexivity). rewrite IH by (intros x I; apply NL; right; exact I). reflexivity.
Qed.
Print Assumptions C146_panic_refuted.
(** two stars that are not at the end take the next character with them *)
Definition uids (n : nat) : text := T "_" ++ repeat "a"%char (S n) ++ T "_".
Theorem C146_eaten_refuted : replace_wildcards uids (T "boost-1.**.7+") = Ok (T "boost-1._a_7+", [(T "_a_", T "**")]).
Proof. reflexivity. Qed.
Print Assumptions C146_eaten_refuted.
(** every star has its own placeholder *)
Theorem C146_marks uid a b c : no_star a -> no_star b -> b <> [] -> no_star c -> no_star (uid 0) -> no_star (uid 1) ->
  replace_wildcards uid (a ++ T "*" ++ b ++ T "*" ++ c) = Ok (a ++ uid 0 ++ b ++ uid 1 ++ c, [(uid 0, T "*"); (uid 1, T "*")]).
Proof. exact (two_marks uid a b c). Qed.
Print Assumptions C146_marks.
Example C146_example :
  simple_request (T "python-2.") /\ placeholder (uids 0) /\ knows_names uids (fun n _ => if text_eqb n (T "python") then Some (T "2.7") else None) /\
  expand_requirement uids (fun m => m) (fun n _ => if text_eqb n (T "python") then Some (T "2.7") else None) (T "python-2.*") = Ok (T "python-2.*") /\
  expand_requirement uids (fun m => m) (fun n _ => Some (T "2.7")) (T "python-2.*") = Ok (T "python-2.*-2.7") /\
  expand_requirement uids (fun m => m) (fun n _ => Some (T "1.55.0")) (T "boost-1.**") = Panic.
Proof.
  split.
  { split; [discriminate|]. intros c I. cbn in I. repeat (destruct I as [<-|I]; [auto|]). destruct I. }
  split; [exists (T "a"); split; [reflexivity|intros c [<-|[]]; reflexivity]|]. split.
  - intros n a v. destruct (text_eqb_spec (a ++ uids n) (T "python")) as [E|E]; [|reflexivity]. exfalso. unfold uids in E. rewrite !app_assoc in E.
    change (T "python") with (T "pytho" ++ ["n"%char]) in E. apply app_inj_tail in E as [_ E]. discriminate E.
  - repeat split.
Qed.
