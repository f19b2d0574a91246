(** Properties C103 to C106: resolved contexts. *)
From Verif Require Import Base Base_lemmas Maps Order_spec Rex_model Rctx_model Rctx_spec Rctx_proofs.
Open Scope string_scope.
Open Scope list_scope.

Definition names_bare (e : list (text * text)) : Prop := forall x, In x (map fst e) -> bare x.
(** C103: the environment is what the export lines stand for, in every order of the maps, if each reference is to a variable that is
    set to a value without dollar signs *)
Theorem C103_lines_partial : forall ord ps system e', any_order ord -> NoDup (map fst system) -> names_bare system ->
  runs_all (fun x => aget x system) ps e' -> forall x, aget x (get_environ ord ps system) = e' x.
Proof. intros ord ps system e' O N B R. apply environ_runs with (f := fun y => aget y system); auto. Qed.
(** without that, two runs can differ *)
Definition wrapper : rpack := mkRpack (T "tool") None [] [] (Some (T "export C=${A}")) None (T "/p").
Definition nested : list (text * text) := [(T "A", T "${B}"); (T "B", T "x")].
Theorem C103_order_refuted : ~ forall ord ord' ps system x, any_order ord -> any_order ord' -> NoDup (map fst system) -> names_bare system ->
  aget x (get_environ ord ps system) = aget x (get_environ ord' ps system).
Proof.
  intros H. specialize (H (fun l => l) (@rev _) [wrapper] nested (T "C")).
  assert (E : Some (T "x") = Some (T "${B}")); [|discriminate E].
  apply H; [intros l; apply Permutation_refl|intros l; apply Permutation_sym, Permutation_rev| |].
  - vm_compute. repeat constructor; cbn; intuition discriminate.
  - intros x [<-|[<-|[]]]; repeat split; cbn; intuition discriminate.
Qed.
(** a shell reads an unset variable as nothing; here its text stays *)
Definition asks : rpack := mkRpack (T "tool") None [] [] (Some (T "export C=""${NOPE}/x""")) None (T "/p").
Theorem C103_unset_refuted : ~ forall ord ps system x v, any_order ord -> aget x (get_environ ord ps system) = Some v -> aget x system = None -> ~ In "$"%char v.
Proof.
  intros H. apply (H (fun l => l) [asks] [] (T "C") (T "${NOPE}/x")); [intros l; apply Permutation_refl|reflexivity|reflexivity|].
  left. reflexivity.
Qed.
(** a variable that has the name of a field cannot be read *)
Definition shadow : rpack := mkRpack (T "tool") None [] [] (Some (T "export C=""${root}/x""")) None (T "/p").
Theorem C103_field_name_refuted : ~ forall ord p x v system, any_order ord -> rp_commands p = Some (T "export C=""${" ++ x ++ T "}/x""") -> aget x system = Some v ->
  ~ In "$"%char v -> aget (T "C") (get_environ ord [p] system) = Some (v ++ T "/x").
Proof.
  intros H. specialize (H (fun l => l) shadow (T "root") (T "/r") [(T "root", T "/r")]).
  assert (E : Some (T "$/p/x") = Some (T "/r/x")); [|discriminate E].
  apply H; [intros l; apply Permutation_refl|reflexivity|reflexivity|]. cbn. intuition discriminate.
Qed.

(** C104: a variable that no line exports keeps the value of the system *)
Theorem C104_frame : forall ord ps system y, ~ exported ps y -> aget y (get_environ ord ps system) = aget y system.
Proof. intros. apply environ_frame; assumption. Qed.
(** a package without export lines changes nothing *)
Theorem C104_nothing : forall ord ps system, (forall p c, In p ps -> rp_commands p = Some c -> ~ In "="%char c) ->
  forall y, aget y (get_environ ord ps system) = aget y system.
Proof.
  intros ord ps system H y. apply environ_frame. intros (p & c & ls & l & Ip & Ec & Hl & Il & (u & a & b & r & _ & _ & _ & _ & E)).
  apply (H p c Ip Ec). assert (In "="%char l) by (rewrite E; rewrite !in_app_iff; cbn; auto 8).
  clear - Hl Il H0. induction Hl as [l' N|l' s ls N _ IH]; destruct Il as [<-|Il]; auto; try (apply in_or_app; auto); [destruct Il|]. right. right. auto.
Qed.

(** C105: a search path is extended at the end asked for and its old entries stay *)
Theorem C105_extend : forall ord p x e t old v, any_order ord -> NoDup (map fst e) -> names_bare e ->
  clear (Ref x :: Lit ":" :: t) -> tame p (fun y => aget y e) (Ref x :: t) -> aget x e = Some old -> stands p (fun y => aget y e) t v ->
  export_value ord p x (spelled (t ++ [Lit ":"; Ref x])) e = v ++ T ":" ++ old /\
  export_value ord p x (spelled (Ref x :: Lit ":" :: t)) e = old ++ T ":" ++ v.
Proof.
  intros ord p x e t old v O N B C W E H. split.
  - apply export_stands; try assumption.
    + intros q I. apply C. apply in_app_iff in I as [I|[I|[I|[]]]]; cbn; auto.
    + destruct W as [W V]. split; [|exact V]. intros y w I. apply W. apply in_app_iff in I as [I|[I|[I|[]]]]; cbn; auto. discriminate.
    + clear C W. induction H; cbn [app].
      * constructor. rewrite <- (app_nil_r old). econstructor; [exact E|constructor].
      * constructor; assumption.
      * rewrite <- app_assoc. constructor; assumption.
      * rewrite <- app_assoc. cbn [app]. constructor; assumption.
      * rewrite <- app_assoc. econstructor; eassumption.
  - apply export_stands; try assumption.
    + destruct W as [W V]. split; [|exact V]. intros y w I. apply W. destruct I as [I|[I|I]]; cbn; auto. discriminate.
    + econstructor; [exact E|]. constructor. exact H.
Qed.
(** if the variable was not set an empty entry is added, which a shell reads as the current directory *)
Theorem C105_unset : forall ord p x e t v, any_order ord -> NoDup (map fst e) -> names_bare e ->
  clear (Ref x :: Lit ":" :: t) -> ~ In (Ref x) t -> tame p (fun y => aget y e) t -> aget x e = None -> stands p (fun y => aget y e) t v ->
  export_value ord p x (spelled (t ++ [Lit ":"; Ref x])) e = v ++ T ":" /\
  export_value ord p x (spelled (Ref x :: Lit ":" :: t)) e = T ":" ++ v.
Proof.
  intros ord p x e t v O N B C NI W E H. split.
  - apply extend_unset_back; try assumption. intros q I. apply C. apply in_app_iff in I as [I|[I|[I|[]]]]; cbn; auto.
  - apply extend_unset_front; assumption.
Qed.
Definition plain_path : rpack := mkRpack (T "tool") None [] [] (Some (T "export LD_PATH=""{root}/lib:${LD_PATH}""")) None (T "/p").
Theorem C105_no_empty_entry_refuted : ~ forall ord ps system x v, any_order ord -> (forall y w, aget y system = Some w -> ~ In [] (split_on ":" w)) ->
  aget x (get_environ ord ps system) = Some v -> ~ In [] (split_on ":" v).
Proof.
  intros H. apply (H (fun l => l) [plain_path] [] (T "LD_PATH") (T "/p/lib:")); [intros l; apply Permutation_refl|intros y w E; discriminate|reflexivity|].
  vm_compute. auto.
Qed.

(** C106: a tool is the one of the last package that has it; a package is the first of its name *)
Theorem C106_tools : forall ps t path, aget t (get_tools ps) = Some path <-> exists p, last_with t p ps /\ path = rp_root p ++ T "/bin/" ++ t.
Proof. exact tools_spec. Qed.
Theorem C106_package : forall ps n p, get_package n ps = Some p <-> first_named n p ps.
Proof. intros. apply get_package_spec. Qed.
Theorem C106_has : forall ps n, has_package n ps = true <-> exists p, In p ps /\ rp_name p = n.
Proof.
  intros ps n. unfold has_package. rewrite existsb_exists. split; intros (p & I & E); exists p; (split; [exact I|]); apply text_eqb_eq; exact E.
Qed.
Theorem C106_version_variant : forall ps n p, first_named n p ps ->
  get_package_version n ps = rp_version p /\ get_variant n ps = match rp_index p with Some i => nth_error (rp_variants p) i | None => None end.
Proof.
  intros ps n p H. apply get_package_spec in H. unfold get_package_version, get_variant. rewrite H. auto.
Qed.

(** ** Cases *)
Definition python : rpack := mkRpack (T "python") (Some (T "3.11")) [] [T "python"; T "pip"]
  (Some (T "# search path
  export PATH=""{root}/bin:${PATH}""
export PY_VERSION={version}
echo done")) None (T "/p/py").
Definition pip : rpack := mkRpack (T "pip") (Some (T "23")) [] [T "pip"] (Some (T "export PATH=""{root}/bin:${PATH}""")) (Some 1) (T "/p/pip").
Definition base : list (text * text) := [(T "HOME", T "/root"); (T "PATH", T "/bin"); (T "PS1", T "${PWD} > ")].
Definition lits (s : string) : list piece := map Lit (T s).
Definition bin_first : list piece := Field (T "root") :: lits "/bin:" ++ [Ref (T "PATH")].
Ltac clears := intros q I; cbn in I; repeat (destruct I as [<-|I]; [repeat split; (discriminate || (cbn; intuition discriminate))|]); destruct I.
Lemma bin_first_clear : clear bin_first.
Proof. clears. Qed.
Lemma python_tame e t : (forall x w, In (Ref x) t -> e x = Some w -> ~ In "$"%char w) -> tame python e t.
Proof. intros H. split; [exact H|]. intros k w []; [vm_compute; intuition discriminate|injection H0 as <-; vm_compute; intuition discriminate|discriminate]. Qed.
Lemma pip_tame e t : (forall x w, In (Ref x) t -> e x = Some w -> ~ In "$"%char w) -> tame pip e t.
Proof.
  intros H. split; [exact H|]. intros k w []; [vm_compute; intuition discriminate|injection H0 as <-; vm_compute; intuition discriminate|].
  injection H0 as <-. vm_compute. intuition discriminate.
Qed.
Lemma stands_lits p e s : forall t v, stands p e t v -> stands p e (map Lit s ++ t) (s ++ v).
Proof. intros t v H. induction s as [|c s IH]; [exact H|]. constructor. exact IH. Qed.
Lemma stands_all p e s : stands p e (map Lit s) s.
Proof. rewrite <- (app_nil_r (map Lit s)). rewrite <- (app_nil_r s) at 2. apply stands_lits. constructor. Qed.
Lemma reads_eq l l' o : reads l' o -> l = l' -> reads l o.
Proof. intros H ->. exact H. Qed.
Ltac name := split; [repeat split; cbn; intuition discriminate|]; intros c I; cbn in I; repeat (destruct I as [<-|I]; [split; [reflexivity|discriminate]|]); destruct I.
Example C103_example : exists e', runs_all (fun x => aget x base) [python; pip] e' /\ e' (T "PATH") = Some (T "/p/pip/bin:/p/py/bin:/bin") /\
  e' (T "PY_VERSION") = Some (T "3.11") /\ e' (T "PS1") = Some (T "${PWD} > ").
Proof.
  exists (set (T "PATH") (T "/p/pip/bin:/p/py/bin:/bin") (set (T "PY_VERSION") (T "3.11") (set (T "PATH") (T "/p/py/bin:/bin") (fun x => aget x base)))).
  split; [|repeat split; reflexivity].
  eapply all_some; [reflexivity|apply lines_of_ex| |].
  - change (split_on NL (T "# search path
  export PATH=""{root}/bin:${PATH}""
export PY_VERSION={version}
echo done")) with [T "# search path"; T "  export PATH=""{root}/bin:${PATH}"""; T "export PY_VERSION={version}"; T "echo done"].
    apply runs_skip; [apply reads_no_value; cbn; intuition discriminate|].
    apply runs_export with (x := T "PATH") (t := bin_first) (v := T "/p/py/bin:/bin").
    + apply reads_eq with (2 := eq_refl : T "  export PATH=""{root}/bin:${PATH}""" = T "  " ++ T "export " ++ T "PATH" ++ "="%char :: """"%char :: spelled bin_first ++ """"%char :: []).
      apply reads_quoted; [intros c [<-|[<-|[]]]; reflexivity|intros c []|name|apply bin_first_clear|vm_compute; intuition discriminate].
    + apply python_tame. intros x w I E. cbn in I. repeat (destruct I as [I|I]; [discriminate|]). destruct I as [I|I]; [|destruct I]. injection I as <-.
      injection E as <-. cbn. intuition discriminate.
    + apply (stands_field python _ (T "root") (T "/p/py")); [apply field_root|]. apply (stands_lits _ _ (T "/bin:")).
      apply (stands_ref python _ (T "PATH") (T "/bin") [] []); [reflexivity|constructor].
    + apply runs_export with (x := T "PY_VERSION") (t := [Field (T "version")]) (v := T "3.11").
      * apply reads_eq with (2 := eq_refl : T "export PY_VERSION={version}" = [] ++ T "export " ++ T "PY_VERSION" ++ "="%char :: spelled [Field (T "version")] ++ []).
        apply reads_bare; [intros c []|intros c []|name|clears|vm_compute; intuition discriminate|].
        intros s c E. change (T "{version" ++ T "}" = s ++ [c]) in E. apply app_inj_tail in E as [_ <-]. reflexivity.
      * apply python_tame. intros x w [E|[]]. discriminate.
      * apply (stands_field python _ (T "version") (T "3.11") [] []); [apply field_version; reflexivity|constructor].
      * apply runs_skip; [apply reads_no_value; cbn; intuition discriminate|apply runs_nil].
  - eapply all_some; [reflexivity|apply lines_of_ex| |apply all_nil].
    change (split_on NL (T "export PATH=""{root}/bin:${PATH}""")) with [T "export PATH=""{root}/bin:${PATH}"""].
    apply runs_export with (x := T "PATH") (t := bin_first) (v := T "/p/pip/bin:/p/py/bin:/bin"); [| | |apply runs_nil].
    + apply reads_eq with (2 := eq_refl : T "export PATH=""{root}/bin:${PATH}""" = [] ++ T "export " ++ T "PATH" ++ "="%char :: """"%char :: spelled bin_first ++ """"%char :: []).
      apply reads_quoted; [intros c []|intros c []|name|apply bin_first_clear|vm_compute; intuition discriminate].
    + apply pip_tame. intros x w I E. cbn in I. repeat (destruct I as [I|I]; [discriminate|]). destruct I as [I|I]; [|destruct I]. injection I as <-.
      injection E as <-. cbn. intuition discriminate.
    + apply (stands_field pip _ (T "root") (T "/p/pip")); [apply field_root|]. apply (stands_lits _ _ (T "/bin:")).
      apply (stands_ref pip _ (T "PATH") (T "/p/py/bin:/bin") [] []); [reflexivity|constructor].
Qed.
Lemma trim_start_blanks u x : blanks u -> trim_start (u ++ x) = trim_start x.
Proof. induction u as [|c u IH]; intros H; [reflexivity|]. cbn [app trim_start]. rewrite (H c (or_introl eq_refl)). apply IH. intros d I. apply H. right. exact I. Qed.
Lemma exports_name l y : (forall c, In c y -> is_ws c = false) -> exports l y -> exists n r, split_once "=" (skipn 7 (trim_start l)) = Some (n, r) /\ trim n = y.
Proof.
  intros Y (u & a & b & r & Hu & Ha & Hb & N & ->). exists (a ++ y ++ b), r. rewrite trim_start_blanks by exact Hu.
  change (skipn 7 (trim_start (T "export " ++ a ++ y ++ b ++ "="%char :: r))) with (a ++ y ++ b ++ "="%char :: r). split.
  - replace (a ++ y ++ b ++ "="%char :: r) with ((a ++ y ++ b) ++ "="%char :: r) by (rewrite <- !app_assoc; reflexivity). apply split_once_app, N.
  - rewrite Text_lemmas.trim_app_ws_l by (apply blanks_ws, Ha). rewrite Text_lemmas.trim_app_ws_r by (apply blanks_ws, Hb).
    apply Text_lemmas.trim_no_ws. apply forallb_forall. intros c I. rewrite (Y c I). reflexivity.
Qed.
Example C104_example : ~ exported [python; pip] (T "HOME") /\ exported [python; pip] (T "PATH").
Proof.
  split.
  - intros (p & c & ls & l & Ip & Ec & Hl & Il & X). apply lines_split in Hl. subst ls.
    apply exports_name in X as (n & r & E & En); [|intros d I; cbn in I; repeat (destruct I as [<-|I]; [reflexivity|]); destruct I].
    destruct Ip as [<-|[<-|[]]]; injection Ec as <-; vm_compute in Il;
      repeat (destruct Il as [<-|Il]; [vm_compute in E; try discriminate E; injection E as <- <-; vm_compute in En; discriminate En|]); destruct Il.
  - exists pip, (T "export PATH=""{root}/bin:${PATH}"""), [T "export PATH=""{root}/bin:${PATH}"""], (T "export PATH=""{root}/bin:${PATH}""").
    split; [right; left; reflexivity|]. split; [reflexivity|]. split; [constructor; cbn; intuition discriminate|]. split; [left; reflexivity|].
    exists [], [], [], (T """{root}/bin:${PATH}"""). split; [intros d []|]. split; [intros d []|]. split; [intros d []|]. split; [cbn; intuition discriminate|reflexivity].
Qed.
Example C105_example : clear (Ref (T "PATH") :: Lit ":" :: Field (T "root") :: lits "/bin") /\
  tame pip (fun y => aget y base) (Ref (T "PATH") :: Field (T "root") :: lits "/bin") /\ aget (T "PATH") base = Some (T "/bin") /\
  stands pip (fun y => aget y base) (Field (T "root") :: lits "/bin") (T "/p/pip/bin").
Proof.
  split; [clears|]. split.
  - apply pip_tame. intros x w I E. destruct I as [I|I]; [|cbn in I; repeat (destruct I as [I|I]; [discriminate|]); destruct I]. injection I as <-.
    injection E as <-. cbn. intuition discriminate.
  - split; [reflexivity|]. apply (stands_field pip _ (T "root") (T "/p/pip")); [apply field_root|]. apply (stands_all _ _ (T "/bin")).
Qed.
Example C106_example : get_tools [python; pip] = [(T "python", T "/p/py/bin/python"); (T "pip", T "/p/pip/bin/pip")].
Proof. reflexivity. Qed.

Print Assumptions C103_lines_partial.
Print Assumptions C103_order_refuted.
Print Assumptions C103_unset_refuted.
Print Assumptions C103_field_name_refuted.
Print Assumptions C104_frame.
Print Assumptions C104_nothing.
Print Assumptions C105_extend.
Print Assumptions C105_unset.
Print Assumptions C105_no_empty_entry_refuted.
Print Assumptions C106_tools.
Print Assumptions C106_package.
Print Assumptions C106_has.
Print Assumptions C106_version_variant.
