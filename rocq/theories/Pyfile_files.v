(** Proofs about package.py files: fields hold the final values of variables, functions leave everything else alone, loaded packages are
    valid, files without multiplication never make the loader panic. *)
From Verif Require Import Base Base_lemmas Text_lemmas Maps Version_model Rex_model Filter_model Env_proofs Pyfile_model Pyfile_spec Pyfile_format Pyfile_proofs.
Open Scope char_scope.

(** ** Induction over statements *)
Section Ind.
Context (P : stmt -> Prop) (Hassign : forall ts e, P (SAssign ts e)) (Hdef : forall f body, Forall P body -> P (SDef f body)) (Himport : P SImport)
  (Hif : forall t a b, Forall P a -> Forall P b -> P (SIf t a b)) (Hexpr : forall e, P (SExpr e)) (Hpass : P SPass) (Hother : P SOther).
Fixpoint stmt_all (s : stmt) : P s :=
  match s with
  | SAssign ts e => Hassign ts e
  | SDef f body => Hdef f body ((fix go l : Forall P l := match l with [] => Forall_nil _ | x :: l' => Forall_cons x (stmt_all x) (go l') end) body)
  | SImport => Himport
  | SIf t a b => Hif t a b ((fix go l : Forall P l := match l with [] => Forall_nil _ | x :: l' => Forall_cons x (stmt_all x) (go l') end) a)
      ((fix go l : Forall P l := match l with [] => Forall_nil _ | x :: l' => Forall_cons x (stmt_all x) (go l') end) b)
  | SExpr e => Hexpr e
  | SPass => Hpass
  | SOther => Hother
  end.
End Ind.

(** ** Evaluation does not depend on variables that are not read *)
Lemma eval_list_ext f g es : Forall (fun x => f x = g x) es -> eval_list f es = eval_list g es.
Proof. intros F. induction F as [|x es Hx F IH]; [reflexivity|]. cbn. rewrite Hx, IH. reflexivity. Qed.
Lemma bool_loop_ext f g i es : Forall (fun x => f x = g x) es -> bool_loop f i es = bool_loop g i es.
Proof. intros F. induction F as [|x es Hx F IH]; [reflexivity|]. cbn. rewrite Hx, IH. reflexivity. Qed.
Lemma cmp_loop_ext f g l es : Forall (fun x => f (snd x) = g (snd x)) es -> cmp_loop f l es = cmp_loop g l es.
Proof. intros F. induction F as [|[op x] es Hx F IH]; [reflexivity|]. cbn in *. rewrite Hx, IH. reflexivity. Qed.
Lemma format_loop_ext f g es : Forall (fun x => f x = g x) es -> forall i t, format_loop f i t es = format_loop g i t es.
Proof. intros F. induction F as [|x es Hx F IH]; intros i t; [reflexivity|]. cbn [format_loop]. rewrite Hx. destruct (g x) as [v| |]; try reflexivity. cbn. destruct (format_arg v); [apply IH|reflexivity]. Qed.
Lemma Forall_all_of {A} (P Q R : A -> Prop) l : Forall (fun a => P a -> Q a -> R a) l -> all_of P l -> all_of Q l -> Forall R l.
Proof. intros F. induction F as [|x l Hx F IH]; intros HP HQ; [constructor|]. cbn in HP, HQ. constructor; [apply Hx; [apply HP|apply HQ]|apply IH; [apply HP|apply HQ]]. Qed.
Lemma eval_unread w env x v vars : forall e, tame w env e -> unread x e -> eval w (aput x v vars) e = eval w vars e.
Proof.
  apply (pexpr_all (fun e => tame w env e -> unread x e -> eval w (aput x v vars) e = eval w vars e)).
  - reflexivity.
  - intros y _ H. cbn in H. cbn [eval]. rewrite aget_put_other by exact H. reflexivity.
  - intros op a b Ha Hb Tm U. cbn in Tm, U. cbn [eval]. rewrite Ha, Hb by tauto. reflexivity.
  - intros op a Ha Tm U. cbn in Tm, U. cbn [eval]. rewrite Ha by tauto. reflexivity.
  - intros a rest Ha F Tm U. cbn in Tm, U. cbn [eval]. rewrite Ha by tauto. destruct (eval w vars a); try reflexivity. cbn. apply cmp_loop_ext.
    apply (Forall_all_of (fun r => tame w env (snd r)) (fun r => unread x (snd r))); [|apply Tm|apply U]. revert F. apply Forall_impl. tauto.
  - intros i es F Tm U. cbn in Tm, U. cbn [eval]. apply bool_loop_ext. destruct Tm as [_ Tm].
    apply (Forall_all_of (fun a => tame w env a /\ forall v, py w env a = Some v -> exists b, v = PyBool b) (unread x)); [|exact Tm|exact U]. revert F. apply Forall_impl. tauto.
  - intros es F Tm U. cbn in Tm, U. cbn [eval]. rewrite (eval_list_ext (eval w (aput x v vars)) (eval w vars)); [reflexivity|]. apply (Forall_all_of (tame w env) (unread x)); assumption.
  - intros es F Tm U. cbn in Tm, U. cbn [eval]. rewrite (eval_list_ext (eval w (aput x v vars)) (eval w vars)); [reflexivity|]. apply (Forall_all_of (tame w env) (unread x)); assumption.
  - intros kvs F Tm U. cbn [eval]. cbn in Tm, U. generalize (@nil (text * value)) as d. induction F as [|[k a] kvs [Hk Ha] F IH]; intros d; [reflexivity|].
    cbn in Tm, U. destruct Tm as [[Tk Ta] Tm]. destruct U as [[Uk Ua] U]. destruct k as [k|]; [|contradiction]. cbn in Hk, Ha. cbn [dict_loop].
    rewrite (Hk Tk Uk), (Ha Ta Ua). destruct (eval w vars k) as [kv| |]; try reflexivity. cbn. destruct (eval w vars a) as [av| |]; try reflexivity. cbn.
    destruct kv; try reflexivity. apply (IH Tm U).
  - intros f args kws Hf Ho F _ Tm U. destruct f as [| | | | | | | | | |o a| | |]; try reflexivity. cbn in Tm. destruct Tm as (_ & To & Ta & _ & _). cbn in U. destruct U as (Uo & Ua & _).
    specialize (Ho o a eq_refl To Uo). cbn [eval]. rewrite Ho.
    assert (G : Forall (fun x0 => eval w (aput x v vars) x0 = eval w vars x0) args) by (apply (Forall_all_of (tame w env) (unread x)); assumption).
    assert (R : forall s, format_loop (eval w (aput x v vars)) 0 s args = format_loop (eval w vars) 0 s args) by (intros s; apply format_loop_ext, G).
    set (R1 := if text_eqb a (T "lower") then _ else _). set (R2 := if text_eqb a (T "lower") then _ else _).
    assert (ER : R1 = R2).
    { subst R1 R2. destruct (text_eqb a (T "lower")); [reflexivity|]. destruct (text_eqb a (T "format")); [|reflexivity]. destruct (eval w vars o) as [u| |]; try reflexivity. cbn. destruct u; try reflexivity. apply R. }
    rewrite ER. clearbody R2. clear R1 ER. destruct o; try reflexivity. destruct args as [|n more]; [reflexivity|]. inversion G as [|? ? Gn Gm]; subst. rewrite Gn.
    destruct (text_eqb x0 (T "os") && text_eqb a (T "getenv")); [|reflexivity]. destruct (eval w vars n) as [u| |]; try reflexivity. cbn. destruct u; try reflexivity.
    destruct (w_env w s); [reflexivity|]. destruct more as [|d more]; [reflexivity|]. inversion Gm; subst. assumption.
  - intros o a Ho Tm U. cbn [eval]. destruct o as [|m| | | | | | | | |o b| | |]; try reflexivity.
    + cbn in Tm. unfold eval_attr. destruct (text_eqb_spec m (T "this")) as [->|N]; [exfalso; apply (proj1 Tm); reflexivity|]. reflexivity.
    + cbn in Tm. destruct o as [|m| | | | | | | | | | | |]; try reflexivity. unfold eval_attr. destruct (text_eqb_spec m (T "this")) as [->|N]; [exfalso; apply Tm; reflexivity|]. reflexivity.
  - reflexivity.
  - intros t b o Ht Hb Ho Tm U. cbn in Tm, U. cbn [eval]. rewrite Ht, Hb, Ho by tauto. reflexivity.
  - reflexivity.
Qed.

(** ** Fields *)
Lemma kind_text x : mem_text x text_fields = true -> kind_of x = Some KdText.
Proof. intros H. unfold kind_of. rewrite H. reflexivity. Qed.
Lemma kind_list x : mem_text x list_fields = true -> kind_of x = Some KdTexts.
Proof. intros H. apply mem_text_in in H. cbn in H. repeat destruct H as [<-|H]; try reflexivity. destruct H. Qed.
Lemma kind_bool x : mem_text x bool_fields = true -> kind_of x = Some KdBool.
Proof. intros H. apply mem_text_in in H. cbn in H. repeat destruct H as [<-|H]; try reflexivity. destruct H. Qed.
Lemma each_texts ls : each Pyfile_model.item_text (map VStr ls) = Ok ls.
Proof. induction ls as [|s ls IH]; [reflexivity|]. cbn. rewrite IH. reflexivity. Qed.
Lemma same_texts l p : Forall2 same l (map PyStr p) -> l = map VStr p.
Proof.
  revert l. induction p as [|s p IH]; intros l F; inversion F; subst; [reflexivity|]. cbn. f_equal; [|apply IH; assumption]. now match goal with H : same _ (PyStr _) |- _ => inversion H end.
Qed.
Lemma same_py_texts v p ls : same v p -> py_texts p ls -> v = VList (map VStr ls).
Proof.
  intros S [->| ->]; inversion S; subst; f_equal; apply same_texts; assumption.
Qed.
Lemma same_tests d l : Forall2 (fun a b => fst a = fst b /\ same (snd a) (snd b)) d (map (fun b : text * text => (fst b, PyStr (snd b))) l) ->
  d = map (fun b => (fst b, VStr (snd b))) l.
Proof.
  revert d. induction l as [|[k s] l IH]; intros d F; inversion F as [|[a b] ? ? ? [H1 H2] F']; subst; [reflexivity|]. cbn in H1, H2 |- *. subst. inversion H2; subst. f_equal. apply IH, F'.
Qed.
Lemma each_tests (l : list (text * text)) : each (fun b => match snd b with VStr s => Ok (fst b, s) | _ => Err end) (map (fun b => (fst b, VStr (snd b))) l) = Ok l.
Proof. induction l as [|[k s] l IH]; [reflexivity|]. cbn. cbn in IH. rewrite IH. reflexivity. Qed.
Lemma field_get x o d : aget x (set_field x o d) = match o with Some f => Some f | None => aget x d end.
Proof. destruct o; cbn; [apply aget_put_same|reflexivity]. Qed.
Lemma field_other x y o d : y <> x -> aget y (set_field x o d) = aget y d.
Proof. intros H. destruct o; cbn; [apply aget_put_other, H|reflexivity]. Qed.
Lemma holds_ext x v d d' : aget x d = aget x d' -> holds x v d -> holds x v d'.
Proof.
  unfold holds, text_field, texts_field, bool_field, int_field, variants_field, tests_field. intros E H. rewrite <- E.
  destruct H as (H1 & H2 & H3 & H4 & H5 & H6 & H7). repeat (split; [assumption|]). split.
  - intros l ls Hv Hl Hx. specialize (H6 l ls Hv Hl Hx). rewrite Hx in E. rewrite <- E. exact H6.
  - intros l Hl Hx. specialize (H7 l Hl Hx). rewrite Hx in E. rewrite <- E. exact H7.
Qed.
Lemma wrap32_fits z : (- 2147483648 <= z <= 2147483647)%Z -> wrap32 z = z.
Proof. intros H. unfold wrap32. rewrite Z.mod_small by lia. lia. Qed.
Lemma assign_holds w env vars x e v p o d : vars_agree vars env -> tame w env e -> unread x e -> eval w vars e = Ok v -> py w env e = Some p -> same v p ->
  field_of w (aput x v vars) x e = Ok o -> holds x p (set_field x o d).
Proof.
  intros VA Te Ue Ev Ep S Fo. pose proof (eval_unread w env x v vars e Te Ue) as Eu. rewrite Ev in Eu.
  unfold holds, text_field, texts_field, bool_field, int_field, variants_field, tests_field.
  split; [|split; [|split; [|split; [|split; [|split]]]]].
  - intros s -> Hx. rewrite field_get. inversion S; subst. unfold field_of in Fo. destruct Hx as [Hx| ->].
    + rewrite (kind_text x Hx) in Fo. unfold xstr in Fo. rewrite Eu in Fo. cbn in Fo. injection Fo as <-. reflexivity.
    + change (kind_of (T "commands")) with (Some KdCommands) in Fo. unfold if_ok, xstr in Fo. rewrite Eu in Fo. cbn in Fo. injection Fo as <-. reflexivity.
  - intros l Hl Hx. rewrite field_get. unfold field_of in Fo. rewrite (kind_list x Hx) in Fo. unfold xlist in Fo. rewrite Eu in Fo.
    rewrite (same_py_texts v p l S Hl) in Fo. rewrite each_texts in Fo. injection Fo as <-. reflexivity.
  - intros b -> Hx. rewrite field_get. inversion S; subst. unfold field_of in Fo. rewrite (kind_bool x Hx) in Fo. unfold xbool in Fo. rewrite Eu in Fo. injection Fo as <-. reflexivity.
  - intros -> Hx. rewrite field_get. inversion S; subst. unfold field_of in Fo. rewrite (kind_bool x Hx) in Fo. unfold xbool in Fo. rewrite Eu in Fo. injection Fo as <-. reflexivity.
  - intros z -> Hz ->. rewrite field_get. inversion S; subst. unfold field_of in Fo. change (kind_of (T "format_version")) with (Some KdInt) in Fo. unfold xint in Fo. rewrite Eu in Fo.
    injection Fo as <-. rewrite wrap32_fits by exact Hz. reflexivity.
  - intros l ls -> Hl ->. rewrite field_get. unfold field_of in Fo. change (kind_of (T "variants")) with (Some KdVariants) in Fo. unfold xvariants in Fo.
    destruct e as [| | | | | |es| | | | | | |]; try discriminate Fo. cbn [eval] in Ev. apply bind_ok in Ev. destruct Ev as (vs & Evs & Ev). injection Ev as <-.
    cbn in Ep. destruct (all_some (map (py w env) es)) as [ps|] eqn:Eps; [|discriminate Ep]. injection Ep as ->. inversion S as [| | | |? ? Sl| |]; subst.
    assert (K : each (xlist w (aput (T "variants") (VList vs) vars)) es = Ok ls).
    { clear Fo S Eu. revert vs Evs Sl. generalize (aget (T "variants") vars). intros _. cbn in Te, Ue.
      assert (G : forall u es0 vs0 l0 ls0, all_of (tame w env) es0 -> all_of (unread (T "variants")) es0 -> eval_list (eval w vars) es0 = Ok vs0 -> Forall2 same vs0 l0 -> Forall2 py_texts l0 ls0 ->
                  each (xlist w (aput (T "variants") u vars)) es0 = Ok ls0).
      { intros u. induction es0 as [|a es0 IH]; intros vs0 l0 ls0 Ta Ua E0 S0 P0.
        - injection E0 as <-. inversion S0; subst. inversion P0; subst. reflexivity.
        - cbn in Ta, Ua. destruct Ta as [Ta1 Ta]. destruct Ua as [Ua1 Ua]. cbn [eval_list] in E0. apply bind_ok in E0. destruct E0 as (b & Eb & E0). apply bind_ok in E0. destruct E0 as (r & Er & E0).
          injection E0 as <-. inversion S0 as [|? ? ? ? Sb S0']; subst. inversion P0 as [|? ? ? ? Pb P0']; subst.
          assert (Hb : xlist w (aput (T "variants") u vars) a = Ok y0).
          { unfold xlist. rewrite (eval_unread w env) by assumption. rewrite Eb. rewrite (same_py_texts b y y0 Sb Pb). apply each_texts. }
          cbn [each]. rewrite Hb. cbn [bind]. rewrite (IH r l' l'0 Ta Ua Er S0' P0'). reflexivity. }
      intros vs Evs Sl. apply (G (VList vs) es vs l ls); assumption. }
    rewrite K in Fo. injection Fo as <-. reflexivity.
  - intros l -> ->. rewrite field_get. inversion S as [| | | | | |dd ? Sd]; subst. unfold field_of in Fo. change (kind_of (T "tests")) with (Some KdTests) in Fo. unfold xtests in Fo. rewrite Eu in Fo.
    rewrite (same_tests dd l Sd) in Fo. rewrite each_tests in Fo. injection Fo as <-. reflexivity.
Qed.

(** ** Files *)
Definition linked (st : pstate) (env : list (text * pyval)) : Prop :=
  vars_agree (s_vars st) env /\ (forall x v, aget x env = Some v -> holds x v (s_data st)) /\ (forall x, aget x env = None -> aget x (s_data st) = None).
Lemma agree_put vars env x v p : vars_agree vars env -> same v p -> vars_agree (aput x v vars) (aput x p env).
Proof.
  intros VA S y. destruct (text_eqb y x) eqn:E; [apply text_eqb_eq in E; subst|apply text_eqb_neq in E].
  - rewrite !aget_put_same. now exists p.
  - rewrite !aget_put_other by exact E. apply VA.
Qed.
Lemma agree_def vars env f b : vars_agree vars env -> (forall v, aget f env = Some v -> exists b, v = PyFunc b) -> vars_agree vars (aput f (PyFunc b) env).
Proof.
  intros VA H y. specialize (VA y) as Vy. destruct (text_eqb y f) eqn:E; [apply text_eqb_eq in E; subst|apply text_eqb_neq in E].
  - rewrite aget_put_same. destruct (aget f vars) as [v|]; [|right; now exists b]. exfalso. destruct Vy as (p & Ep & Sp). destruct (H p Ep) as (b' & ->). inversion Sp.
  - rewrite aget_put_other by exact E. exact Vy.
Qed.
Lemma process_linked w : forall s st env st', linked st env -> tidy w env s -> process w st s = Ok st' -> exists env', exec w env s = Some env' /\ linked st' env'.
Proof.
  apply (stmt_all (fun s => forall st env st', linked st env -> tidy w env s -> process w st s = Ok st' -> exists env', exec w env s = Some env' /\ linked st' env')).
  - intros ts e st env st' L Td E. cbn in Td. destruct Td as [(x & -> & Ue) Te]. cbn [process] in E. unfold assign in E. apply bind_ok in E. destruct E as (v & Ev & E).
    apply bind_ok in E. destruct E as (o & Eo & E). injection E as <-. destruct L as (VA & HO & NO). destruct (eval_agrees w _ _ VA e Te v Ev) as (p & Ep & Sp).
    exists (aput x p env). split; [cbn; rewrite Ep; reflexivity|]. split; [|split]; cbn [s_vars s_data].
    + apply agree_put; assumption.
    + intros y u Hy. destruct (text_eqb y x) eqn:E; [apply text_eqb_eq in E; subst|apply text_eqb_neq in E].
      * rewrite aget_put_same in Hy. injection Hy as <-. apply (assign_holds w env (s_vars st) x e v p o); assumption.
      * rewrite aget_put_other in Hy by exact E. apply (holds_ext y u (s_data st)); [symmetry; apply field_other, E|apply HO, Hy].
    + intros y Hy. destruct (text_eqb y x) eqn:E; [apply text_eqb_eq in E; subst; rewrite aget_put_same in Hy; discriminate Hy|apply text_eqb_neq in E].
      rewrite aget_put_other in Hy by exact E. rewrite field_other by exact E. apply NO, Hy.
  - intros f body _ st env st' L Td E. cbn in Td. cbn [process] in E. destruct (mem_text f function_fields); [|discriminate E]. unfold command_body in E.
    apply bind_ok in E. destruct E as (c & Ec & E). injection E as <-. destruct L as (VA & HO & NO). exists (aput f (PyFunc body) env). split; [reflexivity|]. split; [|split]; cbn [s_vars s_data].
    + apply agree_def; assumption.
    + intros y u Hy. destruct (text_eqb y f) eqn:E; [apply text_eqb_eq in E; subst|apply text_eqb_neq in E].
      * rewrite aget_put_same in Hy. injection Hy as <-. unfold holds, py_texts. repeat split; try discriminate; intros; try discriminate. destruct H; discriminate.
      * rewrite aget_put_other in Hy by exact E. apply (holds_ext y u (s_data st)); [symmetry; apply aget_put_other, E|apply HO, Hy].
    + intros y Hy. destruct (text_eqb y f) eqn:E; [apply text_eqb_eq in E; subst; rewrite aget_put_same in Hy; discriminate Hy|apply text_eqb_neq in E].
      rewrite aget_put_other in Hy by exact E. rewrite aget_put_other by exact E. apply NO, Hy.
  - intros st env st' L _ E. injection E as <-. exists env. split; [reflexivity|exact L].
  - intros t a b Fa Fb st env st' L Td E. cbn in Td. destruct Td as (Tt & Bt & Ta & Tb). cbn [process] in E. apply bind_ok in E. destruct E as (v & Ev & E).
    destruct (eval_agrees w _ _ (proj1 L) t Tt v Ev) as (p & Ep & Sp). destruct v as [| |c| | |]; try discriminate E. inversion Sp; subst. cbn [exec]. rewrite Ep. cbn [obind truthy].
    assert (K : forall l, Forall (fun s => forall st env st', linked st env -> tidy w env s -> process w st s = Ok st' -> exists env', exec w env s = Some env' /\ linked st' env') l ->
      forall st env, linked st env -> tidy_loop (tidy w) (exec w) env l -> process_loop (process w) st l = Ok st' -> exists env', exec_loop (exec w) env l = Some env' /\ linked st' env').
    { clear. intros l F. induction F as [|s l Hs F IH]; intros st env L Td E.
      - injection E as <-. exists env. split; [reflexivity|exact L].
      - cbn in Td. destruct Td as [Ts Td]. cbn [process_loop] in E. apply bind_ok in E. destruct E as (st1 & E1 & E). destruct (Hs st env st1 L Ts E1) as (env1 & X1 & L1).
        destruct (IH st1 env1 L1 (Td env1 X1) E) as (env2 & X2 & L2). exists env2. split; [cbn; rewrite X1; exact X2|exact L2]. }
    destruct c; [apply (K a Fa st env L (Ta Ep) E)|apply (K b Fb st env L (Tb Ep) E)].
  - intros e st env st' L Te E. cbn [process] in E. apply bind_ok in E. destruct E as (v & Ev & E). injection E as <-.
    destruct (eval_agrees w _ _ (proj1 L) e Te v Ev) as (p & Ep & _). exists env. split; [cbn; rewrite Ep; reflexivity|exact L].
  - intros st env st' L _ E. injection E as <-. exists env. split; [reflexivity|exact L].
  - intros st env st' L _ E. discriminate E.
Qed.
Lemma loop_linked w : forall l st env st', linked st env -> tidy_all w env l -> process_loop (process w) st l = Ok st' -> exists env', exec_all w env l = Some env' /\ linked st' env'.
Proof.
  induction l as [|s l IH]; intros st env st' L Td E.
  - injection E as <-. exists env. split; [reflexivity|exact L].
  - cbn in Td. destruct Td as [Ts Td]. cbn [process_loop] in E. apply bind_ok in E. destruct E as (st1 & E1 & E). destruct (process_linked w s st env st1 L Ts E1) as (env1 & X1 & L1).
    destruct (IH st1 env1 st' L1 (Td env1 X1) E) as (env2 & X2 & L2). exists env2. split; [cbn; rewrite X1; exact X2|exact L2].
Qed.
Lemma linked_start : linked (mkState [] []) [].
Proof. split; [intros x; left; reflexivity|]. split; [discriminate|reflexivity]. Qed.
Lemma build_data d p : build_package d = Ok p -> y_data p = d /\ validate p = true /\ head_ok p.
Proof.
  unfold build_package. destruct (text_field (T "name") d) as [n|] eqn:En; [|discriminate]. unfold head_ok.
  destruct (text_field (T "version") d) as [s|] eqn:Ev.
  - destruct (parse_version s) as [v|] eqn:Epv; [|discriminate]. cbv zeta. destruct (validate (mkPy n (Some v) d)) eqn:Eva; [|discriminate]. intros [= <-].
    cbn [y_data y_name y_version]. split; [reflexivity|]. split; [exact Eva|]. split; [exact En|]. rewrite Ev. split; [exact Epv|discriminate].
  - cbv zeta. destruct (validate (mkPy n None d)) eqn:Eva; [|discriminate]. intros [= <-]. cbn [y_data y_name y_version]. split; [reflexivity|]. split; [exact Eva|]. split; [exact En|]. rewrite Ev. reflexivity.
Qed.
Lemma load_fields w file p : tidy_all w [] file -> load w file = Ok p ->
  exists env, exec_all w [] file = Some env /\ (forall x v, aget x env = Some v -> holds x v (y_data p)) /\
    (forall x, aget x env = None -> aget x (y_data p) = None) /\ head_ok p.
Proof.
  intros Td E. unfold load in E. apply bind_ok in E. destruct E as (st & Es & E). destruct (build_data _ _ E) as (D & _ & H).
  destruct (loop_linked w file _ _ st linked_start Td Es) as (env & X & _ & HO & NO). exists env. rewrite D. split; [exact X|]. split; [exact HO|]. split; [exact NO|exact H].
Qed.

(** ** Validity *)
Lemma nonempty_all l : forallb (fun r : text => negb (is_nil r)) l = true <-> ~ In [] l.
Proof.
  rewrite forallb_forall. split.
  - intros H I. specialize (H [] I). discriminate H.
  - intros H x I. destruct x; [contradiction|reflexivity].
Qed.
Lemma validate_iff p : validate p = true <-> valid_package p.
Proof.
  unfold validate, valid_package. rewrite !andb_true_iff, !nonempty_all. split.
  - intros [[[[[[H1 H2] H3] H4] H5] H6] H7]. split; [destruct (y_name p); [discriminate H1|discriminate]|]. split.
    { intros c I. rewrite forallb_forall in H2. specialize (H2 c I). unfold name_char in H2. apply orb_true_iff in H2. destruct H2 as [H2|H2].
      - apply orb_true_iff in H2. destruct H2 as [H2|H2]; [now left|right; left; now apply Ascii.eqb_eq].
      - right. right. now apply Ascii.eqb_eq. }
    split; [intros v Ev; rewrite Ev in H3; destruct (v_str v); [discriminate H3|discriminate]|].
    split; [intros x [<-|[<-|[<-|[]]]]; assumption|]. intros l I. rewrite forallb_forall in H7. apply nonempty_all, H7, I.
  - intros (H1 & H2 & H3 & H4 & H5). repeat split.
    + destruct (y_name p); [congruence|reflexivity].
    + apply forallb_forall. intros c I. unfold name_char. apply orb_true_iff. destruct (H2 c I) as [K|[->| ->]]; [left; apply orb_true_iff; now left|left; apply orb_true_iff; right; reflexivity|right; reflexivity].
    + destruct (y_version p) as [v|]; [|reflexivity]. specialize (H3 v eq_refl). destruct (v_str v); [congruence|reflexivity].
    + apply H4. now left.
    + apply H4. right. now left.
    + apply H4. right. right. now left.
    + apply forallb_forall. intros l I. apply nonempty_all, H5, I.
Qed.
Lemma load_valid w file p : load w file = Ok p -> valid_package p.
Proof. intros E. unfold load in E. apply bind_ok in E. destruct E as (st & _ & E). apply validate_iff, (build_data _ _ E). Qed.

(** ** Functions leave the rest of the package alone *)
Definition upto (f : text) (a b : pstate) : Prop := s_vars a = s_vars b /\ forall x, x <> f -> aget x (s_data a) = aget x (s_data b).
Lemma upto_field f x o a b : (forall y, y <> f -> aget y a = aget y b) -> forall y, y <> f -> aget y (set_field x o a) = aget y (set_field x o b).
Proof.
  intros H y Hy. destruct (text_eqb y x) eqn:E; [apply text_eqb_eq in E; subst|apply text_eqb_neq in E].
  - rewrite !field_get. destruct o; [reflexivity|apply H, Hy].
  - rewrite !field_other by exact E. apply H, Hy.
Qed.
Lemma process_upto w f : forall s a b a', upto f a b -> process w a s = Ok a' -> exists b', process w b s = Ok b' /\ upto f a' b'.
Proof.
  apply (stmt_all (fun s => forall a b a', upto f a b -> process w a s = Ok a' -> exists b', process w b s = Ok b' /\ upto f a' b')).
  - intros ts e a b a' [UV UD] E. destruct ts as [|[] ts]; try (injection E as <-; exists b; split; [reflexivity|split; assumption]).
    cbn [process] in *. unfold assign in *. rewrite <- UV. apply bind_ok in E. destruct E as (v & Ev & E). apply bind_ok in E. destruct E as (o & Eo & E). injection E as <-.
    rewrite Ev. cbn [bind]. rewrite Eo. cbn [bind]. eexists. split; [reflexivity|]. split; [reflexivity|]. cbn [s_data]. apply upto_field, UD.
  - intros g body _ a b a' [UV UD] E. cbn [process] in *. destruct (mem_text g function_fields); [|discriminate E]. unfold command_body in *. rewrite <- UV.
    apply bind_ok in E. destruct E as (c & Ec & E). injection E as <-. rewrite Ec. cbn [bind]. eexists. split; [reflexivity|]. split; [reflexivity|].
    cbn [s_data]. apply (upto_field f g (Some (FText c))), UD.
  - intros a b a' U E. injection E as <-. exists b. split; [reflexivity|exact U].
  - intros t x y Fx Fy a b a' U E. cbn [process] in *. rewrite <- (proj1 U). apply bind_ok in E. destruct E as (v & Ev & E). rewrite Ev. cbn [bind].
    assert (K : forall l, Forall (fun s => forall a b a', upto f a b -> process w a s = Ok a' -> exists b', process w b s = Ok b' /\ upto f a' b') l ->
      forall a b, upto f a b -> process_loop (process w) a l = Ok a' -> exists b', process_loop (process w) b l = Ok b' /\ upto f a' b').
    { clear. intros l F. induction F as [|s l Hs F IH]; intros a b U E; [injection E as <-; exists b; split; [reflexivity|exact U]|].
      cbn [process_loop] in *. apply bind_ok in E. destruct E as (a1 & E1 & E). destruct (Hs a b a1 U E1) as (b1 & X1 & U1). rewrite X1. cbn [bind]. apply (IH a1 b1 U1 E). }
    destruct v as [| |c| | |]; try discriminate E. destruct c; [apply (K x Fx a b U E)|apply (K y Fy a b U E)].
  - intros e a b a' U E. cbn [process] in *. rewrite <- (proj1 U). apply bind_ok in E. destruct E as (v & Ev & E). injection E as <-. rewrite Ev. exists b. split; [reflexivity|exact U].
  - intros a b a' U E. injection E as <-. exists b. split; [reflexivity|exact U].
  - intros a b a' U E. discriminate E.
Qed.
Lemma loop_upto w f : forall l a b a', upto f a b -> process_loop (process w) a l = Ok a' -> exists b', process_loop (process w) b l = Ok b' /\ upto f a' b'.
Proof.
  induction l as [|s l IH]; intros a b a' U E; [injection E as <-; exists b; split; [reflexivity|exact U]|].
  cbn [process_loop] in *. apply bind_ok in E. destruct E as (a1 & E1 & E). destruct (process_upto w f s a b a1 U E1) as (b1 & X1 & U1). rewrite X1. cbn [bind]. apply (IH a1 b1 a' U1 E).
Qed.
Lemma loop_app w : forall l m st, process_loop (process w) st (l ++ m) = bind (process_loop (process w) st l) (fun st' => process_loop (process w) st' m).
Proof. induction l as [|s l IH]; intros m st; [reflexivity|]. cbn. destruct (process w st s); [apply IH|reflexivity|reflexivity]. Qed.
Lemma build_upto f d d' p : In f function_fields -> (forall x, x <> f -> aget x d = aget x d') -> build_package d = Ok p ->
  exists p', build_package d' = Ok p' /\ y_name p' = y_name p /\ y_version p' = y_version p /\ forall x, x <> f -> aget x (y_data p') = aget x (y_data p).
Proof.
  intros Hf H E.
  assert (K : forall x, In x [T "name"; T "version"; T "requires"; T "build_requires"; T "private_build_requires"; T "variants"] -> x <> f).
  { intros x I ->. cbn in Hf, I. repeat destruct Hf as [<-|Hf]; try contradiction; repeat destruct I as [I|I]; try discriminate I; destruct I. }
  assert (V : forall n v, validate (mkPy n v d) = validate (mkPy n v d')).
  { intros n v. unfold validate, texts_field, variants_field. cbn [y_data y_name y_version]. rewrite !H by (apply K; cbn; tauto). reflexivity. }
  unfold build_package in *. unfold text_field in *. rewrite <- !H by (apply K; cbn; tauto).
  destruct (match aget (T "name") d with Some (FText o) => o | _ => None end) as [n|]; [|discriminate E].
  destruct (match match aget (T "version") d with Some (FText o) => o | _ => None end with Some s => _ | None => _ end) as [v|]; [|discriminate E].
  cbv zeta in *. rewrite <- V. destruct (validate (mkPy n v d)); [|discriminate E]. injection E as <-. eexists. split; [reflexivity|]. cbn. split; [reflexivity|]. split; [reflexivity|].
  intros x Hx. symmetry. apply H, Hx.
Qed.
Lemma function_removed w pre f body post p : load w (pre ++ SDef f body :: post) = Ok p ->
  exists p', load w (pre ++ post) = Ok p' /\ y_name p' = y_name p /\ y_version p' = y_version p /\ forall x, x <> f -> aget x (y_data p') = aget x (y_data p).
Proof.
  intros E. unfold load in E. rewrite loop_app in E. apply bind_ok in E. destruct E as (st & Es & E). apply bind_ok in Es. destruct Es as (st0 & E0 & Es).
  cbn [process_loop] in Es. apply bind_ok in Es. destruct Es as (st1 & E1 & Es). cbn [process] in E1. destruct (mem_text f function_fields) eqn:Ef; [|discriminate E1].
  unfold command_body in E1. apply bind_ok in E1. destruct E1 as (c & Ec & E1). injection E1 as <-.
  assert (U : upto f (mkState (s_vars st0) (aput f (FText c) (s_data st0))) st0).
  { split; [reflexivity|]. intros x Hx. cbn. apply aget_put_other, Hx. }
  destruct (loop_upto w f post _ _ _ U Es) as (st' & X & [UV UD]). apply mem_text_in in Ef. destruct (build_upto f _ _ p Ef UD E) as (p' & X' & R). exists p'. split; [|exact R].
  unfold load. rewrite loop_app, E0. cbn [bind]. rewrite X. cbn [bind]. exact X'.
Qed.

(** ** Panics *)
Lemma bind_calm {A B} (r : res A) (k : A -> res B) : r <> Panic -> (forall a, r = Ok a -> k a <> Panic) -> bind r k <> Panic.
Proof. intros H K. destruct r as [a| |]; cbn; [apply K; reflexivity|discriminate|congruence]. Qed.
Lemma if_ok_calm {A} r (f : text -> res A) k : r <> Panic -> (forall t, f t <> Panic) -> k <> Panic -> if_ok r f k <> Panic.
Proof. intros H F K. destruct r as [a| |]; cbn; [apply F|exact K|congruence]. Qed.
Lemma eval_bin_calm op l r : op <> Mult -> eval_bin op l r <> Panic.
Proof. intros H. destruct op, l; try discriminate; try congruence; destruct r; discriminate. Qed.
Lemma eval_attr_calm w vars o a : eval_attr w vars o a <> Panic.
Proof.
  unfold eval_attr. destruct o; try discriminate.
  - repeat match goal with |- context [if ?b then _ else _] => destruct b end; try discriminate. destruct (aget a vars); discriminate.
  - destruct o; try discriminate. destruct (text_eqb x (T "this") && text_eqb a0 (T "version")); [|discriminate]. destruct (aget (T "version") vars) as [[]|]; try discriminate. cbv zeta.
    destruct (text_eqb a (T "major")); [destruct (nth_error _ _); discriminate|]. destruct (text_eqb a (T "minor")); [destruct (nth_error _ _); discriminate|].
    destruct (text_eqb a (T "patch")); [destruct (nth_error _ _); discriminate|discriminate].
Qed.
Lemma eval_calm w vars : forall e, unmultiplied e -> eval w vars e <> Panic.
Proof.
  apply (pexpr_all (fun e => unmultiplied e -> eval w vars e <> Panic)).
  - intros k _. destruct k; cbn; try discriminate. destruct (in_i64 z); discriminate.
  - intros x _. cbn. destruct (aget x vars); discriminate.
  - intros op a b Ha Hb (Ho & Ua & Ub). cbn [eval]. apply bind_calm; [apply Ha, Ua|]. intros l _. apply bind_calm; [apply Hb, Ub|]. intros r _. apply eval_bin_calm, Ho.
  - intros op a Ha U. cbn [eval]. apply bind_calm; [apply Ha, U|]. intros l _. destruct op, l; discriminate.
  - intros a rest Ha F (Ua & Ur). cbn [eval]. apply bind_calm; [apply Ha, Ua|]. intros l _. clear Ha Ua. induction F as [|[op x] rest Hx F IH]; [discriminate|].
    destruct Ur as [Ux Ur]. cbn [cmp_loop]. apply bind_calm; [apply Hx, Ux|]. intros r _. destruct (eval_cmp op l r) as [[]|]; [apply IH, Ur|discriminate|discriminate].
  - intros i es F U. cbn [eval]. induction F as [|x es Hx F IH]; [discriminate|]. destruct U as [Ux U]. cbn [bool_loop]. apply bind_calm; [apply Hx, Ux|].
    intros v _. destruct v; try (apply IH, U). destruct (Bool.eqb b i); [apply IH, U|discriminate].
  - intros es F U. cbn [eval]. apply bind_calm; [|discriminate]. induction F as [|x es Hx F IH]; [discriminate|]. destruct U as [Ux U]. cbn [eval_list]. apply bind_calm; [apply Hx, Ux|].
    intros v _. apply bind_calm; [apply IH, U|discriminate].
  - intros es F U. cbn [eval]. apply bind_calm; [|discriminate]. induction F as [|x es Hx F IH]; [discriminate|]. destruct U as [Ux U]. cbn [eval_list]. apply bind_calm; [apply Hx, Ux|].
    intros v _. apply bind_calm; [apply IH, U|discriminate].
  - intros kvs F U. cbn [eval]. generalize (@nil (text * value)). induction F as [|[k x] kvs [Hk Hx] F IH]; intros d; [discriminate|]. destruct U as [[Uk Ux] U]. cbn in Hk, Hx, Uk, Ux.
    cbn [dict_loop]. destruct k as [k|]; [|apply IH, U]. apply bind_calm; [apply Hk, Uk|]. intros kv _. apply bind_calm; [apply Hx, Ux|]. intros xv _. destruct kv; try discriminate. apply IH, U.
  - intros f args kws _ Ho F _ (Uf & Ua). destruct f as [| | | | | | | | | |o a| | |]; try discriminate. specialize (Ho o a eq_refl Uf). cbn [eval].
    assert (G : forall i t, format_loop (eval w vars) i t args <> Panic).
    { clear -F Ua. induction F as [|x args Hx F IH]; intros i t; [discriminate|]. destruct Ua as [Ux Ua]. cbn [format_loop]. apply bind_calm; [apply Hx, Ux|]. intros v _. destruct (format_arg v); [apply IH, Ua|discriminate]. }
    set (R := if text_eqb a (T "lower") then _ else _).
    assert (HR : R <> Panic).
    { subst R. destruct (text_eqb a (T "lower")); [apply bind_calm; [exact Ho|]; intros v _; destruct v; discriminate|]. destruct (text_eqb a (T "format")); [|discriminate].
      apply bind_calm; [exact Ho|]. intros v _. destruct v; try discriminate. apply G. }
    clearbody R. destruct o; try exact HR. destruct args as [|n more]; [exact HR|]. destruct (text_eqb x (T "os") && text_eqb a (T "getenv")); [|exact HR].
    destruct Ua as [Un Um]. inversion F as [|? ? Hn Fm]; subst. apply bind_calm; [apply Hn, Un|]. intros v _. destruct v; try exact HR. destruct (w_env w s); [discriminate|].
    destruct more as [|d more]; [discriminate|]. inversion Fm as [|? ? Hd _]; subst. apply Hd, Um.
  - intros o a _ _. apply eval_attr_calm.
  - discriminate.
  - intros t b o Ht Hb Ho (Ut & Ub & Uo). cbn [eval]. apply bind_calm; [apply Ht, Ut|]. intros v _. destruct v as [| |[]| | |]; try discriminate; [apply Hb, Ub|apply Ho, Uo].
  - discriminate.
Qed.
Lemma xstr_calm w vars e : unmultiplied e -> xstr w vars e <> Panic.
Proof.
  intros U. pose proof (eval_calm w vars e U) as H. unfold xstr. destruct (eval w vars e) as [v| |]; [|destruct e as [[]| | | | | | | | | | | | |]; discriminate|congruence].
  destruct (text_of v); [discriminate|]. destruct e as [[]| | | | | | | | | | | | |]; discriminate.
Qed.
Lemma each_calm {A B} (f : A -> res B) l : (forall a, In a l -> f a <> Panic) -> each f l <> Panic.
Proof.
  induction l as [|x l IH]; intros H; [discriminate|]. cbn. apply bind_calm; [apply H; now left|]. intros y _. apply bind_calm; [apply IH; intros a I; apply H; now right|discriminate].
Qed.
Lemma item_calm v : Pyfile_model.item_text v <> Panic.
Proof. unfold Pyfile_model.item_text. destruct (text_of v); discriminate. Qed.
Lemma xlist_calm w vars e : unmultiplied e -> xlist w vars e <> Panic.
Proof.
  intros U. pose proof (eval_calm w vars e U) as H. unfold xlist.
  assert (F : match e with EList es | ETuple es => each (xstr w vars) es | _ => Err end <> Panic).
  { destruct e; try discriminate; apply each_calm; intros a I; apply xstr_calm; cbn in U; apply (proj1 (all_of_in _ _) U a I). }
  destruct (eval w vars e) as [[]| |]; try exact F; [|congruence]. apply each_calm. intros a _. apply item_calm.
Qed.
Lemma field_of_calm w vars x e : unmultiplied e -> field_of w vars x e <> Panic.
Proof.
  intros U. unfold field_of. destruct (kind_of x) as [[]|]; [..|discriminate].
  - apply bind_calm; [apply xstr_calm, U|discriminate].
  - apply bind_calm; [apply xlist_calm, U|discriminate].
  - apply bind_calm; [|discriminate]. unfold xvariants. destruct e; try discriminate. apply each_calm. intros a I. apply xlist_calm. cbn in U. apply (proj1 (all_of_in _ _) U a I).
  - apply bind_calm; [|discriminate]. unfold xtests. pose proof (eval_calm w vars e U) as H.
    assert (F : match e with EDict kvs => tests_loop w vars [] kvs | _ => Err end <> Panic).
    { destruct e; try discriminate. cbn in U. clear H. generalize (@nil (text * text)). induction kvs as [|[k y] kvs IH]; intros d; [discriminate|]. destruct U as [[Uk Uy] U]. cbn in Uk, Uy. cbn [tests_loop].
      destruct k as [k|]; [|apply IH, U]. apply bind_calm; [apply xstr_calm, Uk|]. intros kt _. apply bind_calm; [apply xstr_calm, Uy|]. intros yt _. apply IH, U. }
    destruct (eval w vars e) as [[]| |]; try exact F; [|congruence]. apply each_calm. intros [k [] ] _; discriminate.
  - apply bind_calm; [|discriminate]. unfold xbool. pose proof (eval_calm w vars e U) as H. destruct (eval w vars e) as [[]| |]; try discriminate; congruence.
  - apply bind_calm; [|discriminate]. unfold xint. pose proof (eval_calm w vars e U) as H. destruct (eval w vars e) as [[]| |]; try discriminate; congruence.
  - apply if_ok_calm; [apply xstr_calm, U|discriminate|discriminate].
Qed.
Lemma call_calm w vars f args : unmultiplied (ECall f args []) -> call_command w vars f args <> Panic.
Proof.
  intros [_ Ua]. rewrite all_of_in in Ua. assert (X : forall a, In a args -> xstr w vars a <> Panic) by (intros a I; apply xstr_calm, Ua, I).
  assert (T2 : forall g, match args with a :: b :: _ => if_ok (xstr w vars a) (fun k => if_ok (xstr w vars b) (fun v => Ok (g k v)) Err) (match xstr w vars b with Panic => Panic | _ => Err end) | _ => @Err text end <> Panic).
  { intros g. destruct args as [|a [|b r]]; try discriminate. pose proof (X b (or_intror (or_introl eq_refl))) as Xb. apply if_ok_calm; [apply X; now left| |].
    - intros t. apply if_ok_calm; [exact Xb|discriminate|discriminate].
    - destruct (xstr w vars b); [discriminate|discriminate|congruence]. }
  assert (T1 : forall g k, k <> Panic -> match args with a :: _ => if_ok (xstr w vars a) (fun t => Ok (g t)) Err | [] => k : res text end <> Panic).
  { intros g k Hk. destruct args as [|a r]; [exact Hk|]. apply if_ok_calm; [apply X; now left|discriminate|discriminate]. }
  unfold call_command. destruct f as [|fn| | | | | | | | |o m| | |]; try discriminate.
  - destruct (mem_text fn plain_calls2); [apply T2|]. destruct (mem_text fn plain_calls1); [apply T1; discriminate|]. destruct (text_eqb fn (T "stop")); [apply T1; discriminate|discriminate].
  - destruct o as [|obj| | | | | | | | |o var| | |]; try discriminate.
    + destruct (negb (text_eqb obj (T "env"))); [discriminate|]. destruct (mem_text m env_calls2); [apply T2|]. destruct (text_eqb m (T "unsetenv")); [apply T1; discriminate|discriminate].
    + destruct o; try discriminate. destruct (negb (text_eqb x (T "env"))); [discriminate|]. destruct args as [|a r]; [discriminate|]. apply if_ok_calm; [apply X; now left| |discriminate].
      intros t. repeat match goal with |- context [if ?b then _ else _] => destruct b end; discriminate.
Qed.
Lemma command_calm w : forall s, unmultiplied_stmt s -> forall vars, command_of w vars s <> Panic.
Proof.
  assert (K : forall l, Forall (fun s => unmultiplied_stmt s -> forall vars, command_of w vars s <> Panic) l -> all_of unmultiplied_stmt l -> forall vars, commands_loop (command_of w) vars l <> Panic).
  { intros l F. induction F as [|s l Hs F IH]; intros U vars; [discriminate|]. destruct U as [Us U]. cbn [commands_loop]. apply bind_calm; [apply Hs, Us|]. intros p _. apply bind_calm; [apply IH, U|discriminate]. }
  apply (stmt_all (fun s => unmultiplied_stmt s -> forall vars, command_of w vars s <> Panic)); try discriminate.
  - intros ts e U vars. cbn in U. destruct ts as [|[] ts]; try discriminate.
    + cbn [command_of]. apply bind_calm; [apply eval_calm, U|discriminate].
    + cbn [command_of]. destruct o; try discriminate. destruct (text_eqb x (T "env")); [|discriminate]. apply if_ok_calm; [apply xstr_calm, U|discriminate|discriminate].
  - intros t a b Fa Fb (Ut & Ua & Ub) vars. cbn [command_of]. apply bind_calm; [apply eval_calm, Ut|]. intros v _. destruct v as [| |c| | |]; try discriminate. apply bind_calm; [|discriminate].
    destruct c; [apply (K a Fa Ua)|apply (K b Fb Ub)].
  - intros e U vars. cbn [command_of]. destruct e; try discriminate. apply bind_calm; [|discriminate]. apply call_calm. exact U.
Qed.
Lemma commands_calm w l vars : all_of unmultiplied_stmt l -> commands_loop (command_of w) vars l <> Panic.
Proof.
  revert vars. induction l as [|s l IH]; intros vars U; [discriminate|]. destruct U as [Us U]. cbn [commands_loop]. apply bind_calm; [apply command_calm, Us|]. intros p _. apply bind_calm; [apply IH, U|discriminate].
Qed.
Lemma process_calm w : forall s, unmultiplied_stmt s -> forall st, process w st s <> Panic.
Proof.
  assert (K : forall l, Forall (fun s => unmultiplied_stmt s -> forall st, process w st s <> Panic) l -> all_of unmultiplied_stmt l -> forall st, process_loop (process w) st l <> Panic).
  { intros l F. induction F as [|s l Hs F IH]; intros U st; [discriminate|]. destruct U as [Us U]. cbn [process_loop]. apply bind_calm; [apply Hs, Us|]. intros p _. apply IH, U. }
  apply (stmt_all (fun s => unmultiplied_stmt s -> forall st, process w st s <> Panic)); try discriminate.
  - intros ts e U st. cbn in U. destruct ts as [|[] ts]; try discriminate. cbn [process]. unfold assign. apply bind_calm; [apply eval_calm, U|]. intros v _. apply bind_calm; [apply field_of_calm, U|discriminate].
  - intros f body _ U st. cbn [process]. destruct (mem_text f function_fields); [|discriminate]. unfold command_body. apply bind_calm; [|discriminate]. apply bind_calm; [apply commands_calm, U|discriminate].
  - intros t a b Fa Fb (Ut & Ua & Ub) st. cbn [process]. apply bind_calm; [apply eval_calm, Ut|]. intros v _. destruct v as [| |c| | |]; try discriminate. destruct c; [apply (K a Fa Ua)|apply (K b Fb Ub)].
  - intros e U st. cbn [process]. apply bind_calm; [apply eval_calm, U|discriminate].
Qed.
Lemma load_calm w file : (forall s, In s file -> unmultiplied_stmt s) -> load w file <> Panic.
Proof.
  intros U. unfold load. apply bind_calm.
  - generalize (mkState [] []). induction file as [|s l IH]; intros st; [discriminate|]. cbn [process_loop]. apply bind_calm; [apply process_calm, U; now left|]. intros st' _. apply IH. intros x I. apply U. now right.
  - intros st _. unfold build_package. destruct (text_field (T "name") (s_data st)); [|discriminate].
    destruct (match text_field (T "version") (s_data st) with Some s => _ | None => _ end); [|discriminate]. cbv zeta. destruct (validate _); discriminate.
Qed.
