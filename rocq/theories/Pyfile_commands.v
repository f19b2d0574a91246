(** Proofs about command functions: the text the loader keeps stands for the actions of the function. *)
From Verif Require Import Base Base_lemmas Text_lemmas Maps Version_model Rex_model Rex_spec Rex_parse Filter_model Env_proofs Env_path Env_gen
  Pyfile_model Pyfile_spec Pyfile_format Pyfile_proofs Pyfile_files.
Open Scope char_scope.

Definition means (c : option text) (acts : list action) : Prop := match c with Some t => command_lines (split_on NL t) acts | None => acts = [] end.
Lemma lines_app a b x y : command_lines a x -> command_lines b y -> command_lines (a ++ b) (x ++ y).
Proof. intros H. revert b y. induction H as [|l ls acts B H IH|u s v ls a acts U V N Tr S H IH]; intros b y K; cbn; [exact K|apply cl_blank; auto|apply cl_stmt; auto]. Qed.
Lemma lines_means cs acts : command_lines (flat_map (split_on NL) cs) acts -> means (lines_text cs) acts.
Proof.
  intros H. destruct cs as [|c cs]; cbn [lines_text means].
  - inversion H. reflexivity.
  - rewrite split_join_all by discriminate. exact H.
Qed.
Lemma blanks_nil : blanks [].
Proof. intros c []. Qed.
Lemma safe_quoteless s : line_safe s -> quoteless s.
Proof. intros H c I. destruct (H c I) as (A & B & _). split; assumption. Qed.
Lemma arg_quoted a : line_safe a -> argument ("'" :: a ++ ["'"]) a.
Proof. intros H. constructor; [now left|now left|apply safe_quoteless, H]. Qed.
Lemma one_line kw s a : kw <> [] -> (forall c, In c kw -> is_ws c = false /\ c <> NL) -> (forall c, In c s -> c <> NL) -> statement (kw ++ s ++ [")"]) a ->
  command_lines (split_on NL (kw ++ s ++ [")"])) [a].
Proof.
  intros Hk Kw Hs St. rewrite split_on_none.
  - destruct kw as [|c kw]; [congruence|]. set (t := (c :: kw) ++ s ++ [")"]) in *.
    assert (E : trim t = t).
    { subst t. cbn [app]. rewrite app_assoc. apply trim_ends; [apply (Kw c); now left|reflexivity]. }
    assert (Nt : t <> []) by discriminate. pose proof (cl_stmt [] t [] [] a [] blanks_nil blanks_nil Nt E St cl_nil) as K. cbn [app] in K. rewrite app_nil_r in K. exact K.
  - intros I. apply in_app_iff in I. destruct I as [I|I]; [apply (proj2 (Kw _ I)); reflexivity|]. apply in_app_iff in I. destruct I as [I|I]; [apply (Hs _ I); reflexivity|].
    destruct I as [I|[]]. discriminate I.
Qed.
Lemma one_call1 kw k a : kw <> [] -> (forall c, In c kw -> is_ws c = false /\ c <> NL) -> line_safe k -> (called1 kw (write1 kw k) k -> says (write1 kw k) a) ->
  command_lines (split_on NL (write1 kw k)) [a].
Proof.
  intros Hk Kw Sk Sy.
  assert (E : write1 kw k = kw ++ (T "('" ++ k ++ T "'") ++ [")"]) by (unfold write1; rewrite <- !app_assoc; reflexivity).
  assert (St : statement (write1 kw k) a).
  { apply st_call. apply Sy. replace (write1 kw k) with (kw ++ [] ++ "(" :: [] ++ ("'" :: k ++ ["'"]) ++ [] ++ [")"]) by (unfold write1; cbn; rewrite <- app_assoc; reflexivity).
    constructor; try apply blanks_nil. apply arg_quoted, Sk. }
  rewrite E in *. apply one_line; try assumption. intros c I ->. repeat (apply in_app_iff in I; destruct I as [I|I]).
  - destruct I as [I|[I|[]]]; discriminate I.
  - apply (Sk _ I). reflexivity.
  - destruct I as [I|[]]; discriminate I.
Qed.
Lemma one_call2 kw k v a : kw <> [] -> (forall c, In c kw -> is_ws c = false /\ c <> NL) -> line_safe k -> line_safe v -> (called2 kw (write2 kw k v) k v -> says (write2 kw k v) a) ->
  command_lines (split_on NL (write2 kw k v)) [a].
Proof.
  intros Hk Kw Sk Sv Sy.
  assert (E : write2 kw k v = kw ++ (T "('" ++ k ++ T "', '" ++ v ++ T "'") ++ [")"]) by (unfold write2; rewrite <- !app_assoc; reflexivity).
  assert (St : statement (write2 kw k v) a).
  { apply st_call. apply Sy. replace (write2 kw k v) with (kw ++ [] ++ "(" :: [] ++ ("'" :: k ++ ["'"]) ++ [] ++ "," :: [" "] ++ ("'" :: v ++ ["'"]) ++ [] ++ [")"])
      by (unfold write2; cbn [app]; repeat (rewrite <- app_assoc; cbn [app]); reflexivity).
    constructor; try apply blanks_nil; try (apply arg_quoted; assumption). intros c [<-|[]]. reflexivity. }
  rewrite E in *. apply one_line; try assumption. intros c I ->. repeat (apply in_app_iff in I; destruct I as [I|I]).
  - destruct I as [I|[I|[]]]; discriminate I.
  - apply (Sk _ I). reflexivity.
  - repeat destruct I as [I|I]; try discriminate I; destruct I.
  - apply (Sv _ I). reflexivity.
  - destruct I as [I|[]]; discriminate I.
Qed.
Lemma kw_plain kw : forallb (fun c => negb (is_ws c) && negb (Ascii.eqb c NL)) kw = true -> forall c, In c kw -> is_ws c = false /\ c <> NL.
Proof.
  intros H c I. rewrite forallb_forall in H. specialize (H c I). apply andb_true_iff in H. destruct H as [A B]. apply negb_true_iff in A, B. split; [exact A|]. now apply Ascii.eqb_neq.
Qed.

(** ** Arguments *)
Lemma show_int z : show_Z z = py_int z.
Proof. unfold show_Z, py_int. destruct z; reflexivity. Qed.
Lemma arg_agree w vars env e t : vars_agree vars env -> safe_arg w env e -> xstr w vars e = Ok t ->
  exists v, py w env e = Some v /\ as_text v = Some t /\ py_str v = Some t /\ line_safe t.
Proof.
  intros VA [Te Sf] E. unfold xstr in E.
  assert (K : exists v, py w env e = Some v /\ forall s, as_text v = Some s -> s = t).
  { destruct (eval w vars e) as [u| |] eqn:Eu; [| |discriminate E].
    - destruct (eval_agrees w _ _ VA e Te u Eu) as (p & Ep & Sp). exists p. split; [exact Ep|]. intros s As. destruct (text_of u) as [x|] eqn:Ex.
      + injection E as ->. destruct Sp; try discriminate As; cbn in As, Ex; [congruence|]. rewrite show_int in Ex. congruence.
      + exfalso. destruct Sp; discriminate.
    - destruct e as [[s|z|b| |]| | | | | | | | | | | | |]; try discriminate E; injection E as <-; eexists; (split; [reflexivity|]); cbn; intros s' [= <-]; [reflexivity|symmetry; apply show_int]. }
  destruct K as (v & Ev & H). destruct (Sf v Ev) as (s & As & Ls). specialize (H s As). subst s. exists v. split; [exact Ev|]. split; [exact As|]. split; [|exact Ls]. destruct v; try discriminate As; exact As.
Qed.
Lemma simple_agree w vars env e t : vars_agree vars env -> simple_text env e t -> xstr w vars e = Ok t /\ py w env e = Some (PyStr t).
Proof.
  intros VA H. assert (K : eval w vars e = Ok (VStr t) /\ py w env e = Some (PyStr t)).
  { induction H as [s|x s Hx|a b s t Ha IHa Hb IHb].
    - split; reflexivity.
    - split; [|exact Hx]. cbn. specialize (VA x). destruct (aget x vars) as [v|].
      + destruct VA as (p & Ep & Sp). rewrite Hx in Ep. injection Ep as <-. inversion Sp. reflexivity.
      + destruct VA as [N|[b N]]; rewrite Hx in N; discriminate N.
    - destruct IHa as [A1 A2]. destruct IHb as [B1 B2]. cbn [eval py]. rewrite A1, B1, A2, B2. split; reflexivity. }
  destruct K as [K1 K2]. split; [|exact K2]. unfold xstr. rewrite K1. reflexivity.
Qed.
Lemma if_ok_inv {A} r (f : text -> res A) k c : k <> Ok c -> if_ok r f k = Ok c -> exists t, r = Ok t /\ f t = Ok c.
Proof. destruct r; cbn; intros N H; [now exists a|contradiction|discriminate H]. Qed.

(** ** Calls *)
Lemma call_agree w vars env f args r m c : vars_agree vars env -> called f = Some (r, m) -> match r with OnVar x => x <> [] /\ line_safe x /\ args <> [] | _ => True end ->
  all_of (safe_arg w env) args -> (keyed r m -> match args with k :: _ => key_arg w env k | [] => True end) ->
  (forall ts, length ts = length args -> call_action r m ts <> None) -> call_command w vars f args = Ok c ->
  exists l ts a, all_some (map (py w env) args) = Some l /\ strings l = Some ts /\ call_action r m ts = Some a /\ command_lines (split_on NL c) [a].
Proof.
  intros VA Cf Rx Sf Ky Ca E.
  assert (A1 : forall a t, args = [a] -> xstr w vars a = Ok t -> exists l, all_some (map (py w env) args) = Some l /\ strings l = Some [t] /\ line_safe t /\ (keyed r m -> t <> [])).
  { intros a t -> Ex. cbn in Sf. destruct Sf as [Sa _]. destruct (arg_agree w vars env a t VA Sa Ex) as (v & Ev & As & Ps & Ls). exists [v]. cbn. rewrite Ev. cbn. rewrite Ps.
    split; [reflexivity|]. split; [reflexivity|]. split; [exact Ls|]. intros K N. subst. apply (Ky K v Ev). exact As. }
  assert (A2 : forall a b t u, args = [a; b] -> xstr w vars a = Ok t -> xstr w vars b = Ok u ->
    exists l, all_some (map (py w env) args) = Some l /\ strings l = Some [t; u] /\ line_safe t /\ line_safe u /\ (keyed r m -> t <> [])).
  { intros a b t u -> Ex Ey. cbn in Sf. destruct Sf as [Sa [Sb _]]. destruct (arg_agree w vars env a t VA Sa Ex) as (v & Ev & As & Ps & Ls).
    destruct (arg_agree w vars env b u VA Sb Ey) as (v' & Ev' & As' & Ps' & Ls'). exists [v; v']. cbn. rewrite Ev, Ev'. cbn. rewrite Ps, Ps'.
    split; [reflexivity|]. split; [reflexivity|]. split; [exact Ls|]. split; [exact Ls'|]. intros K N. subst. apply (Ky K v Ev). exact As. }
  unfold called in Cf. destruct f as [|fn| | | | | | | | |o mm| | |]; try discriminate Cf.
  - injection Cf as <- <-. cbn [call_command] in E. destruct args as [|a [|b [|d args]]].
    + specialize (Ca [] eq_refl). cbn [call_action] in Ca. destruct (text_eqb_spec fn (T "stop")) as [->|N]; [|congruence]. cbn in E. injection E as <-.
      exists [], [], (Stop None). repeat split. apply (one_line (T "stop") ["("]); [discriminate|apply kw_plain; reflexivity|intros c [<-|[]]; discriminate|].
      apply st_call, says_stop. apply (Called0 (T "stop") [] []); apply blanks_nil.
    + specialize (Ca [[]] eq_refl). cbn [call_action] in Ca. 
      assert (G : forall act, In fn [T "command"; T "source"; T "info"; T "error"; T "resetenv"; T "unsetenv"; T "stop"] ->
        (forall t, (keyed Bare fn -> t <> []) -> called1 fn (write1 fn t) t -> says (write1 fn t) (act t)) -> (forall t, call_action Bare fn [t] = Some (act t)) ->
        exists l ts a0, all_some (map (py w env) [a]) = Some l /\ strings l = Some ts /\ call_action Bare fn ts = Some a0 /\ command_lines (split_on NL c) [a0]).
      { intros act If Sy Cact. assert (K : exists t, xstr w vars a = Ok t /\ Ok (write1 fn t) = Ok c).
        { assert (E' : if_ok (xstr w vars a) (fun k => Ok (write1 fn k)) Err = Ok c).
          { cbn in If. repeat destruct If as [<-|If]; try contradiction; exact E. }
          apply if_ok_inv in E'; [exact E'|discriminate]. }
        destruct K as (t & Et & [= <-]). destruct (A1 a t eq_refl Et) as (l & L1 & L2 & L3 & L4). exists l, [t], (act t). split; [exact L1|]. split; [exact L2|]. split; [apply Cact|].
        apply one_call1; [|apply kw_plain| |]; [cbn in If; repeat destruct If as [<-|If]; try contradiction; discriminate|cbn in If; repeat destruct If as [<-|If]; try contradiction; reflexivity|exact L3|apply Sy, L4]. }
      repeat match type of Ca with context [text_eqb fn ?s] => destruct (text_eqb_spec fn s) as [->|?N] end; try congruence.
      * apply (G Command); [cbn; tauto|intros t _ C; apply says_command, C|reflexivity].
      * apply (G Source); [cbn; tauto|intros t _ C; apply says_source, C|reflexivity].
      * apply (G Info); [cbn; tauto|intros t _ C; apply says_info, C|reflexivity].
      * apply (G Error); [cbn; tauto|intros t _ C; apply says_error, C|reflexivity].
      * apply (G Resetenv); [cbn; tauto|intros t Nt C; apply (says_resetenv (T "resetenv")); [now left|apply Nt; cbn; tauto|exact C]|reflexivity].
      * apply (G Unsetenv); [cbn; tauto|intros t Nt C; apply (says_unsetenv (T "unsetenv")); [now left|apply Nt; cbn; tauto|exact C]|reflexivity].
      * apply (G (fun t => Stop (Some t))); [cbn; tauto|intros t _ C; apply says_stop_msg, C|reflexivity].
    + specialize (Ca [[]; []] eq_refl). cbn [call_action] in Ca.
      assert (G : forall act, In fn [T "alias"; T "setenv"; T "prependenv"; T "appendenv"] ->
        (forall t u, t <> [] -> called2 fn (write2 fn t u) t u -> says (write2 fn t u) (act t u)) -> (forall t u, call_action Bare fn [t; u] = Some (act t u)) ->
        exists l ts a0, all_some (map (py w env) [a; b]) = Some l /\ strings l = Some ts /\ call_action Bare fn ts = Some a0 /\ command_lines (split_on NL c) [a0]).
      { intros act If Sy Cact. assert (K : exists t, xstr w vars a = Ok t /\ if_ok (xstr w vars b) (fun v => Ok (write2 fn t v)) Err = Ok c).
        { assert (E' : if_ok (xstr w vars a) (fun k => if_ok (xstr w vars b) (fun v => Ok (write2 fn k v)) Err) (match xstr w vars b with Panic => Panic | _ => Err end) = Ok c).
          { cbn in If. repeat destruct If as [<-|If]; try contradiction; exact E. }
          apply if_ok_inv in E'; [exact E'|destruct (xstr w vars b); discriminate]. }
        destruct K as (t & Et & K). apply if_ok_inv in K; [|discriminate]. destruct K as (u & Eu & [= <-]). destruct (A2 a b t u eq_refl Et Eu) as (l & L1 & L2 & L3 & L4 & L5).
        exists l, [t; u], (act t u). split; [exact L1|]. split; [exact L2|]. split; [apply Cact|].
        apply one_call2; [|apply kw_plain| | |]; [cbn in If; repeat destruct If as [<-|If]; try contradiction; discriminate|cbn in If; repeat destruct If as [<-|If]; try contradiction; reflexivity|exact L3|exact L4|].
        apply Sy, L5. cbn in If |- *. tauto. }
      repeat match type of Ca with context [text_eqb fn ?s] => destruct (text_eqb_spec fn s) as [->|?N] end; try congruence.
      * apply (G Alias); [cbn; tauto|intros t u Nt C; apply (says_alias (T "alias")); [now left|exact Nt|exact C]|reflexivity].
      * apply (G Setenv); [cbn; tauto|intros t u Nt C; apply (says_setenv (T "setenv")); [now left|exact Nt|exact C]|reflexivity].
      * apply (G (fun t u => PrependPath t u None)); [cbn; tauto|intros t u Nt C; apply (says_prepend (T "prependenv")); [now right|exact Nt|exact C]|reflexivity].
      * apply (G (fun t u => AppendPath t u None)); [cbn; tauto|intros t u Nt C; apply (says_append (T "appendenv")); [now right|exact Nt|exact C]|reflexivity].
    + exfalso. apply (Ca (repeat [] (length (a :: b :: d :: args)))); [apply repeat_length|reflexivity].
  - destruct o as [|ob| | | | | | | | |o2 var| | |]; try discriminate Cf.
    + destruct (text_eqb_spec ob (T "env")) as [->|]; [|discriminate Cf]. injection Cf as <- <-. cbn [call_command] in E. change (negb (text_eqb (T "env") (T "env"))) with false in E. cbn match in E.
      destruct args as [|a [|b [|d args]]].
      * specialize (Ca [] eq_refl). cbn [call_action] in Ca. congruence.
      * specialize (Ca [[]] eq_refl). cbn [call_action] in Ca. destruct (text_eqb_spec mm (T "unsetenv")) as [->|N]; [|congruence].
        change (if_ok (xstr w vars a) (fun k => Ok (write1 (T "env.unsetenv") k)) Err = Ok c) in E. apply if_ok_inv in E; [|discriminate]. destruct E as (t & Et & [= <-]).
        destruct (A1 a t eq_refl Et) as (l & L1 & L2 & L3 & L4). exists l, [t], (Unsetenv t). split; [exact L1|]. split; [exact L2|]. split; [reflexivity|].
        apply one_call1; [discriminate|apply kw_plain; reflexivity|exact L3|]. intros C. apply (says_unsetenv (T "env.unsetenv")); [now right|apply L4; exact I|exact C].
      * specialize (Ca [[]; []] eq_refl). cbn [call_action] in Ca.
        assert (G : forall act, In mm [T "setenv"; T "prepend_path"; T "append_path"; T "setenv_if_empty"] ->
          (forall t u, t <> [] -> called2 (T "env." ++ mm) (write2 (T "env." ++ mm) t u) t u -> says (write2 (T "env." ++ mm) t u) (act t u)) -> (forall t u, call_action OnEnv mm [t; u] = Some (act t u)) ->
          exists l ts a0, all_some (map (py w env) [a; b]) = Some l /\ strings l = Some ts /\ call_action OnEnv mm ts = Some a0 /\ command_lines (split_on NL c) [a0]).
        { intros act If Sy Cact. assert (K : exists t, xstr w vars a = Ok t /\ if_ok (xstr w vars b) (fun v => Ok (write2 (T "env." ++ mm) t v)) Err = Ok c).
          { assert (E' : if_ok (xstr w vars a) (fun k => if_ok (xstr w vars b) (fun v => Ok (write2 (T "env." ++ mm) k v)) Err) (match xstr w vars b with Panic => Panic | _ => Err end) = Ok c).
            { cbn in If. repeat destruct If as [<-|If]; try contradiction; exact E. }
            apply if_ok_inv in E'; [exact E'|destruct (xstr w vars b); discriminate]. }
          destruct K as (t & Et & K). apply if_ok_inv in K; [|discriminate]. destruct K as (u & Eu & [= <-]). destruct (A2 a b t u eq_refl Et Eu) as (l & L1 & L2 & L3 & L4 & L5).
          exists l, [t; u], (act t u). split; [exact L1|]. split; [exact L2|]. split; [apply Cact|].
          apply (one_call2 (T "env." ++ mm)); [discriminate|apply kw_plain; cbn in If; repeat destruct If as [<-|If]; try contradiction; reflexivity|exact L3|exact L4|].
          apply Sy, L5. exact I. }
        repeat match type of Ca with context [text_eqb mm ?s] => destruct (text_eqb_spec mm s) as [->|?N] end; try congruence.
        -- apply (G Setenv); [cbn; tauto|intros t u Nt C; apply (says_setenv (T "env.setenv")); [now right|exact Nt|exact C]|reflexivity].
        -- apply (G (fun t u => PrependPath t u None)); [cbn; tauto|intros t u Nt C; apply (says_prepend (T "env.prepend_path")); [now left|exact Nt|exact C]|reflexivity].
        -- apply (G (fun t u => AppendPath t u None)); [cbn; tauto|intros t u Nt C; apply (says_append (T "env.append_path")); [now left|exact Nt|exact C]|reflexivity].
        -- apply (G SetenvIfEmpty); [cbn; tauto|intros t u Nt C; apply says_if_empty; [exact Nt|exact C]|reflexivity].
      * exfalso. apply (Ca (repeat [] (length (a :: b :: d :: args)))); [apply repeat_length|reflexivity].
    + destruct o2 as [|ob| | | | | | | | | | | |]; try discriminate Cf. destruct (text_eqb_spec ob (T "env")) as [->|]; [|discriminate Cf]. injection Cf as <- <-.
      cbn [call_command] in E. change (negb (text_eqb (T "env") (T "env"))) with false in E. cbn match in E. destruct Rx as (Nv & Lv & Na).
      destruct args as [|a [|b args]]; [congruence| |exfalso; apply (Ca (repeat [] (length (a :: b :: args)))); [apply repeat_length|reflexivity]].
      specialize (Ca [[]] eq_refl). cbn [call_action] in Ca. apply if_ok_inv in E; [|discriminate]. destruct E as (t & Et & E). destruct (A1 a t eq_refl Et) as (l & L1 & L2 & L3 & _).
      exists l, [t]. cbn [call_action].
      destruct (text_eqb mm (T "prepend")).
      { injection E as <-. exists (PrependPath var t None). repeat split; try assumption. apply one_call2; [discriminate|apply kw_plain; reflexivity|exact Lv|exact L3|].
        intros C. apply (says_prepend (T "env.prepend_path")); [now left|exact Nv|exact C]. }
      destruct (text_eqb mm (T "append")).
      { injection E as <-. exists (AppendPath var t None). repeat split; try assumption. apply one_call2; [discriminate|apply kw_plain; reflexivity|exact Lv|exact L3|].
        intros C. apply (says_append (T "env.append_path")); [now left|exact Nv|exact C]. }
      destruct (text_eqb mm (T "set")); [|congruence].
      { injection E as <-. exists (Setenv var t). repeat split; try assumption. apply one_call2; [discriminate|apply kw_plain; reflexivity|exact Lv|exact L3|].
        intros C. apply (says_setenv (T "env.setenv")); [now right|exact Nv|exact C]. }
Qed.

(** ** Bodies *)
Definition body_ok (w : world) (s : stmt) : Prop := forall vars env c vars', vars_agree vars env -> plain_command w env s -> command_of w vars s = Ok (c, vars') ->
  exists acts env', run_command w env s = Some (acts, env') /\ vars_agree vars' env' /\ means c acts.
Lemma loop_body w l : Forall (body_ok w) l -> forall vars env cs vars', vars_agree vars env -> plain_loop (plain_command w) (run_command w) env l ->
  commands_loop (command_of w) vars l = Ok (cs, vars') ->
  exists acts env', run_loop (run_command w) env l = Some (acts, env') /\ vars_agree vars' env' /\ command_lines (flat_map (split_on NL) cs) acts.
Proof.
  intros F. induction F as [|s l Hs F IH]; intros vars env cs vars' VA Pl E.
  - injection E as <- <-. exists [], env. repeat split; [exact VA|constructor].
  - cbn in Pl. destruct Pl as [Ps Pl]. cbn [commands_loop] in E. apply bind_ok in E. destruct E as ([c v1] & E1 & E). apply bind_ok in E. destruct E as ([cs2 v2] & E2 & E). injection E as <- <-.
    destruct (Hs vars env c v1 VA Ps E1) as (a1 & env1 & R1 & VA1 & M1). destruct (IH v1 env1 cs2 v2 VA1 (Pl _ R1) E2) as (a2 & env2 & R2 & VA2 & M2).
    exists (a1 ++ a2), env2. cbn [run_loop]. rewrite R1. cbn [obind snd fst]. rewrite R2. cbn [obind snd fst]. repeat split; [exact VA2|].
    destruct c as [c|]; cbn in M1 |- *; [apply lines_app; assumption|subst; exact M2].
Qed.
Lemma bodies w : forall s, body_ok w s.
Proof.
  apply (stmt_all (body_ok w)); unfold body_ok.
  - intros ts e vars env c vars' VA Pl E. cbn in Pl. destruct Pl as [(x & -> & Te)|(x & t & -> & Nx & Lx & St & Lt)].
    + cbn [command_of] in E. apply bind_ok in E. destruct E as (v & Ev & E). injection E as <- <-. destruct (eval_agrees w _ _ VA e Te v Ev) as (p & Ep & Sp).
      exists [], (aput x p env). split; [cbn; rewrite Ep; reflexivity|]. split; [apply agree_put; assumption|reflexivity].
    + destruct (simple_agree w vars env e t VA St) as [Ex Ep]. cbn [command_of] in E. change (text_eqb (T "env") (T "env")) with true in E. cbn match in E. rewrite Ex in E. cbn [if_ok] in E. injection E as <- <-.
      exists [Setenv x t], env. split; [cbn [run_command]; rewrite Ep; reflexivity|]. split; [exact VA|]. cbn [means].
      apply (one_call2 (T "env.setenv") x t); [discriminate|apply kw_plain; reflexivity|exact Lx|exact Lt|]. intros C. apply (says_setenv (T "env.setenv")); [now right|exact Nx|exact C].
  - intros f body _ vars env c vars' _ [].
  - intros vars env c vars' VA _ E. injection E as <- <-. exists [], env. repeat split. exact VA.
  - intros t a b Fa Fb vars env c vars' VA (Tt & Bt & Ta & Tb) E. cbn [command_of] in E. apply bind_ok in E. destruct E as (v & Ev & E).
    destruct (eval_agrees w _ _ VA t Tt v Ev) as (p & Ep & Sp). destruct v as [| |q| | |]; try discriminate E. inversion Sp; subst.
    apply bind_ok in E. destruct E as ([cs v1] & E1 & E). injection E as <- <-. cbn [run_command fst]. rewrite Ep. cbn [obind truthy].
    destruct q; [destruct (loop_body w a Fa vars env cs v1 VA (Ta Ep) E1) as (acts & env' & R & VA' & M)|destruct (loop_body w b Fb vars env cs v1 VA (Tb Ep) E1) as (acts & env' & R & VA' & M)];
      exists acts, env'; (split; [exact R|]); (split; [exact VA'|]); apply lines_means, M.
  - intros e vars env c vars' VA Pl E. destruct e as [k| | | | | | | | |f args kws| | | |]; try (destruct Pl as [_ [s Es]]; discriminate Es).
    + destruct Pl as [_ [s Es]]. injection Es as ->. cbn [command_of] in E. injection E as <- <-. exists [], env. repeat split. exact VA.
    + destruct Pl as (-> & [r m] & Cf & Rx & Sf & Ky & Ca). cbn [fst snd] in *. cbn [command_of] in E. apply bind_ok in E. destruct E as (t & Et & E). injection E as <- <-.
      destruct (call_agree w vars env f args r m t VA Cf Rx Sf Ky Ca Et) as (l & ts & a & L & S & A & M). exists [a], env. split; [|split; [exact VA|exact M]].
      cbn [run_command]. rewrite Cf. cbn [obind fst snd]. rewrite L. cbn [obind]. rewrite S. cbn [obind]. rewrite A. reflexivity.
  - intros vars env c vars' VA _ E. injection E as <- <-. exists [], env. repeat split. exact VA.
  - intros vars env c vars' _ [].
Qed.
Lemma body_means w vars env body c : vars_agree vars env -> plain_commands w env body -> fst (command_body w vars body) = Ok c ->
  exists acts env', run_commands w env body = Some (acts, env') /\ means c acts.
Proof.
  intros VA Pl E. cbn in E. apply bind_ok in E. destruct E as ([cs v1] & E1 & E). injection E as <-.
  destruct (loop_body w body (proj2 (Forall_forall _ _) (fun s _ => bodies w s)) vars env cs v1 VA Pl E1) as (acts & env' & R & _ & M). exists acts, env'. split; [exact R|apply lines_means, M].
Qed.

(** ** Files *)
Lemma exec_app w l m env : exec_all w env (l ++ m) = obind (exec_all w env l) (fun env' => exec_all w env' m).
Proof. revert env. induction l as [|s l IH]; intros env; [reflexivity|]. cbn. destruct (exec w env s); [apply IH|reflexivity]. Qed.
Lemma tidy_app w l m env : tidy_all w env (l ++ m) -> tidy_all w env l /\ forall env', exec_all w env l = Some env' -> tidy_all w env' m.
Proof.
  revert env. induction l as [|s l IH]; intros env H; [split; [exact I|intros env' [= <-]; exact H]|]. cbn in H. destruct H as [Hs H]. split.
  - cbn. split; [exact Hs|]. intros env1 E1. apply IH, H, E1.
  - intros env' E. cbn in E. destruct (exec w env s) as [env1|]; [|discriminate E]. cbn in E. apply (IH env1 (H env1 eq_refl)), E.
Qed.
Lemma quiet_loop w f : forall post st env st', Forall (leaves f) post -> vars_agree (s_vars st) env -> tidy_all w env post -> process_loop (process w) st post = Ok st' ->
  exists env', exec_all w env post = Some env' /\ vars_agree (s_vars st) env' /\ aget f env' = aget f env /\ aget f (s_data st') = aget f (s_data st).
Proof.
  induction post as [|s post IH]; intros st env st' F VA Td E.
  - injection E as <-. exists env. repeat split. exact VA.
  - inversion F as [|? ? Fs F']; subst. cbn in Td. destruct Td as [Ts Td]. cbn [process_loop] in E. apply bind_ok in E. destruct E as (st1 & E1 & E).
    destruct s as [ts e|g body| |t a b|e| |]; try contradiction.
    + cbn [process] in E1. destruct (mem_text g function_fields); [|discriminate E1]. unfold command_body in E1. apply bind_ok in E1. destruct E1 as (c & Ec & E1). injection E1 as <-.
      cbn in Ts. destruct (IH (mkState (s_vars st) (aput g (FText c) (s_data st))) (aput g (PyFunc body) env) st' F' (agree_def (s_vars st) env g body VA Ts) (Td _ eq_refl) E) as (env' & X & V & G & D).
      exists env'. cbn [s_vars s_data] in *. cbn in Fs. split; [exact X|]. split; [exact V|]. split; [rewrite G; apply aget_put_other; congruence|rewrite D; apply aget_put_other; congruence].
    + injection E1 as <-. destruct (IH st env st' F' VA (Td env eq_refl) E) as (env' & X). exists env'. exact X.
    + cbn [process] in E1. apply bind_ok in E1. destruct E1 as (v & Ev & E1). injection E1 as <-. destruct (eval_agrees w _ _ VA e Ts v Ev) as (p & Ep & _).
      assert (X : exec w env (SExpr e) = Some env) by (cbn; rewrite Ep; reflexivity). destruct (IH st env st' F' VA (Td env X) E) as (env' & X').
      exists env'. unfold exec_all. cbn [exec_loop]. rewrite X. exact X'.
    + injection E1 as <-. destruct (IH st env st' F' VA (Td env eq_refl) E) as (env' & X). exists env'. exact X.
Qed.
Lemma commands_meant w pre f body post p :
  tidy_all w [] (pre ++ SDef f body :: post) -> Forall (leaves f) post ->
  (forall env, exec_all w [] (pre ++ SDef f body :: post) = Some env -> plain_commands w env body) ->
  load w (pre ++ SDef f body :: post) = Ok p ->
  exists acts, file_commands w f (pre ++ SDef f body :: post) = Some acts /\
    match text_field f (y_data p) with Some t => parse_commands t = Some acts | None => acts = [] end.
Proof.
  intros Td Fp Pl E. destruct (tidy_app w pre (SDef f body :: post) [] Td) as [Tp Tr]. unfold load in E. rewrite loop_app in E. apply bind_ok in E. destruct E as (st & Es & E).
  apply bind_ok in Es. destruct Es as (st0 & E0 & Es). destruct (loop_linked w pre _ _ st0 linked_start Tp E0) as (env0 & X0 & VA0 & _). specialize (Tr env0 X0). cbn in Tr. destruct Tr as [Tf Tr].
  specialize (Tr _ eq_refl). cbn [process_loop] in Es. apply bind_ok in Es. destruct Es as (st1 & E1 & Es). cbn [process] in E1. destruct (mem_text f function_fields); [|discriminate E1].
  unfold command_body in E1. apply bind_ok in E1. destruct E1 as (c & Ec & E1). injection E1 as <-.
  destruct (quiet_loop w f post (mkState (s_vars st0) (aput f (FText c) (s_data st0))) (aput f (PyFunc body) env0) st Fp (agree_def (s_vars st0) env0 f body VA0 Tf) Tr Es) as (env & X & VA & Gf & D). cbn [s_vars s_data] in *.
  rewrite aget_put_same in Gf. rewrite aget_put_same in D.
  assert (XX : exec_all w [] (pre ++ SDef f body :: post) = Some env).
  { rewrite exec_app, X0. cbn [obind]. exact X. }
  destruct (body_means w (s_vars st0) env body c VA (Pl env XX) Ec) as (acts & env' & R & M). exists acts. split.
  - unfold file_commands. rewrite XX. cbn [obind]. rewrite Gf, R. reflexivity.
  - destruct (build_data _ _ E) as (Dp & _). rewrite Dp. unfold text_field. rewrite D. destruct c as [t|]; [apply parse_commands_lines, M|exact M].
Qed.
