(** Proofs on resolved contexts. *)
From Verif Require Import Base Base_lemmas Text_lemmas Maps Order_spec Rex_model Rex_spec Rex_proofs Rctx_model Rctx_spec.
Open Scope char_scope.

(** ** Replacement in spelled values *)
Definition sub_field (k v : text) (q : piece) : list piece :=
  match q with Field k' => if text_eqb k' k then map Lit v else [q] | _ => [q] end.
Definition sub_ref (x v : text) (q : piece) : list piece :=
  match q with Ref y => if text_eqb y x then map Lit v else [q] | _ => [q] end.
Lemma spelled_app a b : spelled (a ++ b) = spelled a ++ spelled b.
Proof. apply flat_map_app. Qed.
Lemma spelled_lits v : spelled (map Lit v) = v.
Proof. induction v as [|c v IH]; [reflexivity|]. cbn. f_equal. exact IH. Qed.
Lemma spelled_cons q t : spelled (q :: t) = written q ++ spelled t.
Proof. reflexivity. Qed.
(** no dollar sign but in references, no brace but in fields and references *)
Definition fine1 (q : piece) : Prop := match q with Lit c => c <> "$" /\ c <> "{" | Field k => bare k | Ref x => bare x end.
Definition fine2 (q : piece) : Prop := match q with Lit c => c <> "$" | Field k => bare k | Ref x => bare x end.
Lemma fine12 q : fine1 q -> fine2 q.
Proof. destruct q; cbn; tauto. Qed.
Lemma replace_field k v t : bare k -> (forall q, In q t -> fine1 q) -> ~ In (Ref k) t ->
  replace (braced k) v (spelled t) = spelled (flat_map (sub_field k v) t).
Proof.
  intros (K1 & K2 & K3). induction t as [|q t IH]; intros H N; [reflexivity|].
  assert (IH' : replace (braced k) v (spelled t) = spelled (flat_map (sub_field k v) t)).
  { apply IH; [intros; apply H; right; assumption|intros J; apply N; right; exact J]. }
  cbn [flat_map]. rewrite spelled_cons, spelled_app, <- IH'. specialize (H q (or_introl eq_refl)).
  destruct q as [c|k'|x]; cbn [written sub_field].
  - cbn [app]. change (spelled [Lit c]) with [c]. apply replace_miss. cbn [braced starts_with].
    destruct (Ascii.eqb_spec "{" c); [subst; destruct H; congruence|reflexivity].
  - destruct (text_eqb_spec k' k) as [->|Nk].
    + rewrite spelled_lits. apply replace_hit.
    + change (spelled [Field k']) with ("{" :: (k' ++ ["}"]) ++ []). rewrite app_nil_r. destruct H as (H1 & H2 & H3).
      change (replace (braced k) v) with (swap1 k v). change ("{" :: k' ++ ["}"]) with (brace_key k'). rewrite !brace_key_app.
      apply swap1_tok; [exact K2|split; assumption|exact Nk].
  - change (spelled [Ref x]) with ("$" :: "{" :: (x ++ ["}"]) ++ []). rewrite app_nil_r. destruct H as (H1 & H2 & H3).
    change (replace (braced k) v) with (swap1 k v). cbn [app]. rewrite swap1_lit by discriminate. f_equal.
    change ("{" :: (x ++ ["}"]) ++ spelled t) with (brace_key x ++ spelled t). rewrite !brace_key_app.
    replace ("{" :: (x ++ ["}"]) ++ swap1 k v (spelled t)) with ("{" :: x ++ "}" :: swap1 k v (spelled t)) by (rewrite <- app_assoc; reflexivity).
    apply swap1_tok; [exact K2|split; assumption|]. intros ->. apply N. left. reflexivity.
Qed.
Lemma dollar_app x r : dollar x ++ r = "$" :: "{" :: x ++ "}" :: r.
Proof. unfold dollar, braced. cbn [app]. rewrite <- app_assoc. reflexivity. Qed.
Lemma starts_dollar x q s : starts_with (dollar x ++ q) s = true -> exists r, s = "$" :: "{" :: x ++ "}" :: q ++ r.
Proof. intros H. apply starts_with_spec in H as [r ->]. exists r. rewrite <- app_assoc. apply dollar_app. Qed.
(** a piece other than the reference does not start a match *)
Lemma no_dollar_prefix x q a s : ~ In "$" a -> a <> [] -> starts_with (dollar x ++ q) (a ++ s) = false.
Proof.
  intros N E. destruct a as [|c a]; [congruence|]. cbn [dollar app starts_with]. destruct (Ascii.eqb_spec "$" c); [subst; destruct N; left; reflexivity|reflexivity].
Qed.
Lemma bare_in k : bare k -> ~ In "$" ("{" :: k ++ ["}"]).
Proof. intros (A & B & C) [H|H]; [discriminate|]. apply in_app_iff in H as [H|[H|[]]]; [exact (C H)|discriminate]. Qed.
Lemma written_ref x r : written (Ref x) ++ r = "$" :: "{" :: x ++ "}" :: r.
Proof. cbn [written app]. rewrite <- app_assoc. reflexivity. Qed.
Lemma replace_ref x v t : bare x -> (forall q, In q t -> fine2 q) -> replace (dollar x) v (spelled t) = spelled (flat_map (sub_ref x v) t).
Proof.
  intros (K1 & K2 & K3). induction t as [|q t IH]; intros H; [reflexivity|].
  assert (IH' : replace (dollar x) v (spelled t) = spelled (flat_map (sub_ref x v) t)).
  { apply IH. intros; apply H; right; assumption. }
  cbn [flat_map]. rewrite spelled_cons, spelled_app, <- IH'. specialize (H q (or_introl eq_refl)).
  destruct q as [c|k'|y]; cbn [sub_ref].
  - change (spelled [Lit c]) with [c]. apply replace_prefix with (c := "$") (q := braced x); [reflexivity|]. intros [E|[]]. exact (H E).
  - replace (spelled [Field k']) with (written (Field k')) by (rewrite spelled_cons; symmetry; apply app_nil_r).
    apply replace_prefix with (c := "$") (q := braced x); [reflexivity|]. apply bare_in, H.
  - destruct (text_eqb_spec y x) as [->|Nk].
    + rewrite spelled_lits. apply replace_hit.
    + replace (spelled [Ref y]) with (written (Ref y)) by (rewrite spelled_cons; symmetry; apply app_nil_r).
      destruct H as (H1 & H2 & H3). rewrite !written_ref. rewrite replace_miss.
      * f_equal. replace ("{" :: y ++ "}" :: spelled t) with (("{" :: y ++ ["}"]) ++ spelled t) by (cbn [app]; rewrite <- app_assoc; reflexivity).
        rewrite replace_prefix with (c := "$") (q := braced x); [cbn [app]; rewrite <- app_assoc; reflexivity|reflexivity|].
        apply bare_in. repeat split; assumption.
      * apply not_true_is_false. intros J. rewrite <- (app_nil_r (dollar x)) in J. apply starts_dollar in J as [r E]. injection E as E.
        cbn [app] in E. apply ref_unique in E as [E _]; auto.
Qed.
Lemma sub_field_fine k v t : ~ In "$" v -> ~ In "{" v -> (forall q, In q t -> fine1 q) -> forall q, In q (flat_map (sub_field k v) t) -> fine1 q.
Proof.
  intros V1 V2 H q I. apply in_flat_map in I as (q' & I1 & I2). specialize (H _ I1). destruct q' as [c|k'|x]; cbn in I2.
  - destruct I2 as [<-|[]]. exact H.
  - destruct (text_eqb k' k); [|destruct I2 as [<-|[]]; exact H]. apply in_map_iff in I2 as (c & <- & I2). split; intros ->; contradiction.
  - destruct I2 as [<-|[]]. exact H.
Qed.
Lemma sub_ref_fine x v t : ((exists q, q = Ref x /\ In q t) -> ~ In "$" v) -> (forall q, In q t -> fine2 q) -> forall q, In q (flat_map (sub_ref x v) t) -> fine2 q.
Proof.
  intros V H q I. apply in_flat_map in I as (q' & I1 & I2). pose proof (H _ I1) as H'. destruct q' as [c|k'|y]; cbn in I2.
  - destruct I2 as [<-|[]]. exact H'.
  - destruct I2 as [<-|[]]. exact H'.
  - destruct (text_eqb_spec y x) as [->|]; [|destruct I2 as [<-|[]]; exact H']. apply in_map_iff in I2 as (c & <- & I2). intros ->.
    apply V; [exists (Ref x); auto|exact I2].
Qed.

(** ** The fields *)
Definition fields (p : rpack) : list (text * text) :=
  (T "root", rp_root p) :: match rp_version p with Some v => [(T "version", v)] | None => [] end
  ++ match rp_index p with Some i => [(T "variant_index", show_N (N.of_nat i))] | None => [] end.
Lemma expand_fields_eq p s : expand_fields p s = fold_left (fun s b => replace (braced (fst b)) (snd b) s) (fields p) s.
Proof. unfold expand_fields, fields. destruct (rp_version p), (rp_index p); reflexivity. Qed.
Lemma fields_of p k w : In (k, w) (fields p) <-> field_of p k w.
Proof.
  unfold fields. split.
  - intros [E|H]; [injection E as <- <-; constructor|]. apply in_app_iff in H as [H|H].
    + destruct (rp_version p) as [v|] eqn:E; [|destruct H]. destruct H as [H|[]]. injection H as <- <-. constructor. exact E.
    + destruct (rp_index p) as [v|] eqn:E; [|destruct H]. destruct H as [H|[]]. injection H as <- <-. constructor. exact E.
  - intros [|v E|i E]; [left; reflexivity| |]; right; apply in_or_app; rewrite E; [left|right]; left; reflexivity.
Qed.
Lemma field_names p k w : field_of p k w -> k = T "root" \/ k = T "version" \/ k = T "variant_index".
Proof. intros []; auto. Qed.
Lemma name_bare k : k = T "root" \/ k = T "version" \/ k = T "variant_index" -> bare k.
Proof. intros [->|[->| ->]]; repeat split; cbn; intuition discriminate. Qed.
Definition no_fields_refs (t : list piece) : Prop := ~ In (Ref (T "root")) t /\ ~ In (Ref (T "version")) t /\ ~ In (Ref (T "variant_index")) t.
Lemma fields_fold : forall l t, (forall k w, In (k, w) l -> (k = T "root" \/ k = T "version" \/ k = T "variant_index") /\ ~ In "$" w /\ ~ In "{" w) ->
  (forall q, In q t -> fine1 q) -> no_fields_refs t ->
  fold_left (fun s b => replace (braced (fst b)) (snd b) s) l (spelled t) = spelled (fold_left (fun t b => flat_map (sub_field (fst b) (snd b)) t) l t).
Proof.
  induction l as [|[k w] l IH]; intros t H F N; [reflexivity|]. cbn [fold_left fst snd].
  destruct (H k w (or_introl eq_refl)) as (Hk & W1 & W2). rewrite replace_field; [|apply name_bare, Hk|exact F|].
  - apply IH; [intros; apply H; right; assumption|apply sub_field_fine; assumption|].
    assert (X : forall x, In (Ref x) (flat_map (sub_field k w) t) -> In (Ref x) t).
    { intros x I. apply in_flat_map in I as (q & I1 & I2). destruct q as [c|k'|y]; cbn in I2.
      - destruct I2 as [E|[]]. discriminate.
      - destruct (text_eqb k' k); [apply in_map_iff in I2 as (c & E & _); discriminate|destruct I2 as [E|[]]; discriminate].
      - destruct I2 as [<-|[]]. exact I1. }
    destruct N as (N1 & N2 & N3). repeat split; intros I; [apply N1|apply N2|apply N3]; apply X, I.
  - destruct N as (N1 & N2 & N3). destruct Hk as [->|[->| ->]]; assumption.
Qed.
(** the value with its fields filled in *)
Definition filled (p : rpack) (t : list piece) : list piece := fold_left (fun t b => flat_map (sub_field (fst b) (snd b)) t) (fields p) t.
Lemma clear_fine t : clear t -> forall q, In q t -> fine1 q.
Proof. intros H q I. specialize (H q I). destruct q; cbn in *; tauto. Qed.
Lemma clear_no_fields t : clear t -> no_fields_refs t.
Proof. intros H. repeat split; intros I; specialize (H _ I); cbn [clear_piece] in H; destruct H as (_ & A & B & C); congruence. Qed.
Lemma expand_fields_clear p t : clear t -> (forall k w, field_of p k w -> ~ In "$" w /\ ~ In "{" w) ->
  expand_fields p (spelled t) = spelled (filled p t).
Proof.
  intros H V. rewrite expand_fields_eq. apply fields_fold; [|apply clear_fine, H|apply clear_no_fields, H].
  intros k w I. apply fields_of in I. split; [eapply field_names, I|apply V with k, I].
Qed.
Lemma fold_sub_app : forall l a b, fold_left (fun t b => flat_map (sub_field (fst b) (snd b)) t) l (a ++ b)
  = fold_left (fun t b => flat_map (sub_field (fst b) (snd b)) t) l a ++ fold_left (fun t b => flat_map (sub_field (fst b) (snd b)) t) l b.
Proof. induction l as [|e l IH]; intros a b; [reflexivity|]. cbn [fold_left]. rewrite flat_map_app. apply IH. Qed.
Lemma filled_app p a b : filled p (a ++ b) = filled p a ++ filled p b.
Proof. apply fold_sub_app. Qed.
Lemma fold_sub_inert : forall l t, (forall k, ~ In (Field k) t) -> fold_left (fun t b => flat_map (sub_field (fst b) (snd b)) t) l t = t.
Proof.
  induction l as [|[k w] l IH]; intros t H; [reflexivity|]. cbn [fold_left fst snd].
  assert (E : flat_map (sub_field k w) t = t).
  { clear IH. induction t as [|q t IH]; [reflexivity|]. cbn [flat_map]. rewrite IH by (intros k' I; apply (H k'); right; exact I).
    destruct q as [c|k'|x]; try reflexivity. destruct (H k'). left. reflexivity. }
  rewrite E. apply IH, H.
Qed.
Lemma filled_lit p c : filled p [Lit c] = [Lit c].
Proof. apply fold_sub_inert. intros k [E|[]]. discriminate. Qed.
Lemma filled_ref p x : filled p [Ref x] = [Ref x].
Proof. apply fold_sub_inert. intros k [E|[]]. discriminate. Qed.
Lemma no_field_lits v k : ~ In (Field k) (map Lit v).
Proof. intros I. apply in_map_iff in I as (c & E & _). discriminate. Qed.
Lemma fold_field : forall l k, NoDup (map fst l) ->
  (forall w, In (k, w) l -> fold_left (fun t b => flat_map (sub_field (fst b) (snd b)) t) l [Field k] = map Lit w) /\
  (~ In k (map fst l) -> fold_left (fun t b => flat_map (sub_field (fst b) (snd b)) t) l [Field k] = [Field k]).
Proof.
  induction l as [|[k' w'] l IH]; intros k ND; [split; [intros w []|reflexivity]|]. cbn [map fst] in ND. inversion ND as [|? ? N1 N2]; subst.
  cbn [fold_left fst snd flat_map]. rewrite app_nil_r. cbn [sub_field]. split.
  - intros w [E|I].
    + injection E as -> ->. rewrite text_eqb_refl. apply fold_sub_inert. apply no_field_lits.
    + destruct (text_eqb_spec k k') as [->|N]; [destruct N1; change k' with (fst (k', w)); apply in_map, I|]. apply IH; assumption.
  - intros N. cbn [map fst] in N. destruct (text_eqb_spec k k') as [->|N']; [destruct N; left; reflexivity|].
    apply IH; [assumption|]. intros I. apply N. right. exact I.
Qed.
Lemma fields_nodup p : NoDup (map fst (fields p)).
Proof. unfold fields. destruct (rp_version p), (rp_index p); cbn; repeat constructor; cbn; intuition discriminate. Qed.
Lemma filled_field p k w : field_of p k w -> filled p [Field k] = map Lit w.
Proof. intros H. apply fields_of in H. exact (proj1 (fold_field _ k (fields_nodup p)) w H). Qed.
Lemma filled_unknown p k : (forall w, ~ field_of p k w) -> filled p [Field k] = [Field k].
Proof.
  intros H. apply (proj2 (fold_field _ k (fields_nodup p))). intros I. apply in_map_iff in I as ([k' w] & E & I). cbn in E. subst k'.
  apply (H w), fields_of, I.
Qed.
Lemma filled_fine p t : clear t -> (forall k w, field_of p k w -> ~ In "$" w /\ ~ In "{" w) -> forall q, In q (filled p t) -> fine2 q.
Proof.
  intros H V. assert (G : forall l t, (forall k w, In (k, w) l -> ~ In "$" w /\ ~ In "{" w) -> (forall q, In q t -> fine1 q) ->
    forall q, In q (fold_left (fun t b => flat_map (sub_field (fst b) (snd b)) t) l t) -> fine1 q).
  { induction l as [|[k w] l IH]; intros t' Hl F; [exact F|]. cbn [fold_left fst snd]. apply IH; [intros; apply Hl with k0; right; assumption|].
    destruct (Hl k w (or_introl eq_refl)). apply sub_field_fine; assumption. }
  intros q I. apply fine12. revert q I. apply G; [|apply clear_fine, H]. intros k w I. apply V with k, fields_of, I.
Qed.
Lemma filled_refs p t x : In (Ref x) (filled p t) -> In (Ref x) t.
Proof.
  unfold filled. generalize (fields p) as l. intros l. revert t. induction l as [|[k w] l IH]; intros t I; [exact I|]. cbn [fold_left fst snd] in I.
  apply IH in I. apply in_flat_map in I as (q & I1 & I2). destruct q as [c|k'|y]; cbn in I2.
  - destruct I2 as [E|[]]. discriminate.
  - destruct (text_eqb k' k); [destruct (in_map_iff Lit w (Ref x)) as [M _]; destruct (M I2) as (c & E & _); discriminate|destruct I2 as [E|[]]; discriminate].
  - destruct I2 as [<-|[]]. exact I1.
Qed.

(** ** The variables *)
Lemma refs_fold : forall l t, (forall x w, In (x, w) l -> bare x /\ (In (Ref x) t -> ~ In "$" w)) -> (forall q, In q t -> fine2 q) ->
  fold_left (fun s b => replace (dollar (fst b)) (snd b) s) l (spelled t) = spelled (fold_left (fun t b => flat_map (sub_ref (fst b) (snd b)) t) l t).
Proof.
  induction l as [|[x w] l IH]; intros t H F; [reflexivity|]. cbn [fold_left fst snd]. destruct (H x w (or_introl eq_refl)) as (Hx & Hw).
  rewrite replace_ref by assumption. apply IH.
  - intros y v I. destruct (H y v (or_intror I)) as (Hy & Hv). split; [exact Hy|]. intros J. apply Hv.
    apply in_flat_map in J as (q & J1 & J2). destruct q as [c|k'|z]; cbn in J2.
    + destruct J2 as [E|[]]. discriminate.
    + destruct J2 as [E|[]]. discriminate.
    + destruct (text_eqb z x); [apply in_map_iff in J2 as (c & E & _); discriminate|]. destruct J2 as [<-|[]]. exact J1.
  - apply sub_ref_fine; [|exact F]. intros (q & -> & J). exact (Hw J).
Qed.
(** the value with its references replaced *)
Definition resolved (l : list (text * text)) (t : list piece) : list piece := fold_left (fun t b => flat_map (sub_ref (fst b) (snd b)) t) l t.
Lemma resolved_app l : forall a b, resolved l (a ++ b) = resolved l a ++ resolved l b.
Proof. unfold resolved. induction l as [|e l IH]; intros a b; [reflexivity|]. cbn [fold_left]. rewrite flat_map_app. apply IH. Qed.
Lemma resolved_inert l : forall t, (forall x, ~ In (Ref x) t) -> resolved l t = t.
Proof.
  unfold resolved. induction l as [|[k w] l IH]; intros t H; [reflexivity|]. cbn [fold_left fst snd].
  assert (E : flat_map (sub_ref k w) t = t).
  { clear IH. induction t as [|q t IH]; [reflexivity|]. cbn [flat_map]. rewrite IH by (intros k' I; apply (H k'); right; exact I).
    destruct q as [c|k'|x]; try reflexivity. destruct (H x). left. reflexivity. }
  rewrite E. apply IH, H.
Qed.
Lemma resolved_ref : forall l x, NoDup (map fst l) -> resolved l [Ref x] = match aget x l with Some w => map Lit w | None => [Ref x] end.
Proof.
  unfold resolved. induction l as [|[y w] l IH]; intros x ND; [reflexivity|]. cbn [map fst] in ND. inversion ND as [|? ? N1 N2]; subst.
  cbn [fold_left fst snd flat_map aget]. rewrite app_nil_r. cbn [sub_ref]. destruct (text_eqb_spec x y) as [->|N].
  - apply resolved_inert. intros z I. apply in_map_iff in I as (c & E & _). discriminate.
  - apply IH, N2.
Qed.
Lemma expand_clear p l t : clear t -> (forall k w, field_of p k w -> ~ In "$" w /\ ~ In "{" w) ->
  (forall x w, In (x, w) l -> bare x) -> NoDup (map fst l) -> (forall x w, In (Ref x) t -> aget x l = Some w -> ~ In "$" w) ->
  expand_variables p l (spelled t) = spelled (resolved l (filled p t)).
Proof.
  intros C V B ND W. unfold expand_variables. rewrite expand_fields_clear by assumption. apply refs_fold; [|apply filled_fine; assumption].
  intros x w I. split; [eapply B, I|]. intros J. apply filled_refs in J. apply (W x w J). apply aget_nodup; assumption.
Qed.

(** ** What a value stands for *)
Lemma stands_spelled p l t v : NoDup (map fst l) -> stands p (fun x => aget x l) t v -> spelled (resolved l (filled p t)) = v.
Proof.
  intros ND. induction 1 as [|c t v H IH|k w t v F H IH|k t v F H IH|x w t v E H IH].
  - replace (filled p []) with (@nil piece) by (symmetry; apply fold_sub_inert; intros k []). rewrite resolved_inert by (intros x []). reflexivity.
  - change (Lit c :: t) with ([Lit c] ++ t). rewrite filled_app, resolved_app, spelled_app, filled_lit, IH.
    rewrite resolved_inert by (intros x [E|[]]; discriminate). reflexivity.
  - change (Field k :: t) with ([Field k] ++ t). rewrite filled_app, resolved_app, spelled_app, (filled_field p k w F), IH.
    rewrite resolved_inert by (intros x I; apply in_map_iff in I as (c & E & _); discriminate). rewrite spelled_lits. reflexivity.
  - change (Field k :: t) with ([Field k] ++ t). rewrite filled_app, resolved_app, spelled_app, (filled_unknown p k F), IH.
    rewrite resolved_inert by (intros x [E|[]]; discriminate). cbn [spelled flat_map written app]. rewrite app_nil_r, <- app_assoc. reflexivity.
  - change (Ref x :: t) with ([Ref x] ++ t). rewrite filled_app, resolved_app, spelled_app, filled_ref, IH, resolved_ref by exact ND.
    rewrite E, spelled_lits. reflexivity.
Qed.
Lemma stands_no_dollar p e t v : clear t -> tame p e t -> stands p e t v -> ~ In "$" v.
Proof.
  intros C [W V]. induction 1 as [|c t v H IH|k w t v F H IH|k t v F H IH|x w t v E H IH].
  - intros [].
  - pose proof (C _ (or_introl eq_refl)) as [N _]. intros [J|J]; [congruence|]. revert J. apply IH; [intros q I; apply C; right; exact I|].
    intros x w I. apply W. right. exact I.
  - intros J. apply in_app_iff in J as [J|J]; [exact (proj1 (V _ _ F) J)|]. revert J. apply IH; [intros q I; apply C; right; exact I|].
    intros x w' I. apply W. right. exact I.
  - pose proof (C _ (or_introl eq_refl)) as N. intros J. change ("{" :: k ++ "}" :: v) with (("{" :: k) ++ "}" :: v) in J.
    apply in_app_iff in J as [[J|J]|[J|J]]; try discriminate; [apply N, J|]. revert J. apply IH; [intros q I; apply C; right; exact I|].
    intros x w I. apply W. right. exact I.
  - intros J. apply in_app_iff in J as [J|J]; [exact (W x w (or_introl eq_refl) E J)|]. revert J. apply IH; [intros q I; apply C; right; exact I|].
    intros y w' I. apply W. right. exact I.
Qed.
Lemma perm_get (ord : list (text * text) -> list (text * text)) e x : any_order ord -> NoDup (akeys e) -> aget x (ord e) = aget x e.
Proof. intros O ND. apply aget_perm with (x := x); [|apply O]. eapply Permutation_NoDup; [apply Permutation_map, Permutation_sym, O|exact ND]. Qed.
Lemma perm_nodup (ord : list (text * text) -> list (text * text)) e : any_order ord -> NoDup (akeys e) -> NoDup (map fst (ord e)).
Proof. intros O ND. eapply Permutation_NoDup; [apply Permutation_map, Permutation_sym, O|exact ND]. Qed.
Lemma stands_ext p e e' t v : (forall x, e x = e' x) -> stands p e t v -> stands p e' t v.
Proof. intros X. induction 1; try (constructor; assumption). econstructor; [rewrite <- X; eassumption|assumption]. Qed.
(** the names of an environment are bare *)
Definition bare_names (e : list (text * text)) : Prop := forall x, In x (akeys e) -> bare x.
Lemma expanded_stands ord p e t v : any_order ord -> NoDup (akeys e) -> bare_names e -> clear t -> tame p (fun x => aget x e) t ->
  stands p (fun x => aget x e) t v -> expand_variables p (ord e) (spelled t) = v.
Proof.
  intros O ND B C [W V] H. rewrite expand_clear; [|exact C|exact V| |apply perm_nodup; assumption|].
  - apply stands_spelled; [apply perm_nodup; assumption|]. eapply stands_ext; [|exact H]. intros x. symmetry. apply perm_get; assumption.
  - intros x w I. apply B. apply (Permutation_in _ (O e)) in I. change x with (fst (x, w)). apply in_map, I.
  - intros x w I E. rewrite perm_get in E by assumption. exact (W x w I E).
Qed.
(** all the ways to export a value give what it stands for *)
Theorem export_stands ord p x e t v : any_order ord -> NoDup (akeys e) -> bare_names e -> clear t -> tame p (fun x => aget x e) t ->
  stands p (fun x => aget x e) t v -> export_value ord p x (spelled t) e = v.
Proof.
  intros O ND B C W H. unfold export_value. cbv zeta. rewrite (expanded_stands ord p e t v O ND B C W H).
  assert (N : ~ In "$" v) by (eapply stands_no_dollar; eassumption).
  destruct (contains_text (dollar x ++ [":"]) (spelled t)); [apply replace_none with (c := "$") (q := braced x ++ [":"]); [reflexivity|exact N]|].
  destruct (contains_text (":" :: dollar x) (spelled t)); [|reflexivity].
  clear - N. induction v as [|c v IH]; [reflexivity|]. rewrite replace_miss.
  - f_equal. apply IH. intros I. apply N. right. exact I.
  - cbn [starts_with]. destruct (Ascii.eqb ":" c); [|reflexivity]. cbn [andb]. rewrite <- (app_nil_r (dollar x)). destruct v as [|d v]; [reflexivity|].
    rewrite <- (app_nil_r (d :: v)). apply no_dollar_prefix; [|discriminate]. intros I. apply N. right. exact I.
Qed.

(** ** Lines *)
Lemma split_once_app c a b : ~ In c a -> split_once c (a ++ c :: b) = Some (a, b).
Proof.
  induction a as [|d a IH]; intros N; cbn [app split_once]; [rewrite Ascii.eqb_refl; reflexivity|].
  destruct (Ascii.eqb_spec d c) as [->|E]; [destruct N; left; reflexivity|]. rewrite IH by (intros I; apply N; right; exact I). reflexivity.
Qed.
Lemma split_once_none c s : ~ In c s -> split_once c s = None.
Proof.
  induction s as [|d s IH]; intros N; [reflexivity|]. cbn [split_once]. destruct (Ascii.eqb_spec d c) as [->|E]; [destruct N; left; reflexivity|].
  rewrite IH by (intros I; apply N; right; exact I). reflexivity.
Qed.
Lemma blanks_ws u : blanks u -> forallb is_ws u = true.
Proof. intros H. apply forallb_forall, H. Qed.
Lemma trim_in c s : In c (trim s) -> In c s.
Proof. intros I. destruct (trim_split s) as (u & v & _ & _ & E). rewrite E. apply in_or_app. right. apply in_or_app. left. exact I. Qed.
Lemma skipn_in {A} (x : A) : forall n l, In x (skipn n l) -> In x l.
Proof. induction n as [|n IH]; intros l I; [exact I|]. destruct l as [|a l]; [exact I|]. right. apply IH, I. Qed.
Lemma line_none ord p l e : reads l None -> apply_line ord p l e = e.
Proof.
  intros H. unfold apply_line. cbv zeta. destruct (starts_with (T "export ") (trim l)) eqn:S; [|reflexivity]. inversion H as [| |? N E|? N E]; subst.
  - apply starts_with_spec in S as [r E]. destruct (trim_split l) as (u & w & Hu & _ & El). destruct (N u (r ++ w)).
    + intros c I. rewrite forallb_forall in Hu. apply Hu, I.
    + rewrite El at 1. rewrite E, <- app_assoc. reflexivity.
  - unfold apply_export. rewrite split_once_none; [reflexivity|]. intros I. apply N, trim_in, (skipn_in _ 7), I.
Qed.
Lemma trim_dq_start_none s : ~ In DQ s -> trim_dq_start s = s.
Proof. destruct s as [|c s]; intros N; [reflexivity|]. cbn [trim_dq_start]. destruct (Ascii.eqb_spec c DQ) as [->|E]; [destruct N; left; reflexivity|reflexivity]. Qed.
Lemma trim_dq_none s : ~ In DQ s -> trim_dq s = s.
Proof. intros N. unfold trim_dq. rewrite (trim_dq_start_none s) by exact N. rewrite (trim_dq_start_none (rev s)) by (rewrite <- in_rev; exact N). apply rev_involutive. Qed.
Lemma trim_dq_quoted s : ~ In DQ s -> trim_dq (DQ :: s ++ [DQ]) = s.
Proof.
  intros N. unfold trim_dq. cbn [trim_dq_start]. rewrite Ascii.eqb_refl. destruct s as [|c s]; [reflexivity|].
  assert (E : trim_dq_start ((c :: s) ++ [DQ]) = (c :: s) ++ [DQ]).
  { cbn [app trim_dq_start]. destruct (Ascii.eqb_spec c DQ) as [->|E]; [destruct N; left; reflexivity|reflexivity]. }
  rewrite E, rev_app_distr. cbn [rev app]. cbn [trim_dq_start]. rewrite Ascii.eqb_refl. change (rev s ++ [c]) with (rev (c :: s)).
  rewrite trim_dq_start_none by (rewrite <- in_rev; exact N). apply rev_involutive.
Qed.
Lemma name_trim x : name_like x -> trim x = x.
Proof. intros [_ H]. apply trim_no_ws. apply forallb_forall. intros c I. rewrite (proj1 (H c I)). reflexivity. Qed.
Lemma name_eq x : name_like x -> ~ In "=" x.
Proof. intros [_ H] I. exact (proj2 (H _ I) eq_refl). Qed.
Lemma export_parsed ord p x rest e : name_like x ->
  apply_export ord p (T "export " ++ x ++ "=" :: rest) e = aput x (export_value ord p x (trim_dq rest) e) e.
Proof.
  intros N. unfold apply_export. change (skipn 7 (T "export " ++ x ++ "=" :: rest)) with (x ++ "=" :: rest).
  rewrite split_once_app by (apply name_eq, N). cbv zeta. rewrite name_trim by exact N. reflexivity.
Qed.
Lemma line_trimmed u w body d : blanks u -> blanks w -> is_ws d = false ->
  trim (u ++ T "export " ++ (body ++ [d]) ++ w) = T "export " ++ body ++ [d].
Proof.
  intros Hu Hw D. rewrite trim_app_ws_l by (apply blanks_ws, Hu). rewrite app_assoc, trim_app_ws_r by (apply blanks_ws, Hw).
  change (T "export " ++ body ++ [d]) with ("e" :: (T "xport " ++ body ++ [d])). rewrite app_assoc. apply trim_ends; [reflexivity|exact D].
Qed.
Lemma line_export ord p l x t e : reads l (Some (x, t)) -> name_like x /\ clear t /\ apply_line ord p l e = aput x (export_value ord p x (spelled t) e) e.
Proof.
  intros H. inversion H as [u w x' t' Hu Hw Hx Ht Hq E1 E2|u w x' t' Hu Hw Hx Ht Hq Hc E1 E2| |]; subst.
  - split; [exact Hx|split; [exact Ht|]]. unfold apply_line. cbv zeta.
    replace (u ++ T "export " ++ x ++ "=" :: """" :: spelled t ++ """" :: w)
      with (u ++ T "export " ++ ((x ++ "=" :: """" :: spelled t) ++ [""""]) ++ w)
      by (rewrite <- !app_assoc; cbn [app]; rewrite <- ?app_assoc; reflexivity).
    rewrite line_trimmed by (assumption || reflexivity). rewrite starts_with_app.
    replace ((x ++ "=" :: """" :: spelled t) ++ [""""]) with (x ++ "=" :: """" :: spelled t ++ [""""]) by (rewrite <- app_assoc; reflexivity).
    rewrite export_parsed by exact Hx. change ("""" :: spelled t ++ [""""]) with (DQ :: spelled t ++ [DQ]).
    rewrite (trim_dq_quoted (spelled t)) by exact Hq. reflexivity.
  - split; [exact Hx|split; [exact Ht|]]. unfold apply_line. cbv zeta.
    assert (Z : exists body d, x ++ "=" :: spelled t = body ++ [d] /\ is_ws d = false).
    { destruct (spelled t) as [|c0 s0] eqn:Es; [exists x, "="; auto|]. destruct (exists_last (l := c0 :: s0)) as (s & c & Ec); [discriminate|].
      exists (x ++ "=" :: s), c. rewrite Ec in Hc |- *. split; [rewrite <- app_assoc; reflexivity|]. apply (Hc s). reflexivity. }
    destruct Z as (body & d & Eb & Hd).
    replace (u ++ T "export " ++ x ++ "=" :: spelled t ++ w) with (u ++ T "export " ++ (body ++ [d]) ++ w)
      by (rewrite <- Eb, <- !app_assoc; reflexivity).
    rewrite line_trimmed by assumption. rewrite starts_with_app. rewrite <- Eb.
    rewrite export_parsed by exact Hx. rewrite (trim_dq_none (spelled t)) by exact Hq. reflexivity.
Qed.
Lemma put_names x v e : bare x -> bare_names e -> bare_names (aput x v e).
Proof.
  intros Hx B y I. apply aget_some in I as [w E]. destruct (text_eqb_spec y x) as [->|N]; [exact Hx|]. rewrite aget_put_other in E by exact N.
  apply B, aget_some. eauto.
Qed.
Lemma tame_ext p e e' t : (forall x, e x = e' x) -> tame p e t -> tame p e' t.
Proof. intros X [A B]. split; [|exact B]. intros x w I E. apply (A x w I). rewrite X. exact E. Qed.
Lemma reads_exp_inj l x t : reads l (Some (x, t)) -> name_like x /\ clear t.
Proof. intros H. destruct (line_export (fun l => l) (mkRpack [] None [] [] None None []) l x t [] H) as (A & B & _). auto. Qed.
Lemma runs_lines ord p : any_order ord -> forall f ls f', runs p f ls f' -> forall e, NoDup (akeys e) -> bare_names e -> (forall x, aget x e = f x) ->
  let e' := fold_left (fun e l => apply_line ord p l e) ls e in NoDup (akeys e') /\ bare_names e' /\ forall x, aget x e' = f' x.
Proof.
  intros O f ls f'. induction 1 as [f|f l ls x t v f' R W S _ IH|f l ls f' R _ IH]; intros e ND B E; cbn [fold_left].
  - auto.
  - destruct (line_export ord p l x t e R) as (Nx & Ct & ->).
    rewrite (export_stands ord p x e t v O ND B Ct).
    + apply IH; [apply nodup_put, ND|apply put_names; [apply Nx|exact B]|]. intros y. unfold set. destruct (text_eqb_spec y x) as [->|N].
      * apply aget_put_same.
      * rewrite aget_put_other by exact N. apply E.
    + eapply tame_ext; [|exact W]. intros y. symmetry. apply E.
    + eapply stands_ext; [|exact S]. intros y. symmetry. apply E.
  - rewrite line_none by exact R. apply IH; assumption.
Qed.
Lemma lines_split s ls : lines_of s ls -> split_on NL s = ls.
Proof.
  induction 1 as [l N|l s ls N H IH].
  - induction l as [|c l IH]; [reflexivity|]. cbn [split_on]. destruct (Ascii.eqb_spec c NL) as [->|E]; [destruct N; left; reflexivity|].
    rewrite IH by (intros I; apply N; right; exact I). reflexivity.
  - clear H. induction l as [|c l IHl]; cbn [app split_on]; [rewrite Ascii.eqb_refl, IH; reflexivity|].
    destruct (Ascii.eqb_spec c NL) as [->|E]; [destruct N; left; reflexivity|]. rewrite IHl by (intros I; apply N; right; exact I). reflexivity.
Qed.
Theorem environ_runs ord ps : any_order ord -> forall f f', runs_all f ps f' -> forall e, NoDup (akeys e) -> bare_names e -> (forall x, aget x e = f x) ->
  forall x, aget x (get_environ ord ps e) = f' x.
Proof.
  intros O f f'. unfold get_environ. induction 1 as [f|f p ps f' N _ IH|f p ps c ls f1 f' N L R _ IH]; intros e ND B E; cbn [fold_left].
  - exact E.
  - rewrite N. apply IH; assumption.
  - rewrite N. unfold apply_commands. rewrite (lines_split _ _ L). destruct (runs_lines ord p O _ _ _ R e ND B E) as (ND' & B' & E').
    apply IH; assumption.
Qed.

(** ** Variables that are not exported *)
Lemma trim_parts n : exists a b, blanks a /\ blanks b /\ n = a ++ trim n ++ b.
Proof.
  destruct (trim_split n) as (u & v & Hu & Hv & E). exists u, v. rewrite forallb_forall in Hu, Hv. auto.
Qed.
Lemma split_once_inv c : forall s a b, split_once c s = Some (a, b) -> s = a ++ c :: b /\ ~ In c a.
Proof.
  induction s as [|d s IH]; intros a b H; [discriminate|]. cbn [split_once] in H. destruct (Ascii.eqb_spec d c) as [->|N].
  - injection H as <- <-. split; [reflexivity|intros []].
  - destruct (split_once c s) as [[a' b']|]; [|discriminate]. injection H as <- <-. destruct (IH _ _ eq_refl) as [-> K].
    split; [reflexivity|]. intros [E|I]; [congruence|exact (K I)].
Qed.
Lemma line_frame ord p l y e : ~ exports l y -> aget y (apply_line ord p l e) = aget y e.
Proof.
  intros H. unfold apply_line. cbv zeta. destruct (starts_with (T "export ") (trim l)) eqn:S; [|reflexivity].
  unfold apply_export. destruct (split_once "=" (skipn 7 (trim l))) as [[n r]|] eqn:E; [|reflexivity]. cbv zeta.
  apply aget_put_other. intros ->. apply H. apply split_once_inv in E as [E N]. apply starts_with_spec in S as [q Q]. rewrite Q in E.
  change (skipn 7 (T "export " ++ q)) with q in E. subst q. destruct (trim_parts l) as (u & w & Hu & Hw & El).
  destruct (trim_parts n) as (a & b & Ha & Hb & En). exists u, a, b, (r ++ w). repeat split; try assumption.
  - rewrite <- En. exact N.
  - rewrite El at 1. rewrite Q. rewrite En at 1. rewrite <- !app_assoc. cbn [app]. reflexivity.
Qed.
Lemma lines_of_ex : forall s, lines_of s (split_on NL s).
Proof.
  induction s as [|c s IH]; [constructor; intros []|]. cbn [split_on]. destruct (Ascii.eqb_spec c NL) as [->|N].
  - change (NL :: s) with ([] ++ "010" :: s). constructor; [intros []|exact IH].
  - inversion IH as [l Nl E1 E2|l s' ls Nl Hl E1 E2]; subst.
    + constructor. intros [E|I]; [apply N; exact E|exact (Nl I)].
    + change (c :: l ++ "010" :: s') with ((c :: l) ++ "010" :: s'). constructor; [|exact Hl]. intros [E|I]; [apply N; exact E|exact (Nl I)].
Qed.
Theorem environ_frame ord ps y : forall e, ~ exported ps y -> aget y (get_environ ord ps e) = aget y e.
Proof.
  unfold get_environ. induction ps as [|p ps IH]; intros e H; [reflexivity|]. cbn [fold_left]. rewrite IH.
  - destruct (rp_commands p) as [c|] eqn:E; [|reflexivity]. unfold apply_commands.
    assert (G : forall ls e, (forall l, In l ls -> ~ exports l y) -> aget y (fold_left (fun e l => apply_line ord p l e) ls e) = aget y e).
    { induction ls as [|l ls IHl]; intros e' Hl; [reflexivity|]. cbn [fold_left]. rewrite IHl by (intros; apply Hl; right; assumption).
      apply line_frame, Hl. left. reflexivity. }
    apply G. intros l I X. apply H. exists p, c, (split_on NL c), l. repeat split; [left; reflexivity|exact E|apply lines_of_ex|exact I|exact X].
  - intros (q & c & ls & l & I & R). apply H. exists q, c, ls, l. split; [right; exact I|exact R].
Qed.

(** ** Unset variables *)
Lemma contains_ref x q t : bare x -> (forall r, In r t -> fine1 r) -> contains_text (dollar x ++ q) (spelled t) = true ->
  exists a b, t = a ++ Ref x :: b /\ starts_with q (spelled b) = true.
Proof.
  intros Bx. induction t as [|r t IH]; intros F H; [discriminate|].
  assert (IH' : contains_text (dollar x ++ q) (spelled t) = true -> exists a b, r :: t = a ++ Ref x :: b /\ starts_with q (spelled b) = true).
  { intros K. destruct IH as (a & b & -> & S); [intros; apply F; right; assumption|exact K|]. exists (r :: a), b. auto. }
  assert (P : forall a, ~ In "$" a -> contains_text (dollar x ++ q) (a ++ spelled t) = true -> contains_text (dollar x ++ q) (spelled t) = true).
  { induction a as [|c a IHa]; intros N K; [exact K|]. apply IHa; [intros I; apply N; right; exact I|]. cbn [app contains_text] in K.
    apply orb_true_iff in K as [K|K]; [|exact K]. change (c :: a ++ spelled t) with ((c :: a) ++ spelled t) in K.
    rewrite no_dollar_prefix in K by (assumption || discriminate). discriminate. }
  specialize (F r (or_introl eq_refl)). rewrite spelled_cons in H. destruct r as [c|k|y].
  - apply IH', (P [c]); [intros [E|[]]; exact (proj1 F E)|exact H].
  - apply IH', (P (written (Field k))); [apply bare_in, F|exact H].
  - destruct (text_eqb_spec y x) as [->|N].
    + rewrite written_ref in H. cbn [contains_text] in H. apply orb_true_iff in H as [H|H].
      * apply starts_dollar in H as [s E]. injection E as E. destruct Bx as (_ & B2 & _). apply ref_unique in E as [_ E]; [|assumption|assumption].
        exists [], t. split; [reflexivity|]. rewrite E. apply starts_with_app.
      * apply IH', (P ("{" :: x ++ ["}"])); [apply bare_in, Bx|]. cbn [app]. rewrite <- app_assoc. exact H.
    + rewrite written_ref in H. cbn [contains_text] in H. apply orb_true_iff in H as [H|H].
      * apply starts_dollar in H as [s E]. injection E as E. destruct Bx as (_ & B2 & _). destruct F as (_ & F2 & _).
        apply ref_unique in E as [E _]; [congruence|assumption|assumption].
      * apply IH', (P ("{" :: y ++ ["}"])); [apply bare_in, F|]. cbn [app]. rewrite <- app_assoc. exact H.
Qed.
Lemma contains_mid p s a b : s = a ++ p ++ b -> contains_text p s = true.
Proof.
  intros ->. destruct (contains_text p (a ++ p ++ b)) eqn:E; [reflexivity|]. destruct (proj1 (contains_text_false_spec p _) E a b). reflexivity.
Qed.
Lemma expand_around ord p e a b x v w : any_order ord -> NoDup (akeys e) -> bare_names e -> clear (a ++ Ref x :: b) ->
  tame p (fun y => aget y e) (a ++ b) -> aget x e = None -> stands p (fun y => aget y e) a v -> stands p (fun y => aget y e) b w ->
  expand_variables p (ord e) (spelled (a ++ Ref x :: b)) = v ++ dollar x ++ w.
Proof.
  intros O ND B C [W V] N Ha Hb. rewrite expand_clear; [|exact C|exact V| |apply perm_nodup; assumption|].
  - change (a ++ Ref x :: b) with (a ++ [Ref x] ++ b). rewrite !filled_app, !resolved_app, !spelled_app, filled_ref.
    rewrite resolved_ref by (apply perm_nodup; assumption). rewrite perm_get, N by assumption.
    rewrite (stands_spelled p (ord e) a v); [|apply perm_nodup; assumption|].
    + rewrite (stands_spelled p (ord e) b w); [|apply perm_nodup; assumption|].
      * f_equal. f_equal. unfold dollar, braced. cbn [spelled flat_map written app]. rewrite app_nil_r. reflexivity.
      * eapply stands_ext; [|exact Hb]. intros y. symmetry. apply perm_get; assumption.
    + eapply stands_ext; [|exact Ha]. intros y. symmetry. apply perm_get; assumption.
  - intros y u I. apply B. apply (Permutation_in _ (O e)) in I. change y with (fst (y, u)). apply in_map, I.
  - intros y u I E. rewrite perm_get in E by assumption. apply (W y u); [|exact E]. apply in_app_iff in I as [I|[I|I]].
    + apply in_or_app. left. exact I.
    + injection I as <-. congruence.
    + apply in_or_app. right. exact I.
Qed.
Lemma clear_sub a b : clear (a ++ b) -> clear a /\ clear b.
Proof. intros H. split; intros q I; apply H, in_or_app; auto. Qed.
Lemma tame_sub p e a b : tame p e (a ++ b) -> tame p e a /\ tame p e b.
Proof. intros [W V]. split; (split; [|exact V]); intros x w I; apply W, in_or_app; auto. Qed.
(** extending a variable that is not set *)
Theorem extend_unset_front ord p x e t v : any_order ord -> NoDup (akeys e) -> bare_names e -> clear (Ref x :: Lit ":" :: t) ->
  tame p (fun y => aget y e) t -> aget x e = None -> stands p (fun y => aget y e) t v ->
  export_value ord p x (spelled (Ref x :: Lit ":" :: t)) e = ":" :: v.
Proof.
  intros O ND B C W N H. unfold export_value. cbv zeta.
  rewrite (contains_mid _ _ [] (spelled t)) by (rewrite <- app_assoc, dollar_app, spelled_cons, written_ref; reflexivity).
  rewrite N. change (Ref x :: Lit ":" :: t) with ([] ++ Ref x :: Lit ":" :: t).
  rewrite (expand_around ord p e [] (Lit ":" :: t) x [] (":" :: v)); try assumption; [|split; [|apply W]| constructor|constructor; exact H].
  - cbn [app]. change (":" :: v) with ([":"] ++ v). rewrite app_assoc.
    change (dollar x ++ [":"]) with ("$" :: braced x ++ [":"]). rewrite replace_hit. cbn [app]. f_equal.
    apply replace_none with (c := "$") (q := braced x ++ [":"]); [reflexivity|].
    eapply stands_no_dollar; [|exact W|exact H]. intros q I. apply C. right. right. exact I.
  - intros y w [I|I]; [discriminate|]. apply W, I.
Qed.
Theorem extend_unset_back ord p x e t v : any_order ord -> NoDup (akeys e) -> bare_names e -> clear (t ++ [Lit ":"; Ref x]) -> ~ In (Ref x) t ->
  tame p (fun y => aget y e) t -> aget x e = None -> stands p (fun y => aget y e) t v ->
  export_value ord p x (spelled (t ++ [Lit ":"; Ref x])) e = v ++ [":"].
Proof.
  intros O ND B C NI W N H. unfold export_value. cbv zeta.
  assert (Cx : clear_piece (Ref x)) by (apply C, in_or_app; right; right; left; reflexivity).
  destruct (contains_text (dollar x ++ [":"]) (spelled (t ++ [Lit ":"; Ref x]))) eqn:K.
  { exfalso. apply contains_ref in K as (a & b & E & S); [|apply Cx|apply clear_fine, C].
    assert (Z : b = []).
    { destruct b as [|q b]; [reflexivity|]. exfalso. apply NI.
      assert (X : exists c, t = a ++ Ref x :: c).
      { clear - E. change (t ++ [Lit ":"; Ref x]) with (t ++ [Lit ":"] ++ [Ref x]) in E. rewrite app_assoc in E.
        destruct (exists_last (l := q :: b)) as (b' & z & Eb); [discriminate|]. rewrite Eb in E.
        replace (a ++ Ref x :: b' ++ [z]) with ((a ++ Ref x :: b') ++ [z]) in E by (rewrite <- app_assoc; reflexivity).
        apply app_inj_tail in E as [E _]. destruct (exists_last (l := Ref x :: b')) as (b2 & z2 & Eb2); [discriminate|].
        rewrite Eb2, app_assoc in E. apply app_inj_tail in E as [E Ez]. subst z2.
        destruct b2 as [|r b2]; [cbn in Eb2; injection Eb2 as E1 _; discriminate|]. cbn in Eb2. injection Eb2 as <- _. eauto. }
      destruct X as [c ->]. apply in_or_app. right. left. reflexivity. }
    subst b. discriminate S. }
  assert (R : expand_variables p (ord e) (spelled (t ++ [Lit ":"; Ref x])) = (v ++ [":"]) ++ dollar x ++ []).
  { replace (t ++ [Lit ":"; Ref x]) with ((t ++ [Lit ":"]) ++ Ref x :: []) by (rewrite <- app_assoc; reflexivity).
    apply expand_around; try assumption.
    - rewrite <- app_assoc. exact C.
    - rewrite app_nil_r. split; [|apply W]. intros y w I. apply in_app_iff in I as [I|[I|[]]]; [apply W, I|discriminate].
    - clear - H. induction H; cbn [app]; try (constructor; assumption).
      + constructor. constructor.
      + rewrite <- app_assoc. constructor; assumption.
      + rewrite <- app_assoc. cbn [app]. constructor; assumption.
      + rewrite <- app_assoc. econstructor; eassumption.
    - constructor. }
  rewrite R, N. rewrite (contains_mid _ _ (spelled t) []).
  - rewrite app_nil_r. rewrite <- app_assoc. cbn [app].
    assert (ND' : ~ In "$" v) by (eapply stands_no_dollar; [|exact W|exact H]; apply (proj1 (clear_sub _ _ C))).
    clear - ND'. induction v as [|c v IH].
    + cbn [app]. change (":" :: dollar x) with (":" :: dollar x). rewrite <- (app_nil_r (":" :: dollar x)) at 2. rewrite replace_hit. reflexivity.
    + cbn [app]. rewrite replace_miss; [f_equal; apply IH; intros I; apply ND'; right; exact I|]. cbn [starts_with].
      destruct (Ascii.eqb ":" c); [|reflexivity]. cbn [andb]. rewrite <- (app_nil_r (dollar x)) at 1.
      replace (v ++ ":" :: dollar x) with ((v ++ [":"]) ++ dollar x) by (rewrite <- app_assoc; reflexivity).
      apply no_dollar_prefix; [|destruct v; discriminate]. intros I. apply in_app_iff in I as [I|[I|[]]]; [apply ND'; right; exact I|discriminate].
  - rewrite spelled_app. unfold dollar, braced. cbn [spelled flat_map written app]. rewrite app_nil_r. reflexivity.
Qed.

(** ** Tools and packages *)
Lemma tools_of root : forall ts m t, aget t (fold_left (fun m t => aput t (bin_path root t) m) ts m) = if mem_text t ts then Some (bin_path root t) else aget t m.
Proof.
  induction ts as [|u ts IH]; intros m t; [reflexivity|]. cbn [fold_left mem_text existsb]. rewrite IH. unfold mem_text. cbn [existsb].
  destruct (existsb (text_eqb t) ts); [rewrite orb_true_r; reflexivity|]. rewrite orb_false_r. destruct (text_eqb_spec t u) as [->|N].
  - apply aget_put_same.
  - apply aget_put_other, N.
Qed.
Lemma mem_in t ts : mem_text t ts = true <-> In t ts.
Proof.
  unfold mem_text. rewrite existsb_exists. split; [intros (u & I & E); apply text_eqb_eq in E; subst; exact I|]. intros I. exists t. split; [exact I|apply text_eqb_refl].
Qed.
Lemma tools_fold : forall ps m t r, aget t (fold_left (fun m p => fold_left (fun m t => aput t (bin_path (rp_root p) t) m) (rp_tools p) m) ps m) = Some r <->
  (exists p, last_with t p ps /\ r = bin_path (rp_root p) t) \/ ((forall p, In p ps -> ~ In t (rp_tools p)) /\ aget t m = Some r).
Proof.
  induction ps as [|p ps IH]; intros m t r.
  - cbn [fold_left]. split; [intros H; right; split; [intros p []|exact H]|]. intros [(p & (a & b & E & _) & _)|[_ H]]; [destruct a; discriminate|exact H].
  - cbn [fold_left]. rewrite IH, tools_of. split.
    + intros [(q & (a & b & -> & X) & R)|[N H]].
      * left. exists q. split; [exists (p :: a), b; auto|exact R].
      * destruct (mem_text t (rp_tools p)) eqn:M.
        -- left. exists p. injection H as <-. split; [|reflexivity]. exists [], ps. apply mem_in in M. auto.
        -- right. split; [|exact H]. intros q [<-|I]; [|apply N, I]. intros I. apply mem_in in I. congruence.
    + intros [(q & (a & b & E & X & Y) & R)|[N H]].
      * destruct a as [|a0 a]; injection E as -> E.
        -- subst b. right. split; [exact Y|]. apply mem_in in X. rewrite X, R. reflexivity.
        -- left. exists q. split; [exists a, b; auto|exact R].
      * right. split; [intros q I; apply N; right; exact I|]. destruct (mem_text t (rp_tools p)) eqn:M; [|exact H].
        apply mem_in in M. destruct (N p (or_introl eq_refl) M).
Qed.
Theorem tools_spec ps t r : aget t (get_tools ps) = Some r <-> exists p, last_with t p ps /\ r = rp_root p ++ T "/bin/" ++ t.
Proof.
  unfold get_tools. rewrite tools_fold. split; [intros [H|[_ H]]; [exact H|discriminate]|]. intros H. left. exact H.
Qed.
Theorem get_package_spec n ps p : get_package n ps = Some p <-> first_named n p ps.
Proof.
  unfold get_package. induction ps as [|q ps IH]; cbn [find].
  - split; [discriminate|]. intros (a & b & E & _). destruct a; discriminate.
  - destruct (text_eqb_spec (rp_name q) n) as [E|N].
    + split.
      * intros [= ->]. exists [], ps. repeat split; auto.
      * intros (a & b & E' & X & Y). destruct a as [|a0 a]; injection E' as -> E'; [reflexivity|]. destruct (Y a0 (or_introl eq_refl) E).
    + rewrite IH. split.
      * intros (a & b & -> & X & Y). exists (q :: a), b. repeat split; auto. intros r [<-|I]; [exact N|apply Y, I].
      * intros (a & b & E' & X & Y). destruct a as [|a0 a]; injection E' as -> E'; [congruence|]. exists a, b. repeat split; auto.
        intros r I. apply Y. right. exact I.
Qed.
Theorem has_package_spec n ps : has_package n ps = true <-> exists p, get_package n ps = Some p.
Proof.
  unfold has_package, get_package. induction ps as [|q ps IH]; cbn [existsb find]; [split; [discriminate|intros [p E]; discriminate]|].
  destruct (text_eqb (rp_name q) n); cbn [orb]; [split; eauto|exact IH].
Qed.
