(** Proofs about expressions of package.py files: the loader's values are Python's on the part of the language named in the specification. *)
From Verif Require Import Base Base_lemmas Text_lemmas Maps Version_model Rex_model Rex_proofs Filter_model Pyfile_model Pyfile_spec Pyfile_format.
Open Scope char_scope.

(** ** Induction over expressions; the receiver of a method call counts as a part *)
Section Ind.
Context (P : pexpr -> Prop).
Definition key_ok (k : option pexpr) : Prop := match k with Some k => P k | None => True end.
Definition on_key (b : option pexpr * pexpr) : Prop := key_ok (fst b) /\ P (snd b).
Context (Hconst : forall k, P (EConst k)) (Hname : forall x, P (EName x)) (Hbin : forall op a b, P a -> P b -> P (EBin op a b))
  (Hun : forall op a, P a -> P (EUn op a)) (Hcmp : forall a rest, P a -> Forall (fun r => P (snd r)) rest -> P (ECmp a rest))
  (Hbool : forall i es, Forall P es -> P (EBool i es)) (Hlist : forall es, Forall P es -> P (EList es))
  (Htuple : forall es, Forall P es -> P (ETuple es)) (Hdict : forall kvs, Forall on_key kvs -> P (EDict kvs))
  (Hcall : forall f args kws, P f -> (forall o a, f = EAttr o a -> P o) -> Forall P args -> Forall (fun b => P (snd b)) kws -> P (ECall f args kws))
  (Hattr : forall o a, P o -> P (EAttr o a)) (Hsub : forall o i, P o -> P i -> P (ESub o i))
  (Hif : forall t b o, P t -> P b -> P o -> P (EIf t b o)) (Hother : P EOther).
Fixpoint pexpr_all (e : pexpr) : P e :=
  match e with
  | EConst k => Hconst k
  | EName x => Hname x
  | EBin op a b => Hbin op a b (pexpr_all a) (pexpr_all b)
  | EUn op a => Hun op a (pexpr_all a)
  | ECmp a rest => Hcmp a rest (pexpr_all a) ((fix go l : Forall (fun r => P (snd r)) l := match l with [] => Forall_nil _ | (op, x) :: l' => Forall_cons (op, x) (pexpr_all x) (go l') end) rest)
  | EBool i es => Hbool i es ((fix go l : Forall P l := match l with [] => Forall_nil _ | x :: l' => Forall_cons x (pexpr_all x) (go l') end) es)
  | EList es => Hlist es ((fix go l : Forall P l := match l with [] => Forall_nil _ | x :: l' => Forall_cons x (pexpr_all x) (go l') end) es)
  | ETuple es => Htuple es ((fix go l : Forall P l := match l with [] => Forall_nil _ | x :: l' => Forall_cons x (pexpr_all x) (go l') end) es)
  | EDict kvs => Hdict kvs ((fix go l : Forall on_key l := match l with [] => Forall_nil _
      | (k, x) :: l' => Forall_cons (k, x) (conj (match k as k0 return key_ok k0 with Some k => pexpr_all k | None => I end) (pexpr_all x)) (go l') end) kvs)
  | ECall f args kws => Hcall f args kws (pexpr_all f)
      (match f as f0 return (forall o a, f0 = EAttr o a -> P o) with
       | EAttr o _ => fun o' a' E => eq_ind o P (pexpr_all o) o' (f_equal (fun x => match x with EAttr y _ => y | _ => o end) E)
       | f0 => fun o' a' E => match (eq_ind f0 (fun x => match x with EAttr _ _ => False | _ => True end) I (EAttr o' a') E) with end
       end)
      ((fix go l : Forall P l := match l with [] => Forall_nil _ | x :: l' => Forall_cons x (pexpr_all x) (go l') end) args)
      ((fix go l : Forall (fun b => P (snd b)) l := match l with [] => Forall_nil _ | (k, x) :: l' => Forall_cons (k, x) (pexpr_all x) (go l') end) kws)
  | EAttr o a => Hattr o a (pexpr_all o)
  | ESub o i => Hsub o i (pexpr_all o) (pexpr_all i)
  | EIf t b o => Hif t b o (pexpr_all t) (pexpr_all b) (pexpr_all o)
  | EOther => Hother
  end.
End Ind.

Lemma bind_ok {A B} (r : res A) (k : A -> res B) b : bind r k = Ok b -> exists a, r = Ok a /\ k a = Ok b.
Proof. destruct r as [a| |]; intros H; [now exists a|discriminate H|discriminate H]. Qed.
Lemma all_of_in {A} (P : A -> Prop) l : all_of P l <-> forall a, In a l -> P a.
Proof.
  induction l as [|x l IH]; cbn; [split; [intros _ a []|reflexivity]|]. rewrite IH. split.
  - intros [H1 H2] a [<-|I]; [exact H1|apply H2, I].
  - intros H. split; [apply H; now left|intros a I; apply H; now right].
Qed.

(** ** Values *)
Lemma wrap64_fits z : fits z -> wrap64 z = z.
Proof. unfold fits, wrap64. intros H. rewrite Z.mod_small by lia. lia. Qed.
Lemma repeat_neg (a : text) z : (z < 0)%Z -> concat (repeat a (Z.to_nat z)) = [].
Proof. intros H. destruct z; [lia|lia|reflexivity]. Qed.
Lemma same_app l p l' p' : Forall2 same l p -> Forall2 same l' p' -> Forall2 same (l ++ l') (p ++ p').
Proof. apply Forall2_app. Qed.
Lemma bin_same op l r v x y : eval_bin op l r = Ok v -> same l x -> same r y -> small op x y -> exists p, py_bin op x y = Some p /\ same v p.
Proof.
  intros E Sl Sr Hs.
  destruct op, l; try discriminate E; destruct r; try discriminate E; inversion Sl; subst; inversion Sr; subst; cbn [eval_bin] in E; cbn [small] in Hs; try contradiction.
  all: try (injection E as <-; eexists; split; [reflexivity|]; try rewrite wrap64_fits by exact Hs; constructor; apply same_app; assumption).
  all: try (injection E as <-; eexists; split; [reflexivity|]; try rewrite wrap64_fits by exact Hs; constructor).
  destruct (Z.ltb_spec z 0) as [L|L].
  - destruct s as [|c s]; [|discriminate E]. injection E as <-. eexists. split; [reflexivity|].
    cbn [number]. rewrite repeat_neg by exact L. constructor.
  - injection E as <-. eexists. split; [reflexivity|]. constructor.
Qed.
Lemma un_same op l v x : eval_un op l = Ok v -> same l x -> (forall z, op = USub -> x = PyInt z -> fits (- z)) -> exists p, py_un op x = Some p /\ same v p.
Proof.
  intros E S H. destruct op, l; try discriminate E; inversion S; subst; injection E as <-; (eexists; split; [reflexivity|]); try constructor.
  rewrite wrap64_fits by (apply H; reflexivity). constructor.
Qed.
Lemma cmp_same op l r b x y : eval_cmp op l r = Some b -> same l x -> same r y -> py_cmp op x y = Some b.
Proof.
  intros E Sl Sr. destruct op, l; try discriminate E; destruct r; try discriminate E; inversion Sl; subst; inversion Sr; subst; injection E as <-; try reflexivity.
  cbn. destruct b0, b1; reflexivity.
Qed.
Lemma aput_same s v p d q : same v p -> Forall2 (fun a b => fst a = fst b /\ same (snd a) (snd b)) d q ->
  Forall2 (fun a b => fst a = fst b /\ same (snd a) (snd b)) (aput s v d) (aput s p q).
Proof.
  intros S F. induction F as [|[k a] [k' b] d q [Hk Hs] F IH]; [repeat constructor; assumption|]. cbn [fst snd] in Hk, Hs. subst k'. cbn [aput].
  destruct (text_eqb s k); constructor; try assumption; split; try reflexivity; assumption.
Qed.

(** ** Expressions *)
Definition agrees (w : world) vars env (e : pexpr) : Prop :=
  tame w env e -> forall v, eval w vars e = Ok v -> exists p, py w env e = Some p /\ same v p.
Section Agree.
Context (w : world) (vars : list (text * value)) (env : list (text * pyval)) (VA : vars_agree vars env).
Notation A := (agrees w vars env).
Lemma agree_list es : Forall A es -> all_of (tame w env) es -> forall l, eval_list (eval w vars) es = Ok l ->
  exists p, all_some (map (py w env) es) = Some p /\ Forall2 same l p.
Proof.
  intros F. induction F as [|x es Hx F IH]; intros Ht l E.
  - injection E as <-. exists []. split; [reflexivity|constructor].
  - cbn in Ht. destruct Ht as [Tx Ht]. cbn [eval_list] in E. apply bind_ok in E. destruct E as (v & Ev & E). apply bind_ok in E. destruct E as (r & Er & E).
    injection E as <-. destruct (Hx Tx v Ev) as (p & Ep & Sp). destruct (IH Ht r Er) as (q & Eq & Sq). exists (p :: q).
    split; [cbn; rewrite Ep; cbn; rewrite Eq; reflexivity|constructor; assumption].
Qed.
Lemma agree_bools i es : es <> [] -> Forall A es -> all_of (fun x => tame w env x /\ forall v, py w env x = Some v -> exists b, v = PyBool b) es ->
  forall v, bool_loop (eval w vars) i es = Ok v -> exists p, py_bools (py w env) i es = Some p /\ same v p.
Proof.
  intros Hn F. induction F as [|x es Hx F IH]; [congruence|]. intros Ht v E. cbn in Ht. destruct Ht as [[Tx Bx] Ht].
  cbn [bool_loop] in E. apply bind_ok in E. destruct E as (u & Eu & E). destruct (Hx Tx u Eu) as (p & Ep & Sp). destruct (Bx p Ep) as (b & ->).
  inversion Sp; subst. cbn [py_bools]. rewrite Ep. cbn [obind truthy]. destruct (Bool.eqb b i) eqn:Eb.
  - destruct es as [|y es].
    + injection E as <-. apply eqb_prop in Eb. subst. eexists. split; [reflexivity|constructor].
    + apply IH; [discriminate|exact Ht|exact E].
  - injection E as <-. exists (PyBool b). split; [destruct es; reflexivity|constructor].
Qed.
Lemma agree_dict kvs : Forall (on_key A) kvs ->
  all_of (fun b => match fst b with Some k => tame w env k | None => False end /\ tame w env (snd b)) kvs ->
  forall d q v, Forall2 (fun a b => fst a = fst b /\ same (snd a) (snd b)) d q -> dict_loop (eval w vars) d kvs = Ok v ->
  exists p, py_dict (py w env) q kvs = Some p /\ same v p.
Proof.
  intros F. induction F as [|[k x] kvs [Hk Hx] F IH]; intros Ht d q v S E.
  - injection E as <-. eexists. split; [reflexivity|]. constructor. exact S.
  - cbn in Ht. destruct Ht as [[Tk Tx] Ht]. destruct k as [k|]; [|contradiction]. cbn in Hk, Hx. cbn [dict_loop] in E.
    apply bind_ok in E. destruct E as (kv & Ek & E). apply bind_ok in E. destruct E as (xv & Ex & E).
    destruct (Hk Tk kv Ek) as (pk & Epk & Spk). destruct (Hx Tx xv Ex) as (px & Epx & Spx). destruct kv; try discriminate E. inversion Spk; subst.
    cbn [py_dict]. rewrite Epk. cbn [obind]. rewrite Epx. cbn [obind]. apply (IH Ht (aput s xv d)); [apply aput_same; assumption|exact E].
Qed.
Lemma format_texts args : Forall A args -> all_of (tame w env) args -> all_of (fun x => forall v, py w env x = Some v -> plain_arg v) args ->
  forall i t v, format_loop (eval w vars) i t args = Ok v ->
  exists ps ys, all_some (map (py w env) args) = Some ps /\ strings ps = Some ys /\ (forall y, In y ys -> plain y) /\ length ys = length args /\
    v = VStr (show_braces (fill_all i ys t)).
Proof.
  intros F. induction F as [|x args Hx F IH]; intros Ht Hp i t v E.
  - injection E as <-. exists [], []. split; [reflexivity|]. split; [reflexivity|]. split; [intros y []|]. split; reflexivity.
  - cbn in Ht, Hp. destruct Ht as [Tx Ht]. destruct Hp as [Px Hp]. cbn [format_loop] in E. apply bind_ok in E. destruct E as (u & Eu & E).
    destruct (Hx Tx u Eu) as (p & Ep & Sp). destruct (format_arg u) as [y|] eqn:Ey; [|discriminate E].
    destruct (IH Ht Hp _ _ _ E) as (ps & ys & E1 & E2 & E3 & E4 & E5). exists (p :: ps), (y :: ys).
    assert (Q : py_str p = Some y /\ plain y).
    { specialize (Px p Ep). destruct u; try discriminate Ey; injection Ey as <-; inversion Sp; subst; cbn in Px; try contradiction.
      - split; [reflexivity|exact Px].
      - split; [reflexivity|]. intros c Hc. unfold show_Z in Hc. 
        assert (D : forall n, In c (show_N n) -> plain_char c).
        { intros n I. pose proof (proj1 (proj2 (show_N_spec n))) as G. rewrite forallb_forall in G. specialize (G c I).
          clear -G. unfold plain_char. destruct c as [[] [] [] [] [] [] [] []]; cbn in G; try discriminate G; repeat split; discriminate. }
        destruct (z <? 0)%Z; [|apply (D _ Hc)]. destruct Hc as [<-|Hc]; [repeat split; discriminate|apply (D _ Hc)]. }
    destruct Q as [Q1 Q2]. split; [cbn; rewrite Ep; cbn; rewrite E1; reflexivity|]. split; [cbn; rewrite Q1; cbn; rewrite E2; reflexivity|].
    split; [intros z [<-|I]; [exact Q2|apply E3, I]|]. split; [cbn; f_equal; exact E4|exact E5].
Qed.
Lemma aget_free x : free x env = true -> aget x env = None.
Proof. unfold free, ahas. destruct (aget x env); [discriminate|reflexivity]. Qed.

Lemma eval_agrees : forall e, A e.
Proof.
  apply pexpr_all.
  - (* constants *) intros k _ v E. destruct k as [s|z|b| |]; cbn in E; try discriminate E.
    + injection E as <-. eexists. split; [reflexivity|constructor].
    + destruct (in_i64 z); [|discriminate E]. injection E as <-. eexists. split; [reflexivity|constructor].
    + injection E as <-. eexists. split; [reflexivity|constructor].
    + injection E as <-. eexists. split; [reflexivity|constructor].
  - (* names *) intros x _ v E. cbn in E. specialize (VA x). destruct (aget x vars) as [u|]; [|discriminate E]. injection E as <-. exact VA.
  - (* binary *) intros op a b Ha Hb Ht v E. cbn in Ht. destruct Ht as (Ta & Tb & Hs). cbn [eval] in E. apply bind_ok in E. destruct E as (l & El & E).
    apply bind_ok in E. destruct E as (r & Er & E). destruct (Ha Ta l El) as (x & Ex & Sx). destruct (Hb Tb r Er) as (y & Ey & Sy).
    cbn [py]. rewrite Ex. cbn [obind]. rewrite Ey. cbn [obind]. apply (bin_same op l r); try assumption. apply Hs; assumption.
  - (* unary *) intros op a Ha Ht v E. cbn in Ht. destruct Ht as (Ta & Hs). cbn [eval] in E. apply bind_ok in E. destruct E as (l & El & E).
    destruct (Ha Ta l El) as (x & Ex & Sx). cbn [py]. rewrite Ex. cbn [obind]. apply (un_same op l); try assumption. intros z Eo ->. apply Hs; assumption.
  - (* comparisons *) intros a rest Ha F Ht v E. cbn in Ht. destruct Ht as (Ta & Hl & Tr). cbn [eval] in E. apply bind_ok in E. destruct E as (l & El & E).
    destruct (Ha Ta l El) as (x & Ex & Sx). cbn [py]. rewrite Ex. cbn [obind]. destruct rest as [|[op b] [|? rest]]; [| |cbn in Hl; lia].
    + injection E as <-. eexists. split; [reflexivity|constructor].
    + cbn [cmp_loop] in E. apply bind_ok in E. destruct E as (r & Er & E). inversion F as [|? ? Hb _]; subst. cbn in Hb, Tr. destruct (Hb (proj1 Tr) r Er) as (y & Ey & Sy).
      cbn [py_chain]. rewrite Ey. cbn [obind]. destruct (eval_cmp op l r) as [t|] eqn:Ec; [|discriminate E]. rewrite (cmp_same op l r t x y Ec Sx Sy). cbn [obind].
      destruct t; injection E as <-; (eexists; split; [reflexivity|constructor]).
  - (* and, or *) intros i es F Ht v E. cbn in Ht. destruct Ht as [Hn Ht]. cbn [eval] in E. cbn [py]. apply agree_bools; assumption.
  - (* lists *) intros es F Ht v E. cbn in Ht. cbn [eval] in E. apply bind_ok in E. destruct E as (l & El & E). injection E as <-.
    destruct (agree_list es F Ht l El) as (p & Ep & Sp). cbn [py]. rewrite Ep. cbn [obind]. eexists. split; [reflexivity|constructor; exact Sp].
  - (* tuples *) intros es F Ht v E. cbn in Ht. cbn [eval] in E. apply bind_ok in E. destruct E as (l & El & E). injection E as <-.
    destruct (agree_list es F Ht l El) as (p & Ep & Sp). cbn [py]. rewrite Ep. cbn [obind]. eexists. split; [reflexivity|apply same_tuple; exact Sp].
  - (* dictionaries *) intros kvs F Ht v E. cbn in Ht. cbn [eval] in E. cbn [py]. apply (agree_dict kvs F Ht [] [] v); [constructor|exact E].
  - (* calls *) intros f args kws Hf Ho F _ Ht v E. destruct f as [| | | | | | | | | |o a| | |]; try discriminate E.
    specialize (Ho o a eq_refl). cbn in Ht. destruct Ht as (-> & To & Ta & Hos & Hlow & Hget & Hfmt).
    assert (R : (if text_eqb a (T "lower") then bind (eval w vars o) (fun v => match v with VStr s => Ok (VStr (map to_lower s)) | _ => Err end)
        else if text_eqb a (T "format") then bind (eval w vars o) (fun v => match v with VStr s => format_loop (eval w vars) 0 (hide_braces s) args | _ => Err end)
        else Err) = Ok v -> is_os o env && text_eqb a (T "getenv") = false /\
        exists p, obind (py w env o) (fun v => obind (all_some (map (py w env) args)) (py_method v a)) = Some p /\ same v p).
    { clear E. intros E. destruct (text_eqb a (T "lower")) eqn:El.
      - apply text_eqb_eq in El. subst a. split; [apply andb_false_r|]. apply bind_ok in E. destruct E as (u & Eu & E). destruct u; try discriminate E. injection E as <-.
        destruct (Ho To _ Eu) as (p & Ep & Sp). inversion Sp; subst. rewrite Ep, (Hlow eq_refl). cbn. eexists. split; [reflexivity|constructor].
      - destruct (text_eqb a (T "format")) eqn:Ef; [|discriminate E]. apply text_eqb_eq in Ef. subst a. split; [apply andb_false_r|].
        apply bind_ok in E. destruct E as (u & Eu & E). destruct u; try discriminate E.
        destruct (Ho To _ Eu) as (p & Ep & Sp). inversion Sp; subst. destruct (Hfmt eq_refl) as [Htm Hpl]. specialize (Htm s Ep).
        destruct (format_texts args F Ta Hpl 0 _ _ E) as (ps & ys & E1 & E2 & E3 & E4 & ->). rewrite Ep. cbn [obind]. rewrite E1. cbn [obind].
        unfold py_method. rewrite El. cbn [andb]. rewrite text_eqb_refl, E2. cbn [obind]. rewrite <- E4 in Htm. rewrite (format_agree ys s Htm E3).
        eexists. split; [reflexivity|constructor]. }
    cbn [py]. change (eval w vars (ECall (EAttr o a) args [])) with
      (match o, args with
      | EName owner, n :: more =>
          if text_eqb owner (T "os") && text_eqb a (T "getenv") then
            bind (eval w vars n) (fun nv =>
              match nv with
              | VStr s => match w_env w s with Some v => Ok (VStr v) | None => match more with d :: _ => eval w vars d | [] => Ok VNone end end
              | _ => (if text_eqb a (T "lower") then bind (eval w vars o) (fun v => match v with VStr s => Ok (VStr (map to_lower s)) | _ => Err end)
        else if text_eqb a (T "format") then bind (eval w vars o) (fun v => match v with VStr s => format_loop (eval w vars) 0 (hide_braces s) args | _ => Err end)
        else Err)
              end)
          else (if text_eqb a (T "lower") then bind (eval w vars o) (fun v => match v with VStr s => Ok (VStr (map to_lower s)) | _ => Err end)
        else if text_eqb a (T "format") then bind (eval w vars o) (fun v => match v with VStr s => format_loop (eval w vars) 0 (hide_braces s) args | _ => Err end)
        else Err)
      | _, _ => (if text_eqb a (T "lower") then bind (eval w vars o) (fun v => match v with VStr s => Ok (VStr (map to_lower s)) | _ => Err end)
        else if text_eqb a (T "format") then bind (eval w vars o) (fun v => match v with VStr s => format_loop (eval w vars) 0 (hide_braces s) args | _ => Err end)
        else Err)
      end) in E. revert R E. set (R := (if text_eqb a (T "lower") then _ else _)). intros HR E.
    assert (Fin : R = Ok v -> exists p, (if is_os o env && text_eqb a (T "getenv") then obind (all_some (map (py w env) args)) (py_getenv w)
       else obind (py w env o) (fun v => obind (all_some (map (py w env) args)) (py_method v a))) = Some p /\ same v p).
    { intros H. destruct (HR H) as [-> H']. exact H'. }
    destruct o as [|owner| | | | | | | | | | | |]; try (apply Fin; exact E). destruct args as [|n more]; [apply Fin; exact E|].
    destruct (text_eqb owner (T "os") && text_eqb a (T "getenv")) eqn:Eg; [|apply Fin; exact E].
    apply andb_true_iff in Eg. destruct Eg as [Eo Eg]. apply text_eqb_eq in Eo, Eg. subst owner a.
    apply bind_ok in E. destruct E as (nv & En & E). inversion F as [|? ? Hn F']; subst. cbn in Ta. destruct Ta as [Tn Ta].
    destruct (Hn Tn nv En) as (pn & Epn & Spn).
    destruct nv; try (subst R; cbn in E; discriminate E). inversion Spn; subst.
    assert (Ei : is_os (EName (T "os")) env && text_eqb (T "getenv") (T "getenv") = true).
    { change (free (T "os") env = true) in Hos. unfold is_os. rewrite Hos. reflexivity. }
    rewrite Ei. cbn [map all_some]. rewrite Epn. cbn [obind].
    destruct (Hget eq_refl) as [Hl Hd]. destruct more as [|d [|? ?]]; [| |cbn in Hl; lia].
    + cbn [map all_some obind py_getenv]. destruct (w_env w s) as [x|]; injection E as <-; (eexists; split; [reflexivity|constructor]).
    + cbn [map all_some]. destruct (py w env d) as [pd|] eqn:Epd; [|exfalso; exact (Hd n d eq_refl Epd)]. cbn [obind py_getenv].
      destruct (w_env w s) as [x|]; [injection E as <-; eexists; split; [reflexivity|constructor]|].
      inversion F' as [|? ? Hdd _]; subst. destruct (Hdd (proj1 Ta) v E) as (q & Eq & Sq). rewrite Epd in Eq. injection Eq as <-. exists pd. split; [reflexivity|exact Sq].
  - (* attributes *) intros o a _ Ht v E. cbn [eval] in E. destruct o as [|m| | | | | | | | |o b| | |]; try discriminate E.
    + cbn in Ht. destruct Ht as [Hthis Hfr]. unfold eval_attr in E. cbn [py]. destruct (text_eqb_spec m (T "system")) as [->|N1].
      * destruct (text_eqb a (T "platform")) eqn:Ea.
        -- cbn [andb] in E. injection E as <-. rewrite Hfr. cbn. eexists. split; [reflexivity|constructor].
        -- cbn in E. discriminate E.
      * cbn [andb] in E. destruct (text_eqb_spec m (T "os")) as [->|N2].
        -- destruct (text_eqb a (T "name")) eqn:Ea; [|cbn in E; discriminate E]. cbn [andb] in E. injection E as <-. rewrite Hfr. cbn. eexists. split; [reflexivity|constructor].
        -- cbn [andb] in E. destruct (text_eqb_spec m (T "this")) as [->|N3]; [exfalso; apply Hthis; reflexivity|]. discriminate E.
    + cbn in Ht. destruct o as [|m| | | | | | | | | | | |]; try discriminate E. unfold eval_attr in E. destruct (text_eqb_spec m (T "this")) as [->|N]; [exfalso; apply Ht; reflexivity|discriminate E].
  - (* subscripts *) intros o i _ _ _ v E. discriminate E.
  - (* conditionals *) intros t b o Ht Hb Ho T v E. cbn in T. destruct T as (Tt & Tb & To). cbn [eval] in E. apply bind_ok in E. destruct E as (u & Eu & E).
    destruct (Ht Tt u Eu) as (p & Ep & Sp). cbn [py]. rewrite Ep. cbn [obind]. destruct u as [| |[]| | |]; try discriminate E; inversion Sp; subst; cbn [truthy]; [apply Hb|apply Ho]; assumption.
  - intros _ v E. discriminate E.
Qed.
End Agree.
