(** Python texts that are written are read back. *)
From Verif Require Import Base Base_lemmas Maps Json Version_model Rex_model Requirement_model Pyfile_model Pkgfile_model Pkgfile_spec Pyfile_files.
Open Scope string_scope. Open Scope list_scope.

(** ** Steps of the reader *)
Definition R (m : mode) (d : nat) (k : expect) (s : text) : option (list stmt) := match tokens m d s with Some l => statements k l | None => None end.
Lemma reads_R s : python_reads s = R MStart 0 XStmt s.
Proof. reflexivity. Qed.
Lemma tok_plain s : plain s -> forall t d r, tokens (MText false t) d (s ++ DQ :: r) = oc (KText (t ++ s)) (tokens MBetween d r).
Proof.
  intros H. induction s as [|c s IH]; intros t d r.
  - rewrite app_nil_r. reflexivity.
  - assert (Hc : ~ In c [DQ; BS; NL; CR; "000"%char]) by (apply H; left; reflexivity).
    assert (N1 : forall x, In x [DQ; BS; NL; CR; "000"%char] -> Ascii.eqb c x = false).
    { intros x Hx. destruct (Ascii.eqb_spec c x) as [->|]; [contradiction|reflexivity]. }
    cbn [app tokens]. unfold bad_char. rewrite !N1 by (cbn; tauto). cbn [orb andb].
    rewrite IH by (intros x Hx; apply H; right; exact Hx). rewrite <- app_assoc. reflexivity.
Qed.
Lemma tok_quotable s : quotable s -> forall t d r, tokens (MText false t) d (escape_dq s ++ DQ :: r) = oc (KText (t ++ s)) (tokens MBetween d r).
Proof.
  intros H. unfold escape_dq, replace_char. induction s as [|c s IH]; intros t d r.
  - rewrite app_nil_r. reflexivity.
  - assert (Hc : ~ In c [BS; NL; CR; "000"%char]) by (apply H; left; reflexivity).
    assert (N1 : forall x, In x [BS; NL; CR; "000"%char] -> Ascii.eqb c x = false).
    { intros x Hx. destruct (Ascii.eqb_spec c x) as [->|]; [contradiction|reflexivity]. }
    assert (IH' : forall t, tokens (MText false t) d (flat_map (fun c0 => if Ascii.eqb c0 DQ then [BS; DQ] else [c0]) s ++ DQ :: r) = oc (KText (t ++ s)) (tokens MBetween d r)).
    { intros u. apply IH. intros x Hx. apply H. right. exact Hx. }
    cbn [flat_map]. destruct (Ascii.eqb_spec c DQ) as [->|Nd].
    + cbn [app].
      change (tokens (MText false t) d (BS :: DQ :: flat_map (fun c0 => if Ascii.eqb c0 DQ then [BS; DQ] else [c0]) s ++ DQ :: r))
        with (tokens (MText false (t ++ [DQ])) d (flat_map (fun c0 => if Ascii.eqb c0 DQ then [BS; DQ] else [c0]) s ++ DQ :: r)).
      rewrite IH', <- app_assoc. reflexivity.
    + cbn [app tokens]. unfold bad_char. rewrite (N1 "000"%char), (N1 CR), (N1 BS), (N1 NL) by (cbn; tauto).
      destruct (Ascii.eqb_spec c DQ) as [E|_]; [contradiction|]. cbn [orb andb]. rewrite IH', <- app_assoc. reflexivity.
Qed.
(** the text does not start with a quote *)
Definition unquoted (r : text) : Prop := match r with [] => True | c :: _ => Ascii.eqb c DQ = false end.
Definition between_mode (m : mode) : Prop := m = MStart \/ m = MBetween.
Lemma tok_dq (m : mode) d (s r : text) : between_mode m -> (match s with [] => unquoted r | c :: _ => Ascii.eqb c DQ = false end) ->
  tokens m d (DQ :: s ++ DQ :: r) = tokens (MText false []) d (s ++ DQ :: r).
Proof.
  intros [-> | ->] H; (destruct s as [|c s]; cbn [app];
    [destruct r as [|c r]; [reflexivity|]; cbn in H; cbn -[DQ tokens]; cbn [tokens]; rewrite H; reflexivity|
     cbn [tokens]; destruct (s ++ DQ :: r) as [|c2 r2]; cbn [bad_char]; [reflexivity|rewrite H; reflexivity]]).
Qed.
Lemma R_quoted m d k x fs s r : between_mode m -> k = XValue x fs -> plain s -> unquoted r ->
  R m d k (quoted s ++ r) = R MBetween d (XAfter x fs (EConst (KStr s))) r.
Proof.
  intros Hm -> H U. unfold R, quoted. cbn [app]. rewrite <- app_assoc. cbn [app].
  rewrite tok_dq; [|exact Hm|].
  - rewrite tok_plain by exact H. cbn [app]. destruct (tokens MBetween d r); reflexivity.
  - destruct s as [|c s]; [exact U|]. destruct (Ascii.eqb_spec c DQ) as [->|]; [|reflexivity]. exfalso. apply (H DQ); cbn; auto.
Qed.
Lemma R_escaped m d k x fs s r : between_mode m -> k = XValue x fs -> quotable s -> unquoted r ->
  R m d k (quoted (escape_dq s) ++ r) = R MBetween d (XAfter x fs (EConst (KStr s))) r.
Proof.
  intros Hm -> H U. unfold R, quoted. cbn [app]. rewrite <- app_assoc. cbn [app].
  rewrite tok_dq; [|exact Hm|].
  - rewrite tok_quotable by exact H. cbn [app]. destruct (tokens MBetween d r); reflexivity.
  - destruct s as [|c s]; [exact U|]. cbn -[DQ BS Ascii.eqb]. destruct (Ascii.eqb c DQ) eqn:E; [reflexivity|exact E].
Qed.
(** single characters, in the middle of a line *)
Lemma R_space d k r : R MBetween d k (" "%char :: r) = R MBetween d k r.
Proof. reflexivity. Qed.
Lemma R_inner_line d k r : R MBetween (S d) k (NL :: r) = R MBetween (S d) k r.
Proof. reflexivity. Qed.
Lemma R_open d x fs r : R MBetween d (XValue x fs) ("["%char :: r) = R MBetween (S d) (XValue x (FList [] :: fs)) r.
Proof. unfold R. cbn [tokens]. cbn -[tokens]. destruct (tokens MBetween (S d) r); reflexivity. Qed.
Lemma R_close_value d x es fs r : R MBetween (S d) (XValue x (FList es :: fs)) ("]"%char :: r) = R MBetween d (XAfter x fs (EList es)) r.
Proof. unfold R. cbn [tokens]. cbn -[tokens]. destruct (tokens MBetween d r); reflexivity. Qed.
Lemma R_close_after d x es e fs r : R MBetween (S d) (XAfter x (FList es :: fs) e) ("]"%char :: r) = R MBetween d (XAfter x fs (EList (es ++ [e]))) r.
Proof. unfold R. cbn [tokens]. cbn -[tokens]. destruct (tokens MBetween d r); reflexivity. Qed.
Lemma R_comma d x es e fs r : R MBetween d (XAfter x (FList es :: fs) e) (","%char :: r) = R MBetween d (XValue x (FList (es ++ [e]) :: fs)) r.
Proof. unfold R. cbn [tokens]. cbn -[tokens]. destruct (tokens MBetween d r); reflexivity. Qed.
Lemma R_blank r : R MStart 0 XStmt (NL :: r) = R MStart 0 XStmt r.
Proof. unfold R. cbn [tokens]. cbn -[tokens]. destruct (tokens MStart 0 r); reflexivity. Qed.
(** the end of a statement: the end of the line or of the text *)
Definition ends (r r' : text) : Prop := (r = [] /\ r' = []) \/ r = NL :: r'.
Lemma R_end x e r r' : ends r r' -> R MBetween 0 (XAfter x [] e) r = oc (SAssign [EName x] e) (R MStart 0 XStmt r').
Proof.
  intros [[-> ->] | ->]; [reflexivity|]. unfold R. cbn [tokens]. cbn -[tokens]. destruct (tokens MStart 0 r'); reflexivity.
Qed.
Lemma ends_unquoted r r' : ends r r' -> unquoted r.
Proof. intros [[-> _] | ->]; [exact I|reflexivity]. Qed.
(** names *)
Definition word (x : text) : Prop := match x with [] => False | c :: y => name_start c = true /\ forallb name_more y = true end /\ mem_text x keywords = false.
Lemma name_not_bad c : name_more c = true -> bad_char c = false.
Proof.
  intros H. unfold bad_char. destruct (Ascii.eqb_spec c "000"%char) as [->|]; [discriminate H|]. destruct (Ascii.eqb_spec c CR) as [->|]; [discriminate H|reflexivity].
Qed.
Lemma start_more c : name_start c = true -> name_more c = true.
Proof. unfold name_start, name_more, is_alnum. intros H. apply orb_true_iff in H. destruct H as [H|H]; rewrite H; [reflexivity|apply orb_true_r]. Qed.
Lemma tok_name y : forallb name_more y = true -> y <> [] -> forall x d r, tokens (MName x) d (y ++ " "%char :: r) = oc (KName (x ++ y)) (tokens MBetween d (" "%char :: r)).
Proof.
  induction y as [|c y IH]; intros H N x d r; [contradiction|]. cbn [forallb] in H. apply andb_true_iff in H. destruct H as [Hc H].
  destruct y as [|c' y].
  - cbn [app]. change (tokens (MName x) d (c :: " "%char :: r)) with
      (if bad_char c then None else if name_more " "%char then tokens (MName (x ++ [c])) d (" "%char :: r) else oc (KName (x ++ [c])) (tokens MBetween d (" "%char :: r))).
    rewrite (name_not_bad c Hc). reflexivity.
  - assert (Hc' : name_more c' = true) by (cbn [forallb] in H; apply andb_true_iff in H; tauto).
    cbn [app]. change (tokens (MName x) d (c :: c' :: y ++ " "%char :: r)) with
      (if bad_char c then None else if name_more c' then tokens (MName (x ++ [c])) d ((c' :: y) ++ " "%char :: r) else oc (KName (x ++ [c])) (tokens MBetween d ((c' :: y) ++ " "%char :: r))).
    rewrite (name_not_bad c Hc), Hc', IH by (exact H || discriminate). rewrite <- app_assoc. reflexivity.
Qed.
Lemma start_plain c : name_start c = true -> forall x, In x [NL; "#"; " "; "009"; DQ; "["; "]"; "{"; "}"; ":"; ","; "="; "000"; CR]%char -> Ascii.eqb c x = false.
Proof.
  intros H x Hx. destruct (Ascii.eqb_spec c x) as [->|]; [|reflexivity].
  repeat (destruct Hx as [<- |Hx]; [discriminate H|]). destruct Hx.
Qed.
Lemma tok_word x d r : word x -> tokens MStart d (x ++ " "%char :: r) = oc (KName x) (tokens MBetween d (" "%char :: r)).
Proof.
  intros [W _]. destruct x as [|c y]; [contradiction|]. destruct W as [Hc Hy].
  assert (S1 := start_plain c Hc). cbn [app tokens]. rewrite (name_not_bad c (start_more c Hc)).
  rewrite (S1 NL), (S1 "#"%char), (S1 " "%char), (S1 "009"%char), (S1 DQ), (S1 "["%char), (S1 "]"%char), (S1 "{"%char), (S1 "}"%char), (S1 ":"%char), (S1 ","%char), (S1 "="%char), Hc
    by (cbn; tauto). cbn [orb].
  destruct y as [|c' y]; [reflexivity|]. assert (Hc' : name_more c' = true) by (cbn [forallb] in Hy; apply andb_true_iff in Hy; tauto).
  cbn [app]. rewrite Hc'. change (c' :: y ++ " "%char :: r) with ((c' :: y) ++ " "%char :: r). rewrite tok_name by (exact Hy || discriminate). reflexivity.
Qed.
Lemma R_assign x r : word x -> R MStart 0 XStmt (x ++ T " = " ++ r) = R MBetween 0 (XValue x []) r.
Proof.
  intros W. unfold R. change (T " = " ++ r) with (" "%char :: "="%char :: " "%char :: r). rewrite (tok_word x 0 _ W).
  change (tokens MBetween 0 (" "%char :: "="%char :: " "%char :: r)) with (oc KEq (tokens MBetween 0 r)).
  destruct (tokens MBetween 0 r); [|reflexivity]. cbn [oc statements]. destruct W as [_ W]. rewrite W. reflexivity.
Qed.
Lemma R_indent d k r : R MBetween d k (T "    " ++ r) = R MBetween d k r.
Proof. reflexivity. Qed.
Lemma R_indent8 d k r : R MBetween d k (T "        " ++ r) = R MBetween d k r.
Proof. reflexivity. Qed.

(** ** Blocks *)
Definition block_reads (b : text) (sts : list stmt) : Prop :=
  forall r r', ends r r' -> R MStart 0 XStmt (b ++ r) = match R MStart 0 XStmt r' with Some l => Some (sts ++ l) | None => None end.
Definition str_list (l : list text) : pexpr := EList (map (fun s => EConst (KStr s)) l).
Definition var_list (l : list (list text)) : pexpr := EList (map str_list l).
Definition assigns (x : text) (e : pexpr) : list stmt := [SAssign [EName x] e].
Lemma oc_app {A} (a : A) o : oc a o = match o with Some l => Some ([a] ++ l) | None => None end.
Proof. reflexivity. Qed.
Lemma block_quoted x s : word x -> plain s -> block_reads (x ++ T " = " ++ quoted s) (assigns x (EConst (KStr s))).
Proof.
  intros W P r r' E. rewrite <- !app_assoc. rewrite R_assign by exact W.
  rewrite (R_quoted MBetween 0 _ x [] s r (or_intror eq_refl) eq_refl P (ends_unquoted _ _ E)), (R_end x _ r r' E). apply oc_app.
Qed.
Lemma block_escaped x s : word x -> quotable s -> block_reads (x ++ T " = " ++ quoted (escape_dq s)) (assigns x (EConst (KStr s))).
Proof.
  intros W P r r' E. rewrite <- !app_assoc. rewrite R_assign by exact W.
  rewrite (R_escaped MBetween 0 _ x [] s r (or_intror eq_refl) eq_refl P (ends_unquoted _ _ E)), (R_end x _ r r' E). apply oc_app.
Qed.
(** one item of a list, followed by a comma *)
Lemma R_item d x es fs s r : plain s ->
  R MBetween (S d) (XValue x (FList es :: fs)) (quoted s ++ ","%char :: r) = R MBetween (S d) (XValue x (FList (es ++ [EConst (KStr s)]) :: fs)) r.
Proof. intros P. rewrite (R_quoted MBetween (S d) _ x (FList es :: fs) s _ (or_intror eq_refl) eq_refl P) by reflexivity. apply R_comma. Qed.
(** items in lines of their own, each followed by a comma *)
Lemma R_items d pad x l : (forall k r, R MBetween (S d) k (pad ++ r) = R MBetween (S d) k r) -> plain_all l -> forall es fs r,
  R MBetween (S d) (XValue x (FList es :: fs)) (concat (map (fun a => ln (pad ++ quoted a ++ T ",")) l) ++ r) =
  R MBetween (S d) (XValue x (FList (es ++ map (fun s => EConst (KStr s)) l) :: fs)) r.
Proof.
  intros Hp H. induction l as [|s l IH]; intros es fs r; cbn [map concat].
  - rewrite app_nil_r. reflexivity.
  - unfold ln at 1. rewrite <- !app_assoc. rewrite Hp. change (T "," ++ [NL] ++ ?r) with (","%char :: NL :: r). rewrite R_item by (apply H; left; reflexivity).
    rewrite R_inner_line, IH by (intros a Ha; apply H; right; exact Ha). rewrite <- app_assoc. reflexivity.
Qed.
(** items in one line, between commas *)
Lemma R_joined {A} (w : A -> text) (e : A -> pexpr) (P : A -> Prop) sep x d fs :
  (forall k r, R MBetween (S d) k (sep ++ r) = R MBetween (S d) k r) ->
  (forall a es r, P a -> unquoted r -> R MBetween (S d) (XValue x (FList es :: fs)) (w a ++ r) = R MBetween (S d) (XAfter x (FList es :: fs) (e a)) r) ->
  forall l, (forall a, In a l -> P a) -> forall es tail r, (forall k, R MBetween (S d) k (tail ++ "]"%char :: r) = R MBetween (S d) k ("]"%char :: r)) -> unquoted (tail ++ "]"%char :: r) ->
  R MBetween (S d) (XValue x (FList es :: fs)) (join (","%char :: sep) (map w l) ++ tail ++ "]"%char :: r) = R MBetween d (XAfter x fs (EList (es ++ map e l))) r.
Proof.
  intros Hs Hw. induction l as [|a l IH]; intros HP es tail r Ht Hu.
  - cbn [map join app]. rewrite Ht, R_close_value, app_nil_r. reflexivity.
  - destruct l as [|b l].
    + cbn [map join]. rewrite Hw, Ht by (exact Hu || (apply HP; left; reflexivity)). apply R_close_after.
    + cbn [map]. cbn [map] in IH.
      change (join (","%char :: sep) (w a :: w b :: map w l)) with (w a ++ (","%char :: sep) ++ join (","%char :: sep) (w b :: map w l)). rewrite <- app_assoc. rewrite Hw by (reflexivity || (apply HP; left; reflexivity)).
      cbn [app]. rewrite R_comma, <- app_assoc, Hs. rewrite (IH (fun c Hc => HP c (or_intror Hc)) (es ++ [e a]) tail r Ht Hu), <- app_assoc. reflexivity.
Qed.
Lemma R_row d x fs l es tail r : plain_all l -> (forall k, R MBetween (S d) k (tail ++ "]"%char :: r) = R MBetween (S d) k ("]"%char :: r)) -> unquoted (tail ++ "]"%char :: r) ->
  R MBetween (S d) (XValue x (FList es :: fs)) (join (T ", ") (map quoted l) ++ tail ++ "]"%char :: r) = R MBetween d (XAfter x fs (EList (es ++ map (fun s => EConst (KStr s)) l))) r.
Proof.
  intros P Ht Hu. change (T ", ") with (","%char :: T " ").
  apply (R_joined quoted (fun s => EConst (KStr s)) plain (T " ") x d fs); [reflexivity| |exact P|exact Ht|exact Hu].
  intros a es' r' Pa U. apply R_quoted; auto. right. reflexivity.
Qed.
(** a bracketed row of texts *)
Lemma R_bracket d x fs l r : plain_all l -> R MBetween d (XValue x fs) (T "[" ++ join (T ", ") (map quoted l) ++ T "]" ++ r) = R MBetween d (XAfter x fs (str_list l)) r.
Proof.
  intros P. change (T "[" ++ ?s) with ("["%char :: s). rewrite R_open. apply (R_row d x fs l [] [] r P); reflexivity.
Qed.
(** ** Texts that end in a line feed *)
Definition lines_read (t : text) (sts : list stmt) : Prop :=
  forall r, R MStart 0 XStmt (t ++ r) = match R MStart 0 XStmt r with Some l => Some (sts ++ l) | None => None end.
Lemma block_lines b sts : block_reads b sts -> lines_read (ln b) sts.
Proof. intros H r. unfold ln. rewrite <- app_assoc. apply H. right. reflexivity. Qed.
Lemma lines_nil : lines_read [] [].
Proof. intros r. cbn [app]. destruct (R MStart 0 XStmt r); reflexivity. Qed.
Lemma lines_app a b s t : lines_read a s -> lines_read b t -> lines_read (a ++ b) (s ++ t).
Proof. intros A B r. rewrite <- app_assoc, A, B. destruct (R MStart 0 XStmt r); [rewrite app_assoc|]; reflexivity. Qed.
Lemma lines_end a s : lines_read a s -> python_reads a = Some s.
Proof. intros A. specialize (A []). rewrite app_nil_r in A. rewrite reads_R, A. cbn. rewrite app_nil_r. reflexivity. Qed.
Lemma tok_comment s : plain s -> forall r, tokens MComment 0 (s ++ NL :: r) = oc KLine (tokens MStart 0 r).
Proof.
  intros H r. induction s as [|c s IH]; [reflexivity|].
  assert (N1 : forall x, In x [DQ; BS; NL; CR; "000"%char] -> Ascii.eqb c x = false).
  { intros x Hx. destruct (Ascii.eqb_spec c x) as [->|]; [|reflexivity]. exfalso. exact (H x (or_introl eq_refl) Hx). }
  cbn [app tokens]. unfold bad_char. rewrite (N1 "000"%char), (N1 CR), (N1 NL) by (cbn; tauto). cbn [orb]. apply IH. intros x Hx. apply H. right. exact Hx.
Qed.
Lemma lines_comment s : plain s -> lines_read (ln ("#"%char :: s)) [].
Proof.
  intros H r. unfold ln. rewrite <- app_assoc. cbn [app]. unfold R at 1.
  change (tokens MStart 0 ("#"%char :: s ++ NL :: r)) with (tokens MComment 0 (s ++ NL :: r)). rewrite tok_comment by exact H. unfold R.
  destruct (tokens MStart 0 r) as [l|]; [|reflexivity]. cbn [oc statements]. destruct (statements XStmt l); reflexivity.
Qed.
Lemma lines_blank : lines_read [NL] [].
Proof. intros r. cbn [app]. rewrite R_blank. destruct (R MStart 0 XStmt r); reflexivity. Qed.
Definition opt_assign (x : text) (o : option pexpr) : list stmt := match o with Some e => assigns x e | None => [] end.
Definition some_list (l : list text) : option pexpr := if is_nil l then None else Some (str_list l).
Definition some_variants (l : list (list text)) : option pexpr := if is_nil l then None else Some (var_list l).
Definition some_text (o : option text) : option pexpr := match o with Some s => Some (EConst (KStr s)) | None => None end.
Lemma lines_list x l : word x -> plain_all l -> lines_read (list_block x l) (opt_assign x (some_list l)).
Proof.
  intros W P. unfold list_block, some_list. destruct (is_nil l); [apply lines_nil|]. intros r. unfold ln at 1. rewrite <- !app_assoc.
  change (T " = [" ++ ?s) with (T " = " ++ ("["%char :: s)). rewrite R_assign by exact W. rewrite R_open. cbn [app]. rewrite R_inner_line.
  rewrite (R_items 0 (T "    ") x l) by (exact P || reflexivity). change (ln (T "]") ++ r) with ("]"%char :: NL :: r).
  rewrite R_close_value, (R_end x _ (NL :: r) r) by (right; reflexivity). reflexivity.
Qed.
Lemma lines_variants l : (forall v, In v l -> plain_all v) -> lines_read (variants_block l) (opt_assign (T "variants") (some_variants l)).
Proof.
  intros P. unfold variants_block, some_variants. destruct (is_nil l); [apply lines_nil|]. intros r. unfold ln at 1. rewrite <- !app_assoc.
  change (T "variants = [" ++ ?s) with (T "variants" ++ T " = " ++ ("["%char :: s)). rewrite R_assign by (split; [split|]; reflexivity). rewrite R_open. cbn [app]. rewrite R_inner_line.
  assert (E : forall l es, (forall v, In v l -> plain_all v) -> R MBetween 1 (XValue (T "variants") [FList es])
      (concat (map (fun v => ln (T "    [" ++ join (T ", ") (map quoted v) ++ T "],")) l) ++ ln (T "]") ++ r) =
      R MBetween 1 (XValue (T "variants") [FList (es ++ map str_list l)]) (ln (T "]") ++ r)).
  { clear P l. intros l. induction l as [|v l IH]; intros es P; cbn [map concat]; [rewrite app_nil_r; reflexivity|].
    unfold ln at 1. rewrite <- !app_assoc. change (T "    [" ++ ?s) with (T "    " ++ T "[" ++ s). change (T "]," ++ ?s) with (T "]" ++ ","%char :: s).
    rewrite R_indent, R_bracket by (apply P; left; reflexivity). rewrite R_comma. cbn [app]. rewrite R_inner_line, IH by (intros u Hu; apply P; right; exact Hu). rewrite <- app_assoc. reflexivity. }
  rewrite (E l [] P). change (ln (T "]") ++ r) with ("]"%char :: NL :: r).
  rewrite R_close_value, (R_end _ _ (NL :: r) r) by (right; reflexivity). reflexivity.
Qed.

(** ** The text of the serializer *)
Definition assigned (l : list (text * option pexpr)) : list stmt := concat (map (fun b => opt_assign (fst b) (snd b)) l).
Definition saved_fields (p : pkg) : list (text * option pexpr) :=
  [(T "name", some_text (Some (k_name p))); (T "version", some_text (opt_version p)); (T "description", some_text (k_description p));
   (T "authors", some_list (k_authors p)); (T "requires", some_list (k_requires p)); (T "build_requires", some_list (k_build_requires p));
   (T "variants", some_variants (k_variants p)); (T "tools", some_list (k_tools p))].
Lemma plain_app a b : plain a -> plain b -> plain (a ++ b).
Proof. intros A B c Hc. apply in_app_or in Hc. destruct Hc; auto. Qed.
Lemma plainb s : forallb (fun c => negb (existsb (Ascii.eqb c) [DQ; BS; NL; CR; "000"%char])) s = true -> plain s.
Proof.
  intros H c Hc I. rewrite forallb_forall in H. specialize (H c Hc). apply negb_true_iff in H.
  assert (E : existsb (Ascii.eqb c) [DQ; BS; NL; CR; "000"%char] = true) by (apply existsb_exists; exists c; split; [exact I|apply Ascii.eqb_refl]). congruence.
Qed.
Lemma word_of x : match x with [] => false | c :: y => name_start c && forallb name_more y end && negb (mem_text x keywords) = true -> word x.
Proof.
  intros H. apply andb_true_iff in H. destruct H as [H K]. apply negb_true_iff in K. split; [|exact K].
  destruct x; [discriminate|]. apply andb_true_iff in H. exact H.
Qed.
Lemma lines_opt x o : word x -> plain_opt o -> lines_read (match o with Some s => ln (x ++ T " = " ++ quoted s) | None => [] end) (opt_assign x (some_text o)).
Proof. intros W P. destruct o as [s|]; [|apply lines_nil]. apply block_lines, block_quoted; [exact W|exact P]. Qed.
Lemma save_python_reads now o p : plain now -> plain_eight p -> python_reads (save_python now o p) = Some (assigned (saved_fields p)).
Proof.
  intros Hn (P1 & P2 & P3 & P4 & P5 & P6 & P7 & P8). apply lines_end. unfold save_python, assigned, saved_fields. cbn [map concat fst snd].
  assert (H0 : lines_read (if o_metadata o && o_times o then ln (T "# Generated by rez-next serializer at " ++ now) ++ ln (T "# Do not edit manually") ++ [NL] else []) []).
  { destruct (o_metadata o && o_times o); [|apply lines_nil]. apply (lines_app _ _ [] []).
    - apply (lines_comment (T " Generated by rez-next serializer at " ++ now)). apply plain_app; [apply plainb; reflexivity|exact Hn].
    - apply (lines_app _ _ [] []); [|apply lines_blank]. apply (lines_comment (T " Do not edit manually")). apply plainb. reflexivity. }
  rewrite (app_nil_r (opt_assign (T "tools") _)).
  apply (lines_app _ _ [] _ H0). apply (lines_app _ _ (opt_assign (T "name") (some_text (Some (k_name p)))) _); [apply (lines_opt (T "name") (Some (k_name p))); [apply word_of; reflexivity|exact P1]|].
  apply lines_app. { pose proof (lines_opt (T "version") (opt_version p)) as H. unfold opt_version in *. destruct (k_version p); (apply H; [apply word_of; reflexivity|exact P2]). }
  apply lines_app. { apply (lines_opt (T "description") (k_description p)); [apply word_of; reflexivity|exact P3]. }
  repeat (apply lines_app; [solve [apply lines_list; [apply word_of; reflexivity|assumption] | apply lines_variants; assumption]|]).
  apply lines_list; [apply word_of; reflexivity|assumption].
Qed.

(** ** Loading assignments of values *)
Inductive lit := LText (s : text) | LTexts (l : list text) | LVariants (l : list (list text)) | LBool (b : bool).
Definition lit_expr (l : lit) : pexpr :=
  match l with LText s => EConst (KStr s) | LTexts l => str_list l | LVariants l => var_list l | LBool b => EConst (KBool b) end.
Definition lit_field (l : lit) : field :=
  match l with LText s => FText (Some s) | LTexts l => FTexts l | LVariants l => FVariants l | LBool b => FBool (Some b) end.
Definition lit_fits (x : text) (l : lit) : Prop :=
  match l with
  | LText _ => mem_text x text_fields = true
  | LTexts _ => mem_text x list_fields = true
  | LVariants _ => x = T "variants"
  | LBool _ => mem_text x bool_fields = true
  end.
Lemma eval_strs w vars l : eval_list (eval w vars) (map (fun s => EConst (KStr s)) l) = Ok (map VStr l).
Proof. induction l as [|s l IH]; cbn [map eval_list]; [reflexivity|]. cbn [eval eval_const bind]. rewrite IH. reflexivity. Qed.
Lemma eval_str_list w vars l : eval w vars (str_list l) = Ok (VList (map VStr l)).
Proof. unfold str_list. change (eval w vars (EList ?es)) with (bind (eval_list (eval w vars) es) (fun l => Ok (VList l))). rewrite eval_strs. reflexivity. Qed.
Lemma eval_vars w vars l : eval_list (eval w vars) (map str_list l) = Ok (map (fun v => VList (map VStr v)) l).
Proof. induction l as [|s l IH]; cbn [map eval_list]; [reflexivity|]. rewrite eval_str_list. cbn [bind]. rewrite IH. reflexivity. Qed.
Lemma xlist_str_list w vars l : xlist w vars (str_list l) = Ok l.
Proof. unfold xlist. rewrite eval_str_list. apply each_texts. Qed.
Lemma xvariants_var_list w vars l : xvariants w vars (var_list l) = Ok l.
Proof. unfold xvariants, var_list. induction l as [|v l IH]; cbn [map each]; [reflexivity|]. rewrite xlist_str_list. cbn [bind]. rewrite IH. reflexivity. Qed.
Lemma assign_lit w st x l : lit_fits x l -> exists vars, process w st (SAssign [EName x] (lit_expr l)) = Ok (mkState vars (aput x (lit_field l) (s_data st))).
Proof.
  intros H. cbn [process]. unfold assign.
  assert (E : exists v, eval w (s_vars st) (lit_expr l) = Ok v).
  { destruct l as [s|l|l|b]; cbn [lit_expr].
    - eexists. reflexivity.
    - eexists. apply eval_str_list.
    - eexists. unfold var_list. change (eval w (s_vars st) (EList ?es)) with (bind (eval_list (eval w (s_vars st)) es) (fun l => Ok (VList l))). rewrite eval_vars. reflexivity.
    - eexists. reflexivity. }
  destruct E as [v E]. rewrite E. cbn [bind]. exists (aput x v (s_vars st)). unfold field_of.
  destruct l as [s|l|l|b]; cbn [lit_fits lit_expr lit_field] in *.
  - rewrite (kind_text x H). reflexivity.
  - rewrite (kind_list x H), xlist_str_list. reflexivity.
  - subst x. rewrite (xvariants_var_list w (aput (T "variants") v (s_vars st)) l). reflexivity.
  - rewrite (kind_bool x H). reflexivity.
Qed.
Definition lits_of (l : list (text * option lit)) : list (text * lit) := flat_map (fun b => match snd b with Some a => [(fst b, a)] | None => [] end) l.
Lemma process_lits w l : (forall x a, In (x, a) l -> lit_fits x a) -> forall st, exists vars,
  process_loop (process w) st (map (fun b => SAssign [EName (fst b)] (lit_expr (snd b))) l) = Ok (mkState vars (fold_left (fun d b => aput (fst b) (lit_field (snd b)) d) l (s_data st))).
Proof.
  induction l as [|[x a] l IH]; intros H st.
  - destruct st as [vs d]. exists vs. reflexivity.
  - cbn [map fst snd process_loop]. destruct (assign_lit w st x a) as [vars E]; [apply H; left; reflexivity|]. rewrite E. cbn [bind].
    destruct (IH (fun y b Hb => H y b (or_intror Hb)) (mkState vars (aput x (lit_field a) (s_data st)))) as [vars' E']. exists vars'. exact E'.
Qed.
Lemma fold_put_other {A} x (l : list (text * A)) : ~ In x (map fst l) -> forall d, aget x (fold_left (fun d b => aput (fst b) (snd b) d) l d) = aget x d.
Proof.
  induction l as [|[y a] l IH]; intros N d; [reflexivity|]. cbn [fold_left fst snd]. rewrite IH by (intros I; apply N; right; exact I).
  apply aget_put_other. intros ->. apply N. left. reflexivity.
Qed.
Lemma lits_keys l x : In x (map fst (lits_of l)) -> In x (map fst l).
Proof.
  induction l as [|[y [a|]] l IH]; cbn; [tauto| |]; intros H; [destruct H as [H|H]; [left; exact H|right; exact (IH H)]|right; exact (IH H)].
Qed.
Lemma lits_get l x : NoDup (map fst l) -> aget x (fold_left (fun d b => aput (fst b) (lit_field (snd b)) d) (lits_of l) []) =
  match aget x l with Some (Some a) => Some (lit_field a) | _ => None end.
Proof.
  intros N.
  assert (G : forall l d, NoDup (map fst l) -> aget x (fold_left (fun d b => aput (fst b) (lit_field (snd b)) d) (lits_of l) d) =
    match aget x l with Some (Some a) => Some (lit_field a) | _ => aget x d end).
  { clear l N. intros l. induction l as [|[y o] l IH]; intros d N; [reflexivity|]. cbn [map fst] in N. inversion N as [|? ? N1 N2]; subst.
    assert (O : forall d, ~ In x (map fst l) -> aget x (fold_left (fun d b => aput (fst b) (lit_field (snd b)) d) (lits_of l) d) = aget x d).
    { intros d' H. rewrite IH by exact N2. destruct (aget x l) as [[a|]|] eqn:E; try reflexivity. exfalso. apply H. apply aget_in in E. apply (in_map fst) in E. exact E. }
    cbn [aget]. destruct (text_eqb x y) eqn:E.
    - apply text_eqb_eq in E. subst y. destruct o as [a|].
      + change (lits_of ((x, Some a) :: l)) with ((x, a) :: lits_of l). cbn [fold_left fst snd]. rewrite O by exact N1. apply aget_put_same.
      + change (lits_of ((x, None) :: l)) with (lits_of l). apply O. exact N1.
    - apply text_eqb_neq in E. destruct o as [a|].
      + change (lits_of ((y, Some a) :: l)) with ((y, a) :: lits_of l). cbn [fold_left fst snd]. rewrite IH by exact N2. rewrite aget_put_other by exact E. reflexivity.
      + change (lits_of ((y, None) :: l)) with (lits_of l). apply IH. exact N2. }
  rewrite G by exact N. destruct (aget x l) as [[a|]|]; reflexivity.
Qed.
(** what a file of values gives *)
Definition lit_data (l : list (text * option lit)) : list (text * field) := fold_left (fun d b => aput (fst b) (lit_field (snd b)) d) (lits_of l) [].
Lemma load_lits w l : (forall x a, In (x, a) (lits_of l) -> lit_fits x a) ->
  load w (map (fun b => SAssign [EName (fst b)] (lit_expr (snd b))) (lits_of l)) = build_package (lit_data l).
Proof. intros H. unfold load. destruct (process_lits w (lits_of l) H (mkState [] [])) as [vars E]. rewrite E. reflexivity. Qed.
