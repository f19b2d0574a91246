(** Proofs about the expansion of requirements. *)
From Verif Require Import Base Base_lemmas Text_lemmas Version_model Rex_model Range_model Requirement_model Pyfile_model Pkgfile_model Expand_model Expand_spec.
Open Scope string_scope. Open Scope list_scope.

Lemma star_in s : existsb (Ascii.eqb "*"%char) s = true <-> In "*"%char s.
Proof.
  rewrite existsb_exists. split.
  - intros (c & I & E). apply Ascii.eqb_eq in E. subst. exact I.
  - intros I. exists "*"%char. split; [exact I|reflexivity].
Qed.
Lemma find_star a b w : no_star a -> find_text ("*"%char :: w) (a ++ b) = match find_text ("*"%char :: w) b with Some n => Some (length a + n) | None => None end.
Proof.
  intros N. induction a as [|c a IH]; [cbn [app length]; destruct (find_text _ b); reflexivity|].
  cbn [app length]. change (find_text ("*"%char :: w) (c :: a ++ b)) with (if starts_with ("*"%char :: w) (c :: a ++ b) then Some 0 else match find_text ("*"%char :: w) (a ++ b) with Some n => Some (S n) | None => None end).
  assert (Hc : starts_with ("*"%char :: w) (c :: a ++ b) = false).
  { cbn [starts_with]. destruct (Ascii.eqb_spec "*"%char c) as [E|E]; [exfalso; apply N; left; symmetry; exact E|reflexivity]. }
  rewrite Hc, IH by (intros I; apply N; right; exact I). destruct (find_text _ b); reflexivity.
Qed.
Lemma find_no_star a w : no_star a -> find_text ("*"%char :: w) a = None.
Proof. intros N. pose proof (find_star a [] w N) as E. rewrite app_nil_r in E. rewrite E. reflexivity. Qed.
Lemma plain_request uid order q s : no_star s -> expand_requirement uid order q s = Ok s.
Proof.
  intros N. unfold expand_requirement. destruct (existsb _ s) eqn:E; [apply star_in in E; contradiction|reflexivity].
Qed.
Lemma two_stars_last uid order q a : no_star a -> expand_requirement uid order q (a ++ T "**") = Panic.
Proof.
  intros N. unfold expand_requirement. assert (E : existsb (Ascii.eqb "*"%char) (a ++ T "**") = true) by (apply star_in, in_or_app; right; left; reflexivity). rewrite E. cbn [negb].
  unfold replace_wildcards. rewrite app_length. change (length (T "**")) with 2. replace (length a + 2) with (S (length a + 1)) by lia. cbn [put_marks].
  change (T "**") with ("*"%char :: T "*"). rewrite (find_star a _ (T "*") N). change (find_text ("*"%char :: T "*") ("*"%char :: T "*")) with (Some 0).
  unfold replace_range. rewrite app_length. change (length ("*"%char :: T "*")) with 2. destruct (Nat.ltb_spec (length a + 2) (length a + 0 + 3)); [reflexivity|lia].
Qed.
Lemma scan_last s c : is_token_char c = true -> forall cur, exists l t, scan_tokens cur (s ++ [c]) = l ++ [t ++ [c]].
Proof.
  intros Hc. induction s as [|d s IH]; intros cur; cbn [app scan_tokens].
  - rewrite Hc. cbn [is_nil rev]. exists [], (rev cur). reflexivity.
  - destruct (is_token_char d); [apply IH|]. destruct (is_nil cur).
    + apply IH.
    + destruct (IH []) as (l & t & E). exists (rev cur :: l), t. rewrite E. reflexivity.
Qed.
Lemma ends_snoc c s : ends_with [c] (s ++ [c]) = true.
Proof. unfold ends_with. rewrite rev_app_distr. cbn [rev app starts_with]. rewrite Ascii.eqb_refl. reflexivity. Qed.
Lemma underscore_version x : (forall c, In c x -> is_ws c = false) -> parse_version (x ++ T "_") = None.
Proof.
  intros W. unfold parse_version. rewrite trim_no_ws.
  2:{ apply forallb_forall. intros c I. apply in_app_or in I as [I|[<-|[]]]; [rewrite (W c I)|]; reflexivity. }
  destruct (is_nil (x ++ T "_")) eqn:E0; [destruct x; discriminate E0|].
  assert (NE : forall y d, d <> "_"%char -> text_eqb (x ++ T "_") (y ++ [d]) = false).
  { intros y d D. destruct (text_eqb_spec (x ++ T "_") (y ++ [d])) as [E|E]; [|reflexivity]. apply app_inj_tail in E as [_ E]. congruence. }
  change (T "inf") with (T "in" ++ ["f"%char]). change (T "epsilon") with (T "epsilo" ++ ["n"%char]). rewrite !NE by discriminate.
  enough (H : parse_internal (x ++ T "_") = None) by (rewrite H; reflexivity).
  destruct (scan_last x "_"%char eq_refl []) as (l & t & E). change (x ++ T "_") with (x ++ ["_"%char]).
  assert (F : forallb token_ok (l ++ [t ++ ["_"%char]]) = false).
  { rewrite forallb_app. cbn [forallb]. unfold token_ok at 2. change (T "_") with ["_"%char]. rewrite ends_snoc, orb_true_r. destruct (negb _); rewrite andb_false_r; reflexivity. }
  unfold parse_internal. rewrite E, F. cbn [negb]. repeat match goal with |- (if ?b then None else _) = None => destruct b; [reflexivity|] end. cbn zeta.
  repeat match goal with |- (if ?b then None else _) = None => destruct b; [reflexivity|] end. reflexivity.
Qed.
(** the characters of a simple request with a placeholder *)
Definition fine (c : ascii) : Prop := is_alnum c = true \/ c = "_"%char \/ c = "-"%char \/ c = "."%char.
Lemma fine_name c : fine c -> Requirement_model.name_char c = true.
Proof. unfold Requirement_model.name_char. intros [H | [-> | [-> | ->]]]; [rewrite H|..]; reflexivity. Qed.
Definition dull (c : ascii) : bool := is_alnum c || Ascii.eqb c "_" || Ascii.eqb c "-" || Ascii.eqb c ".".
Lemma fine_ne c d : fine c -> dull d = false -> c <> d.
Proof. intros F D ->. apply fine_name in F. unfold Requirement_model.name_char in F. unfold dull in D. congruence. Qed.
Lemma fine_ws c : fine c -> is_ws c = false.
Proof.
  intros F. destruct (is_ws c) eqn:E; [|reflexivity]. exfalso. assert (D : dull c = false) by (destruct c as [[] [] [] [] [] [] [] []]; (reflexivity || discriminate E)). exact (fine_ne c c F D eq_refl).
Qed.
Lemma span_all f s : (forall c, In c s -> f c = true) -> span f s = (s, []).
Proof. intros H. induction s as [|c s IH]; [reflexivity|]. cbn [span]. rewrite (H c) by (left; reflexivity). rewrite IH by (intros d I; apply H; right; exact I). reflexivity. Qed.
Lemma find_char_none d s : ~ In d s -> find_char d s = None.
Proof.
  intros N. induction s as [|c s IH]; [reflexivity|]. cbn [find_char]. destruct (Ascii.eqb_spec c d) as [E|E]; [exfalso; apply N; left; exact E|].
  rewrite IH by (intros I; apply N; right; exact I). reflexivity.
Qed.
Lemma find_char_some d s x y : find_char d s = Some (x, y) -> s = x ++ d :: y.
Proof.
  revert x y. induction s as [|c s IH]; intros x y H; [discriminate H|]. cbn [find_char] in H. destruct (Ascii.eqb_spec c d) as [E|E].
  - injection H as <- <-. subst. reflexivity.
  - destruct (find_char d s) as [[p q]|] eqn:F; [|discriminate H]. injection H as <- <-. rewrite (IH p q eq_refl). reflexivity.
Qed.
Lemma find_dotdot_some s : forall x y, find_dotdot s = Some (x, y) -> s = x ++ T ".." ++ y.
Proof.
  induction s as [|c s IH]; intros x y H; [discriminate H|]. cbn [find_dotdot] in H. destruct (starts_with (T "..") (c :: s)) eqn:E.
  - injection H as <- <-. apply starts_with_spec in E as (r & E). injection E as -> ->. reflexivity.
  - destruct (find_dotdot s) as [[p q]|]; [|discriminate H]. injection H as <- <-. rewrite (IH p q eq_refl). reflexivity.
Qed.
Lemma tail_of (x y s : text) (c : ascii) : x ++ y = s ++ [c] -> y <> [] -> exists z, y = z ++ [c].
Proof.
  intros E N. destruct (exists_last N) as (z & d & ->). exists z. rewrite app_assoc in E. apply app_inj_tail in E as [_ ->]. reflexivity.
Qed.
Lemma trim_plus_end x : trim_plus (x ++ T "_") = x ++ T "_".
Proof. unfold trim_plus. rewrite rev_app_distr. cbn [rev app T]. change (rev ("_"%char :: rev x) = x ++ ["_"%char]). cbn [rev]. rewrite rev_involutive. reflexivity. Qed.
(** a request that ends with an underscore is a name *)
Lemma whole_name a : (forall c, In c (a ++ T "_") -> fine c) -> parse_package_req (a ++ T "_") = Some (mkPkgReq (a ++ T "_") None false false).
Proof.
  intros F. set (s := a ++ T "_") in *. assert (W : forall c, In c s -> is_ws c = false) by (intros c I; apply fine_ws, F, I).
  assert (NE : s <> []) by (unfold s; destruct a; discriminate).
  assert (P : forall d t, (forall c, fine c -> c <> d) -> strip_prefix (d :: t) s = None /\ starts_with (d :: t) s = false).
  { intros d t D. destruct s as [|c s']; [contradiction|]. unfold strip_prefix. cbn [starts_with].
    destruct (Ascii.eqb_spec d c) as [E|E]; [exfalso; apply (D c); [apply F; left; reflexivity|symmetry; exact E]|]. split; reflexivity. }
  assert (PX : strip_prefix (T "!") s = None) by (apply (P "!"%char []); intros c Fc; apply (fine_ne c _ Fc); reflexivity).
  assert (PW : strip_prefix (T "~") s = None /\ starts_with (T "~") s = false) by (apply (P "~"%char []); intros c Fc; apply (fine_ne c _ Fc); reflexivity).
  assert (R : parse_requirement s = Some (mkReq s None false false [] [] None)).
  { unfold parse_requirement. rewrite trim_no_ws by (apply forallb_forall; intros c I; rewrite (W c I); reflexivity). rewrite PX. rewrite (proj1 PW).
    assert (SP : span Requirement_model.name_char s = (s, [])) by (apply span_all; intros c I; apply fine_name, F, I).
    assert (MN : match_namespace s = None) by (unfold match_namespace; rewrite SP; destruct (is_nil s); reflexivity). rewrite MN.
    assert (PC : parse_conditions (length s) s [] [] = Some (s, [], [])).
    { assert (FC : find_char "["%char s = None) by (apply find_char_none; intros I; refine (fine_ne _ _ (F _ I) _ eq_refl); reflexivity). destruct (length s); cbn [parse_conditions]; rewrite FC; reflexivity. }
    rewrite PC. unfold parse_name_and_version.
    assert (MW : match_wildcard s = None) by (unfold match_wildcard; rewrite SP; destruct (is_nil s); reflexivity). rewrite MW.
    assert (MB : match_basic s = None) by (unfold match_basic; rewrite SP; destruct (is_nil s); reflexivity). rewrite MB.
    assert (PP : parse_plus s = None).
    { unfold parse_plus, ends_with, s. rewrite rev_app_distr. reflexivity. }
    rewrite PP. enough (PD : parse_dash s = None) by (rewrite PD; reflexivity).
    unfold parse_dash. destruct (find_char "-"%char s) as [[n spec]|] eqn:FD; [|reflexivity]. apply find_char_some in FD.
    destruct spec as [|c0 spec0]; [exfalso; unfold s in FD; change (T "_") with ["_"%char] in FD; apply app_inj_tail in FD as [_ FD]; discriminate FD|].
    assert (SE : exists z, c0 :: spec0 = z ++ ["_"%char]).
    { apply (tail_of (n ++ ["-"%char]) _ a). { rewrite <- app_assoc. symmetry. exact FD. } discriminate. }
    destruct SE as (z & Ez). rewrite Ez in *. assert (IS : forall c, In c (z ++ ["_"%char]) -> In c s) by (intros c I; rewrite FD; apply in_or_app; right; right; exact I).
    assert (V : forall x y, (forall c, In c (x ++ y) -> In c s) -> (exists z, y = z ++ ["_"%char]) -> parse_version y = None).
    { intros x y H (z' & ->). apply underscore_version. intros c I. apply W, H. apply in_or_app. right. apply in_or_app. left. exact I. }
    unfold parse_rez_spec. assert (TL : parse_rez_tail (z ++ ["_"%char]) = None).
    { unfold parse_rez_tail. rewrite find_char_none by (intros I; refine (fine_ne _ _ (F _ (IS _ I)) _ eq_refl); reflexivity). change ["_"%char] with (T "_"). rewrite trim_plus_end.
      rewrite (V [] (z ++ T "_")) by (exact IS || (exists z; reflexivity)). reflexivity. }
    destruct (find_dotdot (z ++ ["_"%char])) as [[x y]|] eqn:FDD; [|rewrite TL; reflexivity]. apply find_dotdot_some in FDD.
    assert (VY : parse_version y = None).
    { destruct y as [|c1 y1]; [exfalso; rewrite app_nil_r in FDD; change (T "..") with (T "." ++ ["."%char]) in FDD; rewrite app_assoc in FDD; apply app_inj_tail in FDD as [_ FDD]; discriminate FDD|].
      apply (V (x ++ T "..")); [intros c I; apply IS; rewrite FDD, app_assoc; exact I|]. apply (tail_of (x ++ T "..") _ z); [rewrite <- app_assoc; symmetry; exact FDD|discriminate]. }
    rewrite VY. destruct (parse_version x); rewrite TL; reflexivity. }
  unfold parse_package_req. rewrite PX, (proj2 PW). cbn [andb]. rewrite R. cbn [rq_name]. rewrite skipn_all. reflexivity.
Qed.
Lemma one_star uid order q a : simple_request a -> placeholder (uid 0) -> no_star a ->
  expand_requirement uid order q (a ++ T "*") =
  match q (a ++ uid 0) None with
  | None => Ok (a ++ T "*")
  | Some v => Ok (restore_wildcards order ((a ++ uid 0) ++ T "-" ++ v) [(uid 0, T "*")])
  end.
Proof.
  intros [NE SA] (h & EU & HU) N. unfold expand_requirement.
  assert (E : existsb (Ascii.eqb "*"%char) (a ++ T "*") = true) by (apply star_in, in_or_app; right; left; reflexivity). rewrite E. cbn [negb].
  assert (NU : no_star (uid 0)).
  { rewrite EU. intros [I|I]; [discriminate I|]. apply in_app_or in I as [I|[I|[]]]; [|discriminate I]. specialize (HU _ I). discriminate HU. }
  assert (RW : replace_wildcards uid (a ++ T "*") = Ok (a ++ uid 0, [(uid 0, T "*")])).
  { unfold replace_wildcards. assert (F2 : find_text (T "**") (a ++ T "*") = None) by (change (T "**") with ("*"%char :: T "*"); rewrite (find_star a (T "*") (T "*") N); reflexivity).
    assert (P2 : put_marks uid (T "**") 3 (length (a ++ T "*")) 0 (a ++ T "*") [] = Ok (a ++ T "*", 0, [])) by (destruct (length (a ++ T "*")); cbn [put_marks]; rewrite F2; reflexivity).
    rewrite P2. cbn [bind]. assert (F1 : find_text (T "*") (a ++ T "*") = Some (length a)) by (change (T "*") with ("*"%char :: []); rewrite (find_star a _ [] N); cbn; rewrite Nat.add_0_r; reflexivity).
    rewrite app_length. change (length (T "*")) with 1. rewrite Nat.add_1_r. cbn [put_marks]. rewrite F1. unfold replace_range. rewrite app_length. change (length (T "*")) with 1.
    rewrite Nat.ltb_irrefl. cbn [bind]. rewrite firstn_app, firstn_all, Nat.sub_diag. cbn [firstn]. rewrite app_nil_r, skipn_all2 by (rewrite app_length; cbn; lia). rewrite app_nil_r.
    assert (F0 : find_text (T "*") (a ++ uid 0) = None) by (change (T "*") with ("*"%char :: []); rewrite (find_star a _ [] N), (find_no_star _ [] NU); reflexivity).
    destruct (length a); cbn [put_marks]; rewrite F0; reflexivity. }
  rewrite RW. cbn [bind]. rewrite EU at 1. change ("_"%char :: h ++ ["_"%char]) with (("_"%char :: h) ++ T "_"). rewrite app_assoc, whole_name.
  2:{ rewrite <- app_assoc. intros c I. apply in_app_or in I as [I|I]; [exact (SA c I)|]. destruct I as [<-|I]; [right; left; reflexivity|].
      apply in_app_or in I as [I|[<-|[]]]; [left; exact (HU c I)|right; left; reflexivity]. }
  cbn [pr_name pr_spec]. rewrite <- app_assoc. change (("_"%char :: h) ++ T "_") with ("_"%char :: h ++ ["_"%char]). rewrite <- EU. reflexivity.
Qed.
Lemma never_expanded uid order q a : simple_request a -> placeholder (uid 0) -> no_star a -> knows_names uid q -> expand_requirement uid order q (a ++ T "*") = Ok (a ++ T "*").
Proof. intros S P N K. rewrite one_star by assumption. rewrite K. reflexivity. Qed.
Lemma mark_one uid f n m a b : no_star a -> put_marks uid (T "*") 1 (S f) n (a ++ "*"%char :: b) m = put_marks uid (T "*") 1 f (S n) (a ++ uid n ++ b) (m ++ [(uid n, T "*")]).
Proof.
  intros N. cbn [put_marks]. change (T "*") with ["*"%char]. rewrite (find_star a ("*"%char :: b) [] N). change (find_text ["*"%char] ("*"%char :: b)) with (Some 0). unfold replace_range. rewrite Nat.add_0_r.
  destruct (Nat.ltb_spec (length (a ++ "*"%char :: b)) (length a + 1)) as [L|L]; [rewrite app_length in L; cbn in L; lia|]. cbn [bind].
  rewrite firstn_app, Nat.sub_diag, firstn_all, app_nil_r. cbn [firstn]. replace (skipn (length a + 1) (a ++ "*"%char :: b)) with b; [reflexivity|].
  rewrite skipn_app. replace (length a + 1 - length a) with 1 by lia. rewrite skipn_all2 by lia. reflexivity.
Qed.
Lemma mark_none uid f n m a : no_star a -> put_marks uid (T "*") 1 f n a m = Ok (a, n, m).
Proof. intros N. pose proof (find_no_star a [] N) as E. destruct f; cbn [put_marks]; change (T "*") with ["*"%char]; rewrite E; reflexivity. Qed.
Lemma no_star_app a b : no_star a -> no_star b -> no_star (a ++ b).
Proof. intros A B I. apply in_app_or in I as [I|I]; [exact (A I)|exact (B I)]. Qed.
Lemma no_double a b : no_star b -> b <> [] -> forall c, no_star a -> find_text ("*"%char :: T "*") (a ++ "*"%char :: b ++ c) = match find_text ("*"%char :: T "*") c with Some i => Some (length a + S (length b + i)) | None => None end.
Proof.
  intros N NE c NA. rewrite (find_star a _ (T "*") NA). destruct b as [|d b]; [contradiction|].
  change (find_text ("*"%char :: T "*") ("*"%char :: (d :: b) ++ c)) with (if starts_with ("*"%char :: T "*") ("*"%char :: (d :: b) ++ c) then Some 0 else match find_text ("*"%char :: T "*") ((d :: b) ++ c) with Some n => Some (S n) | None => None end).
  assert (S : starts_with ("*"%char :: T "*") ("*"%char :: (d :: b) ++ c) = false).
  { change (Ascii.eqb "*"%char d && true = false). destruct (Ascii.eqb_spec "*"%char d) as [X|X]; [exfalso; apply N; left; symmetry; exact X|]. reflexivity. }
  rewrite S, (find_star (d :: b) c (T "*") N). destruct (find_text _ c); reflexivity.
Qed.
Lemma two_marks uid a b c : no_star a -> no_star b -> b <> [] -> no_star c -> no_star (uid 0) -> no_star (uid 1) ->
  replace_wildcards uid (a ++ T "*" ++ b ++ T "*" ++ c) = Ok (a ++ uid 0 ++ b ++ uid 1 ++ c, [(uid 0, T "*"); (uid 1, T "*")]).
Proof.
  intros NA NB NE NC N0 N1. unfold replace_wildcards.
  assert (D : find_text (T "**") (a ++ T "*" ++ b ++ T "*" ++ c) = None).
  { change (T "**") with ("*"%char :: T "*"). change (a ++ T "*" ++ b ++ T "*" ++ c) with (a ++ "*"%char :: b ++ "*"%char :: c). rewrite (no_double a b NB NE _ NA).
    change (find_text ("*"%char :: T "*") ("*"%char :: c)) with (if starts_with ("*"%char :: T "*") ("*"%char :: c) then Some 0 else match find_text ("*"%char :: T "*") c with Some n => Some (S n) | None => None end).
    rewrite (find_no_star c (T "*") NC). destruct c as [|d c]; [reflexivity|]. change (starts_with ("*"%char :: T "*") ("*"%char :: d :: c)) with (Ascii.eqb "*"%char d && true). destruct (Ascii.eqb_spec "*"%char d) as [X|X]; [exfalso; apply NC; left; symmetry; exact X|reflexivity]. }
  assert (E : forall f n m, put_marks uid (T "**") 3 f n (a ++ T "*" ++ b ++ T "*" ++ c) m = Ok (a ++ T "*" ++ b ++ T "*" ++ c, n, m)) by (intros f n m; destruct f; cbn [put_marks]; rewrite D; reflexivity).
  rewrite E. cbn [bind]. assert (L : exists f, length (a ++ T "*" ++ b ++ T "*" ++ c) = S (S f)) by (exists (length a + length b + length c); rewrite !app_length; cbn; lia). destruct L as [f ->].
  change (a ++ T "*" ++ b ++ T "*" ++ c) with (a ++ "*"%char :: b ++ "*"%char :: c). rewrite (mark_one uid (S f) 0 [] a _ NA).
  replace (a ++ uid 0 ++ b ++ "*"%char :: c) with ((a ++ uid 0 ++ b) ++ "*"%char :: c) by (rewrite <- !app_assoc; reflexivity).
  rewrite (mark_one uid f 1 _ (a ++ uid 0 ++ b) c) by (repeat apply no_star_app; assumption). rewrite mark_none by (repeat apply no_star_app; assumption). cbn [bind app]. rewrite <- !app_assoc. reflexivity.
Qed.
