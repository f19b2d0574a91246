From Verif Require Import Base Base_lemmas Maps Range_model Files_model Files_spec Files_proofs Update_spec Update_model Update_proofs.
From Verif Require Bundle_model Try_model Bind_model Bind_spec Bind_text Bind_disk Try_more Try_spec Range_text Rex_model.
From Coq Require Import Lia.
Open Scope string_scope. Open Scope list_scope.

(** ** Words and lines *)
Lemma split_ws_parts s : forall cur, (forall c, In c cur -> is_ws c = false) -> forall h r, Try_model.split_ws_from cur s = h :: r ->
  exists b t, blank b /\ rev cur ++ s = b ++ h ++ t /\ (cur <> [] -> b = []) /\ h <> [] /\ (r = [] \/ exists c u, is_ws c = true /\ t = c :: u /\ r = Try_model.split_ws u).
Proof.
  induction s as [|c s IH]; intros cur W h r H; cbn [Try_model.split_ws_from] in H.
  - destruct cur as [|d cur]; [discriminate|]. cbn [is_nil] in H. injection H as <- <-. exists [], []. split; [intros ? []|]. rewrite !app_nil_r. split; [reflexivity|]. split; [reflexivity|].
    split; [cbn [rev]; now destruct (rev cur)|now left].
  - destruct (is_ws c) eqn:E.
    + destruct cur as [|d cur]; cbn [is_nil] in H.
      * destruct (IH [] (fun _ F => match F with end) h r H) as (b & t & B & Q & _ & N & K). exists (c :: b), t. split; [intros x [<-|I]; auto|]. cbn [rev app] in *. split; [now rewrite Q|]. split; [congruence|]. split; [exact N|exact K].
      * injection H as <- <-. exists [], (c :: s). split; [intros ? []|]. split; [reflexivity|]. split; [reflexivity|]. split; [cbn [rev]; now destruct (rev cur)|]. right. now exists c, s.
    + destruct (IH (c :: cur)) with (h := h) (r := r) as (b & t & B & Q & C & N & K); [intros x [<-|I]; auto|exact H|]. exists b, t. split; [exact B|]. cbn [rev] in Q. rewrite <- app_assoc in Q. cbn [app] in Q. split; [exact Q|].
      split; [intros _; apply C; discriminate|]. split; [exact N|exact K].
Qed.
Lemma split_ws_two l h f r : Try_model.split_ws l = h :: f :: r -> exists a w b, l = a ++ h ++ w ++ f ++ b /\ w <> [] /\ blank w.
Proof.
  intros H. destruct (split_ws_parts l [] (fun _ F => match F with end) h (f :: r) H) as (a & t & _ & Q & _ & _ & [K|(c & u & C & -> & E)]); [discriminate|]. symmetry in E.
  destruct (split_ws_parts u [] (fun _ F => match F with end) f r E) as (b & t & B & Q' & _). cbn [rev app] in Q, Q'. exists a, (c :: b), t. split; [rewrite Q; now rewrite Q'|]. split; [discriminate|]. intros x [<-|I]; auto.
Qed.
Lemma in_split_part sep p s : In p (split_on sep s) -> exists a b, s = a ++ p ++ b.
Proof.
  intros H. rewrite <- (join_split sep s). apply in_split in H as (l & r & ->). clear s. induction l as [|x l IH].
  - cbn [app]. destruct r as [|y r]; cbn [join]; [exists [], []; now rewrite app_nil_r|]. exists [], ([sep] ++ join [sep] (y :: r)). reflexivity.
  - destruct IH as (a & b & E). cbn [app]. assert (J : join [sep] (x :: (l ++ p :: r)) = x ++ [sep] ++ join [sep] (l ++ p :: r)) by (destruct l; reflexivity). rewrite J, E. exists (x ++ [sep] ++ a), b. now rewrite <- !app_assoc.
Qed.
Lemma chomp_part l : exists b, l = Bundle_model.chomp l ++ b.
Proof.
  unfold Bundle_model.chomp. destruct (rev l) as [|c r] eqn:E; [exists []; now rewrite app_nil_r|]. destruct (Ascii.eqb c Rex_model.CR); [|exists []; now rewrite app_nil_r].
  exists [c]. rewrite <- (rev_involutive l), E. reflexivity.
Qed.
Lemma file_line_part l s : In l (Bundle_model.file_lines s) -> ~ In "010"%char l /\ exists a b, s = a ++ l ++ b.
Proof.
  unfold Bundle_model.file_lines. intros H. apply in_map_iff in H as (p & <- & H). assert (K : In p (split_on Rex_model.NL s)).
  { cbv zeta in H. destruct (is_nil (last (split_on Rex_model.NL s) [])); [|exact H]. revert H. generalize (split_on Rex_model.NL s). intros ls I. clear -I. induction ls as [|x ls IH]; [destruct I|]. cbn [removelast] in I. destruct ls; [destruct I|]. destruct I as [<-|I]; [now left|right; exact (IH I)]. }
  destruct (chomp_part p) as [b E]. split.
  - intros I. pose proof (split_on_pieces Rex_model.NL s) as F. rewrite Forall_forall in F. apply (F p K). rewrite E. apply in_or_app. now left.
  - apply in_split_part in K as (a & c & ->). exists a, (b ++ c). rewrite E at 1. now rewrite <- !app_assoc.
Qed.
Lemma is_hex_iff c : is_hex c = true <-> hex_digit c.
Proof. destruct c as [[] [] [] [] [] [] [] []]; vm_compute; (split; intros H; [try discriminate; intuition congruence|]); repeat (destruct H as [H|H]; [try discriminate; reflexivity|]); try destruct H; reflexivity. Qed.
Lemma sum_in_sound name ls h : sum_in name ls = Some h -> exists l g, In l ls /\ Try_model.split_ws l = [g; name] /\ a_sum g /\ h = map to_lower g.
Proof.
  induction ls as [|l ls IH]; [discriminate|]. cbn [sum_in]. assert (S : sum_in name ls = Some h -> exists l0 g, In l0 (l :: ls) /\ Try_model.split_ws l0 = [g; name] /\ a_sum g /\ h = map to_lower g).
  { intros H. destruct (IH H) as (l0 & g & I & K). exists l0, g. split; [now right|exact K]. }
  destruct (Try_model.split_ws l) as [|g [|f more]] eqn:E; [exact S|exact S|]. destruct (text_eqb f name) eqn:F; [|exact S]. apply text_eqb_eq in F. subst f.
  destruct more; [|discriminate]. cbn [is_nil negb orb]. destruct (length g =? 64)%nat eqn:L; [|discriminate]. destruct (forallb is_hex g) eqn:X; [|discriminate]. cbn [negb orb]. intros [= <-].
  exists l, g. split; [now left|]. split; [exact E|]. split; [|reflexivity]. split; [now apply Nat.eqb_eq|]. intros c I. apply is_hex_iff. rewrite forallb_forall in X. now apply X.
Qed.
Lemma sum_for_sound sums name h : sum_for sums name = Some h -> exists g, in_sums sums g name /\ h = map to_lower g.
Proof.
  intros H. apply sum_in_sound in H as (l & g & I & E & S & ->). exists g. split; [|reflexivity]. destruct (split_ws_two l g name [] E) as (a & w & b & -> & N & B). apply file_line_part in I as [L (a' & b' & ->)].
  exists (a' ++ a), w, (b ++ b'). split; [now rewrite <- !app_assoc|]. split; [exact N|]. split; [exact B|]. split; [|exact S]. intros K. apply L. apply in_or_app. right. apply in_or_app. right. apply in_or_app. now left.
Qed.
Lemma one_line_iff l : one_line l -> Bind_spec.a_line l.
Proof. intros [A B]. split; [exact A|]. destruct (rev l) as [|c r] eqn:E; [exact I|]. intros ->. apply (B (rev r)). rewrite <- (rev_involutive l), E. reflexivity. Qed.
Lemma text_lines ls : Forall one_line ls -> Bundle_model.file_lines (text_of ls) = ls.
Proof. intros F. change (text_of ls) with (Bind_spec.lines ls). apply Bind_text.lines_of. intros l I. apply one_line_iff. rewrite Forall_forall in F. now apply F. Qed.
Lemma row_words h f : Try_spec.is_word h -> Try_spec.is_word f -> Try_model.split_ws (row h f) = [h; f].
Proof.
  intros H F. unfold row. change (h ++ T "  " ++ f) with (h ++ " "%char :: T " " ++ f). rewrite Try_more.split_ws_word by (try exact H; reflexivity). f_equal.
  change (Try_model.split_ws (T " " ++ f)) with (Try_model.split_ws f). now apply Try_more.split_ws_last.
Qed.
Lemma sum_word h : a_sum h -> Try_spec.is_word h.
Proof.
  intros [L X]. split; [intros ->; discriminate|]. intros c I. apply X in I. unfold hex_digit in I. cbn in I. repeat (destruct I as [<-|I]; [reflexivity|]). destruct I.
Qed.
Lemma sum_lower h : a_sum h -> (length h =? 64)%nat = true /\ forallb is_hex h = true.
Proof. intros [L X]. split; [now apply Nat.eqb_eq|]. apply forallb_forall. intros c I. apply is_hex_iff. now apply X. Qed.
Lemma sum_in_row name h pre post : Forall (fun r => Try_spec.is_word (fst r) /\ Try_spec.is_word (snd r) /\ snd r <> name) pre -> a_sum h -> Try_spec.is_word name ->
  sum_in name (map (fun r => row (fst r) (snd r)) pre ++ row h name :: post) = Some (map to_lower h).
Proof.
  intros F S N. induction pre as [|[g f] pre IH]; cbn [map app sum_in fst snd].
  - rewrite (row_words h name (sum_word h S) N), text_eqb_refl. destruct (sum_lower h S) as [-> ->]. reflexivity.
  - inversion F as [|? ? (G & W & D) F']; subst. cbn [fst snd] in *. rewrite (row_words g f G W). destruct (text_eqb f name) eqn:E; [apply text_eqb_eq in E; congruence|]. now apply IH.
Qed.
Lemma row_line h f : Try_spec.is_word h -> Try_spec.is_word f -> one_line (row h f).
Proof.
  intros [_ H] [N F]. unfold row. split.
  - intros I. apply in_app_or in I as [I|I]; [apply H in I; discriminate|]. destruct I as [I|[I|I]]; [discriminate..|]. apply F in I. discriminate.
  - intros r E. destruct (exists_last N) as (g & c & ->). rewrite !app_assoc in E. apply app_inj_tail in E as [_ ->]. assert (K : is_ws "013" = false) by (apply F; apply in_or_app; right; now left). discriminate.
Qed.
Lemma sum_for_row name h pre post : Forall (fun r => Try_spec.is_word (fst r) /\ Try_spec.is_word (snd r) /\ snd r <> name) pre -> a_sum h -> Try_spec.is_word name -> Forall one_line post ->
  sum_for (text_of (map (fun r => row (fst r) (snd r)) pre ++ row h name :: post)) name = Some (map to_lower h).
Proof.
  intros F S N P. unfold sum_for. rewrite text_lines; [now apply sum_in_row|]. apply Forall_app. split.
  - rewrite Forall_forall in *. intros l I. apply in_map_iff in I as ([g f] & <- & I). destruct (F _ I) as (A & B & _). now apply row_line.
  - constructor; [apply row_line; [now apply sum_word|exact N]|exact P].
Qed.
Lemma sum_for_missing name rows : Forall (fun r => Try_spec.is_word (fst r) /\ Try_spec.is_word (snd r) /\ snd r <> name) rows -> sum_for (text_of (map (fun r => row (fst r) (snd r)) rows)) name = None.
Proof.
  intros F. unfold sum_for. rewrite text_lines; [|rewrite Forall_forall in *; intros l I; apply in_map_iff in I as ([g f] & <- & I); destruct (F _ I) as (A & B & _); now apply row_line].
  induction F as [|[g f] rows (G & W & D) F IH]; [reflexivity|]. cbn [map sum_in fst snd] in *. rewrite (row_words g f G W). destruct (text_eqb f name) eqn:E; [apply text_eqb_eq in E; congruence|exact IH].
Qed.

(** ** Tags *)
Lemma contains_key a b : contains_text tag_key (a ++ tag_key ++ b) = true.
Proof. apply Try_more.contains_part. now exists a, b. Qed.
Lemma drop_while_none f s : (match s with c :: _ => f c = false | [] => True end) -> Bind_model.drop_while f s = s.
Proof. destruct s as [|c s]; [reflexivity|]. intros H. cbn [Bind_model.drop_while]. now rewrite H. Qed.
Lemma drop_end_app f s r : (forall c, In c r -> f c = true) -> (exists u c, s = u ++ [c] /\ f c = false) -> Bind_model.drop_end f (s ++ r) = s.
Proof.
  intros R (u & c & -> & C). unfold Bind_model.drop_end. rewrite !rev_app_distr. cbn [rev app]. rewrite Bind_text.drop_all; [cbn [rev]; now rewrite rev_involutive| |exact C].
  intros x I. apply R. now apply in_rev.
Qed.
Definition calm_char (c : ascii) : Prop := tag_edge c = false /\ is_ws c = false /\ c <> "010"%char.
Lemma trim_words s : (match s with c :: _ => is_ws c = false | [] => True end) -> (forall u c, s = u ++ [c] -> is_ws c = false) -> trim s = s.
Proof.
  intros A B. unfold trim. assert (E : trim_start s = s) by (destruct s as [|c s]; [reflexivity|]; cbn [trim_start]; now rewrite A). rewrite E. unfold trim_end.
  destruct (rev s) as [|c r] eqn:R; [apply (f_equal (@rev ascii)) in R; rewrite rev_involutive in R; now rewrite R|]. assert (W : is_ws c = false) by (apply (B (rev r)); rewrite <- (rev_involutive s), R; reflexivity).
  cbn [trim_start]. rewrite W. rewrite <- R. apply rev_involutive.
Qed.
Lemma tag_line_value sp v : (forall c, In c sp -> c = " "%char) -> (forall c, In c v -> calm_char c) -> v <> [] ->
  match find_char ":" (sp ++ tag_key ++ T ": " ++ quoted v ++ T ",") with Some (_, r) => Bind_model.drop_end tag_edge (Bind_model.drop_while tag_edge (trim r)) | None => [] end = v.
Proof.
  intros SP V N. rewrite app_assoc. change (T ": " ++ quoted v ++ T ",") with (":"%char :: T " " ++ quoted v ++ T ","). rewrite Range_text.find_char_first.
  2:{ intros I. apply in_app_or in I as [I|I]; [apply SP in I; discriminate|]. cbn in I. repeat destruct I as [I|I]; try discriminate. exact I. }
  assert (E : trim (T " " ++ quoted v ++ T ",") = quoted v ++ T ",").
  { change (trim (T " " ++ quoted v ++ T ",")) with (trim (quoted v ++ T ",")). apply trim_words; [reflexivity|]. intros u c Q. apply app_inj_tail in Q as [_ <-]. reflexivity. }
  rewrite E. unfold quoted. cbn [app]. change (Bind_model.drop_while tag_edge ("034"%char :: (v ++ ["034"%char]) ++ T ",")) with (Bind_model.drop_while tag_edge ((v ++ ["034"%char]) ++ T ",")).
  rewrite <- app_assoc. rewrite drop_while_none; [apply drop_end_app|].
  - intros c I. cbn in I. repeat destruct I as [<-|I]; try reflexivity. destruct I.
  - destruct (exists_last N) as (u & c & ->). exists u, c. split; [reflexivity|]. apply V. apply in_or_app. right. now left.
  - destruct v as [|c v]; [congruence|]. apply V. now left.
Qed.
Lemma tag_name_pretty pre sp v post : Forall one_line pre -> (forall l, In l pre -> ~ Try_spec.part_of tag_key l) -> Forall one_line post -> (forall c, In c sp -> c = " "%char) -> (forall c, In c v -> calm_char c) -> v <> [] ->
  tag_name (text_of (pre ++ (sp ++ tag_key ++ T ": " ++ quoted v ++ T ",") :: post)) = Some (strip_v v).
Proof.
  intros P K Q S V N. unfold tag_name. rewrite text_lines.
  2:{ apply Forall_app. split; [exact P|]. constructor; [|exact Q]. split.
      - intros I. apply in_app_or in I as [I|I]; [apply S in I; discriminate|]. apply in_app_or in I as [I|I]; [cbn in I; repeat destruct I as [I|I]; try discriminate; exact I|].
        apply in_app_or in I as [I|I]; [cbn in I; repeat destruct I as [I|I]; try discriminate; exact I|]. apply in_app_or in I as [I|I].
        + destruct I as [I|I]; [discriminate|]. apply in_app_or in I as [I|[I|[]]]; [|discriminate]. now destruct (V _ I) as (_ & _ & X).
        + destruct I as [I|[]]. discriminate.
      - intros r E. rewrite !app_assoc in E. apply app_inj_tail in E as [_ E]. discriminate. }
  assert (F : filter (contains_text tag_key) (pre ++ (sp ++ tag_key ++ T ": " ++ quoted v ++ T ",") :: post) = (sp ++ tag_key ++ T ": " ++ quoted v ++ T ",") :: filter (contains_text tag_key) post).
  { clear P. induction pre as [|l pre IH]; cbn [app filter]; [now rewrite contains_key|]. destruct (contains_text tag_key l) eqn:C; [apply Try_more.contains_part in C; destruct (K l (or_introl eq_refl) C)|]. apply IH. intros m I. apply K. now right. }
  rewrite F. pose proof (tag_line_value sp v S V N) as E. destruct (find_char ":" _) as [[l r]|]; [now rewrite E|congruence].
Qed.
Lemma strip_v_plain v : (match v with c :: _ => c <> "v"%char | [] => True end) -> strip_v v = v.
Proof. intros H. apply drop_while_none. destruct v as [|c v]; [exact I|]. apply Ascii.eqb_neq. congruence. Qed.
Lemma strip_v_v v : strip_v (T "v" ++ v) = strip_v v.
Proof. reflexivity. Qed.
