(** Numbers in the output of programs. *)
From Verif Require Import Base Base_lemmas Maps Text_lemmas Rex_model Requirement_model Files_model Bind_model Bind_spec.
From Verif Require Bundle_model Bundle_text Pkgfile_model.
Open Scope string_scope. Open Scope list_scope.

Lemma take_all f a r : (forall c, In c a -> f c = true) -> (match r with [] => True | c :: _ => f c = false end) -> take_while f (a ++ r) = a.
Proof.
  induction a as [|c a IH]; intros H R; cbn [app].
  - destruct r as [|c r]; [reflexivity|]. cbn. rewrite R. reflexivity.
  - cbn [take_while]. rewrite (H c) by (left; reflexivity). f_equal. apply IH; [|exact R]. intros d D. apply H. right. exact D.
Qed.
Lemma drop_all f a r : (forall c, In c a -> f c = true) -> (match r with [] => True | c :: _ => f c = false end) -> drop_while f (a ++ r) = r.
Proof.
  induction a as [|c a IH]; intros H R; cbn [app].
  - destruct r as [|c r]; [reflexivity|]. cbn. rewrite R. reflexivity.
  - cbn [drop_while]. rewrite (H c) by (left; reflexivity). apply IH; [|exact R]. intros d D. apply H. right. exact D.
Qed.
Lemma from_all b v : no_digit b -> (match v with c :: _ => is_digit c = true | [] => False end) -> from_digit (b ++ v) = v.
Proof.
  induction b as [|c b IH]; intros H V; cbn [app].
  - destruct v as [|c v]; [destruct V|]. cbn. rewrite V. reflexivity.
  - cbn [from_digit]. rewrite (H c) by (left; reflexivity). apply IH; [|exact V]. intros d D. apply H. right. exact D.
Qed.
Lemma digits_ne d : digits d -> exists c r, d = c :: r /\ is_digit c = true.
Proof. intros [N H]. destruct d as [|c r]; [contradiction|]. exists c, r. split; [reflexivity|]. apply H. left. reflexivity. Qed.
Lemma digits_last d : digits d -> exists r c, d = r ++ [c] /\ is_digit c = true.
Proof. intros [N H]. destruct (exists_last N) as (r & c & E). exists r, c. split; [exact E|]. apply H. rewrite E, in_app_iff. right. left. reflexivity. Qed.
Lemma numbers_first v : numbers v -> exists c r, v = c :: r /\ is_digit c = true.
Proof. intros [d D|d r D R]; destruct (digits_ne d D) as (c & s & -> & C); eauto. exists c, (s ++ "."%char :: r). auto. Qed.
Lemma numbers_last v : numbers v -> exists r c, v = r ++ [c] /\ is_digit c = true.
Proof.
  induction 1 as [d D|d r D R IH]; [apply digits_last, D|]. destruct IH as (s & c & -> & C). exists (d ++ "."%char :: s), c. split; [|exact C].
  rewrite <- app_assoc. reflexivity.
Qed.
Lemma numbers_char v : numbers v -> forall c, In c v -> is_digit c = true \/ c = "."%char.
Proof.
  induction 1 as [d D|d r D R IH]; intros c C; [left; apply D, C|]. apply in_app_iff in C. destruct C as [C|[<-|C]]; [left; apply D, C|right; reflexivity|auto].
Qed.
Lemma ws_digit c : is_digit c = true -> is_ws c = false.
Proof. destruct c as [[] [] [] [] [] [] [] []]; vm_compute; congruence. Qed.
Lemma digit_sep c : is_digit c = true -> Ascii.eqb c "." = false /\ Ascii.eqb c "-" = false /\ Ascii.eqb c "_" = false.
Proof. destruct c as [[] [] [] [] [] [] [] []]; vm_compute; intuition congruence. Qed.
Lemma trim_start_mid b v r : (match v with c :: _ => is_ws c = false | [] => False end) -> exists b', (forall c, In c b' -> In c b) /\ trim_start (b ++ v ++ r) = b' ++ v ++ r.
Proof.
  induction b as [|c b IH]; intros V; cbn [app].
  - exists []. split; [tauto|]. destruct v as [|c v]; [destruct V|]. cbn. rewrite V. reflexivity.
  - cbn [trim_start]. destruct (is_ws c); [destruct (IH V) as (b' & H & E); exists b'; split; [intros d D; right; auto|exact E]|]. exists (c :: b). split; [tauto|reflexivity].
Qed.
(** what is left of the rest of a line when blanks at its end are dropped *)
Lemma trim_end_mid v r : (exists s c, v = s ++ [c] /\ is_ws c = false) -> exists r', (r' = [] \/ exists c t t', r = c :: t /\ r' = c :: t') /\ forall a, trim_end (a ++ v ++ r) = a ++ v ++ r'.
Proof.
  intros (s & c & -> & C). unfold trim_end. pose (k := trim_start (rev r)).
  assert (H : forall a, rev (trim_start (rev (a ++ (s ++ [c]) ++ r))) = a ++ (s ++ [c]) ++ rev k).
  { intros a. rewrite !rev_app_distr. cbn [rev app]. unfold k.
    assert (G : forall m n, trim_start (m ++ c :: n) = trim_start m ++ c :: n).
    { induction m as [|d m IH]; intros n; cbn [app trim_start]; [rewrite C; reflexivity|]. destruct (is_ws d); [apply IH|reflexivity]. }
    rewrite <- app_assoc. cbn [app]. rewrite G, rev_app_distr. cbn [rev]. rewrite rev_app_distr, !rev_involutive, <- !app_assoc. reflexivity. }
  exists (rev k). split; [|exact H].
  assert (S : exists m, r = rev k ++ m).
  { assert (G : forall q, exists m, rev q = rev (trim_start q) ++ m).
    { clear. induction q as [|d q IH]; [exists []; reflexivity|]. cbn [trim_start]. destruct (is_ws d).
      - destruct IH as (n & E). exists (n ++ [d]). cbn [rev]. rewrite E, <- app_assoc. reflexivity.
      - exists []. rewrite app_nil_r. reflexivity. }
    destruct (G (rev r)) as (m & E). rewrite rev_involutive in E. exists m. exact E. }
  destruct S as (m & S). destruct (rev k) as [|d t']; [left; reflexivity|]. right. exists d, (t' ++ m), t'. auto.
Qed.
Lemma over_char r : over r -> match r with [] => True | c :: _ => version_char c = false end.
Proof.
  destruct r as [|c r]; [tauto|]. intros [D N]. unfold version_char. rewrite D. cbn [orb].
  destruct (Ascii.eqb_spec c "."%char) as [->|_]; [exfalso; apply N; left; reflexivity|]. destruct (Ascii.eqb_spec c "-"%char) as [->|_]; [exfalso; apply N; right; left; reflexivity|].
  destruct (Ascii.eqb_spec c "_"%char) as [->|_]; [exfalso; apply N; right; right; left; reflexivity|]. reflexivity.
Qed.
(** a text of the characters of versions, from a digit to a digit *)
Definition run_of (v : text) : Prop := (exists c r, v = c :: r /\ is_digit c = true) /\ (exists r c, v = r ++ [c] /\ is_digit c = true) /\ forall c, In c v -> version_char c = true.
Lemma number_in_run b v r : no_digit b -> run_of v -> over r -> number_in (b ++ v ++ r) = Some v.
Proof.
  intros B ((c & s & E & C) & (s' & c' & E' & C') & V) O. unfold number_in, trim.
  destruct (trim_start_mid b v r) as (b' & B' & ->); [rewrite E; apply ws_digit, C|].
  destruct (trim_end_mid v r) as (r' & R' & H); [exists s', c'; split; [exact E'|apply ws_digit, C']|]. rewrite H.
  assert (O' : over r'). { destruct R' as [->|(d & t & t' & -> & ->)]; [exact I|exact O]. }
  rewrite from_all; [|intros d D; apply B, B', D|rewrite E; exact C].
  remember (v ++ r') as u eqn:U. destruct u as [|c0 u]; [rewrite E in U; discriminate U|]. rewrite U, take_all; [|exact V|exact (over_char r' O')].
  assert (Dv : drop_end (fun c => Ascii.eqb c "." || Ascii.eqb c "-" || Ascii.eqb c "_") v = v).
  { unfold drop_end. rewrite E', rev_app_distr. cbn [rev app drop_while]. destruct (digit_sep c' C') as (-> & -> & ->). cbn [orb rev]. rewrite rev_involutive. reflexivity. }
  rewrite Dv. rewrite E. reflexivity.
Qed.
Lemma numbers_run v : numbers v -> run_of v.
Proof.
  intros H. split; [apply numbers_first, H|]. split; [apply numbers_last, H|]. intros c C. unfold version_char. destruct (numbers_char v H c C) as [-> | ->]; reflexivity.
Qed.
Lemma digits_run d : digits d -> run_of d.
Proof. intros H. apply numbers_run. constructor. exact H. Qed.
Lemma run_dash v w : run_of v -> run_of w -> run_of (v ++ "-"%char :: w).
Proof.
  intros ((c & s & E & C) & _ & V) (_ & (s' & c' & E' & C') & W). split; [exists c, (s ++ "-"%char :: w); rewrite E; auto|]. split.
  - exists (v ++ "-"%char :: s'), c'. rewrite E', <- app_assoc. auto.
  - intros d D. apply in_app_iff in D. destruct D as [D|[<-|D]]; [apply V, D|reflexivity|apply W, D].
Qed.

(** ** Behind a prefix *)
Lemma starts_iff x s : starts_with x s = true <-> exists r, s = x ++ r.
Proof.
  revert s. induction x as [|c x IH]; intros s; [split; [exists s|]; reflexivity|]. destruct s as [|d s]; [split; [discriminate|intros (r & E); discriminate E]|].
  cbn [starts_with]. rewrite andb_true_iff, Ascii.eqb_eq, IH. split.
  - intros [-> (r & ->)]. exists r. reflexivity.
  - intros (r & E). injection E as -> ->. split; [reflexivity|]. exists r. reflexivity.
Qed.
Lemma find_least x s : match Pkgfile_model.find_text x s with
  | Some n => (exists a b, s = a ++ x ++ b /\ length a = n) /\ forall a b, s = a ++ x ++ b -> n <= length a
  | None => forall a b, s <> a ++ x ++ b
  end.
Proof.
  induction s as [|c s IH].
  - cbn [Pkgfile_model.find_text]. destruct (starts_with x []) eqn:E.
    + apply starts_iff in E. destruct E as (r & E). split; [|intros; lia]. exists [], r. auto.
    + intros a b H. destruct a; [|discriminate H]. assert (K : starts_with x [] = true) by (apply starts_iff; exists b; exact H). congruence.
  - cbn [Pkgfile_model.find_text]. destruct (starts_with x (c :: s)) eqn:E.
    + apply starts_iff in E. destruct E as (r & E). split; [|intros; lia]. exists [], r. auto.
    + assert (N : forall b, c :: s <> x ++ b). { intros b H. assert (K : starts_with x (c :: s) = true) by (apply starts_iff; exists b; exact H). congruence. }
      destruct (Pkgfile_model.find_text x s) as [n|].
      * destruct IH as [(a & b & -> & L) M]. split; [exists (c :: a), b; split; [reflexivity|cbn; congruence]|].
        intros a' b' H. destruct a' as [|d a']; [exfalso; exact (N _ H)|]. injection H as -> H. cbn. apply le_n_S, (M a' b' H).
      * intros a b H. destruct a as [|d a]; [exact (N _ H)|]. injection H as -> H. exact (IH a b H).
Qed.
Lemma map_split (f : ascii -> ascii) l x y : map f l = x ++ y -> exists a b, l = a ++ b /\ map f a = x /\ map f b = y.
Proof.
  revert l. induction x as [|c x IH]; intros l H; [exists [], l; auto|]. destruct l as [|d l]; [discriminate H|]. injection H as H1 H2.
  destruct (IH l H2) as (a & b & -> & A & B). exists (d :: a), b. split; [reflexivity|]. split; [cbn; congruence|exact B].
Qed.
Lemma find_first x l a b : first_at x l a b -> Pkgfile_model.find_text (map to_lower x) (map to_lower l) = Some (length a) /\ skipn (length a + length x) l = b.
Proof.
  intros (y & -> & Y & M). split.
  - assert (F := find_least (map to_lower x) (map to_lower (a ++ y ++ b))). destruct (Pkgfile_model.find_text _ _) as [n|].
    + destruct F as [(a' & b' & E & L) K]. f_equal. apply Nat.le_antisymm.
      * rewrite <- (map_length to_lower a). apply (K _ (map to_lower b)). rewrite !map_app, Y. reflexivity.
      * destruct (map_split _ _ _ _ E) as (a1 & r1 & E1 & A1 & R1). destruct (map_split _ _ _ _ R1) as (y1 & b1 & E2 & Y1 & B1). subst r1.
        rewrite <- L, <- A1, map_length. apply (M a1 y1 b1 E1 Y1).
    + exfalso. apply (F (map to_lower a) (map to_lower b)). rewrite !map_app, Y. reflexivity.
  - assert (L : length y = length x) by (rewrite <- (map_length to_lower y), Y, map_length; reflexivity). rewrite <- L, <- app_length, app_assoc. rewrite skipn_app, Nat.sub_diag, skipn_all. reflexivity.
Qed.
Lemma find_without x l : without x l -> Pkgfile_model.find_text (map to_lower x) (map to_lower l) = None.
Proof.
  intros W. assert (F := find_least (map to_lower x) (map to_lower l)). destruct (Pkgfile_model.find_text _ _) as [n|]; [|reflexivity]. exfalso.
  destruct F as [(a & b & E & _) _]. destruct (map_split _ _ _ _ E) as (a1 & r1 & E1 & A1 & R1). destruct (map_split _ _ _ _ R1) as (y1 & b1 & E2 & Y1 & B1). subst. exact (W _ _ _ eq_refl Y1).
Qed.
Lemma trim_start_over b v r : (match v with c :: _ => is_ws c = false | [] => False end) -> no_digit b -> exists b', no_digit b' /\ trim_start (b ++ v ++ r) = b' ++ v ++ r.
Proof. intros V B. destruct (trim_start_mid b v r V) as (b' & I & E). exists b'. split; [intros c C; apply B, I, C|exact E]. Qed.
Lemma number_after_lines x ls l ms a b v r : (forall m, In m ls -> without x m) -> first_at x l a (b ++ v ++ r) -> no_digit b -> run_of v -> over r ->
  number_after_in x (ls ++ l :: ms) = Some v.
Proof.
  intros W F B V O. induction ls as [|m ls IH].
  - cbn [app number_after_in]. destruct (find_first _ _ _ _ F) as [-> ->]. destruct V as ((c & s & E & C) & V).
    destruct (trim_start_over b v r) as (b' & B' & ->); [rewrite E; apply ws_digit, C|exact B|]. rewrite number_in_run; [reflexivity|exact B'|split; [eauto|exact V]|exact O].
  - cbn [app number_after_in]. rewrite find_without by (apply W; left; reflexivity). apply IH. intros k K. apply W. right. exact K.
Qed.
Lemma chomp_line l : a_line l -> Bundle_model.chomp l = l.
Proof.
  intros [_ H]. unfold Bundle_model.chomp. destruct (rev l) as [|c r]; [reflexivity|]. destruct (Ascii.eqb_spec c CR) as [E|_]; [exfalso; apply H; exact E|reflexivity].
Qed.
Lemma split_line c l r : ~ In c l -> split_on c (l ++ c :: r) = l :: split_on c r.
Proof.
  induction l as [|d l IH]; intros N; cbn [app split_on].
  - rewrite Ascii.eqb_refl. reflexivity.
  - destruct (Ascii.eqb_spec d c) as [->|_]; [exfalso; apply N; left; reflexivity|]. rewrite IH by (intros I; apply N; right; exact I). reflexivity.
Qed.
Lemma lines_of ls : (forall l, In l ls -> a_line l) -> Bundle_model.file_lines (lines ls) = ls.
Proof.
  intros H. unfold Bundle_model.file_lines. assert (E : split_on NL (lines ls) = ls ++ [[]]).
  { induction ls as [|l ls IH]; [reflexivity|]. unfold lines. cbn [flat_map]. rewrite <- app_assoc. cbn [app]. rewrite split_line by apply (H l), or_introl, eq_refl. f_equal. apply IH. intros m M. apply H. right. exact M. }
  rewrite E, last_last. cbn [is_nil]. rewrite removelast_last. induction ls as [|l ls IH]; [reflexivity|]. cbn [map]. rewrite chomp_line by (apply H; left; reflexivity). f_equal. apply IH; [intros m M; apply H; right; exact M|].
  unfold lines in E. cbn [flat_map] in E. rewrite <- app_assoc in E. cbn [app] in E. rewrite split_line in E by apply (H l), or_introl, eq_refl. injection E as E. exact E.
Qed.
Lemma number_after_text x ls l ms a b v r : (forall m, In m (ls ++ l :: ms) -> a_line m) -> (forall m, In m ls -> without x m) -> first_at x l a (b ++ v ++ r) -> no_digit b -> run_of v -> over r ->
  number_after (lines (ls ++ l :: ms)) x = Some v.
Proof. intros A W F B V O. unfold number_after. rewrite lines_of by exact A. apply (number_after_lines x ls l ms a b v r W F B V O). Qed.

(** ** Dotted numbers on their own *)
Lemma word_iff c : word_char c = true <-> of_word c.
Proof. unfold word_char, of_word. rewrite orb_true_iff, Ascii.eqb_eq. tauto. Qed.
Lemma word_not c : word_char c = false <-> ~ of_word c.
Proof. rewrite <- word_iff. destruct (word_char c); split; congruence. Qed.
Lemma digit_word_char c : is_digit c = true -> word_char c = true.
Proof. unfold word_char, is_alnum. intros ->. rewrite orb_true_r. reflexivity. Qed.
Lemma not_word_digit c : ~ of_word c -> is_digit c = false.
Proof. intros H. destruct (is_digit c) eqn:E; [|reflexivity]. exfalso. apply H. left. unfold is_alnum. rewrite E. apply orb_true_r. Qed.
Definition stops (r : text) : Prop := match r with [] => True | c :: _ => is_digit c = false end.
Lemma closed_stops r : closed r -> stops r.
Proof. destruct r as [|c r]; [tauto|]. intros [N _]. apply not_word_digit, N. Qed.
Lemma take_digits d r : digits d -> stops r -> take_while is_digit (d ++ r) = d.
Proof. intros [_ D] R. apply take_all; [exact D|exact R]. Qed.
Lemma drop_digits d r : digits d -> stops r -> drop_while is_digit (d ++ r) = r.
Proof. intros [_ D] R. apply drop_all; [exact D|exact R]. Qed.
Lemma digits_nil d : digits d -> is_nil d = false.
Proof. intros [N _]. destruct d; [contradiction|reflexivity]. Qed.
Lemma more_closed n r : closed r -> more_numbers n r = Some [].
Proof.
  destruct r as [|c r]; [destruct n; reflexivity|]. intros [W P]. destruct n as [|n].
  - cbn. rewrite (proj2 (word_not c) W). reflexivity.
  - cbn [more_numbers]. destruct (Ascii.eqb_spec c "."%char) as [->|_].
    + specialize (P eq_refl). destruct r as [|d r]; [reflexivity|]. cbn [take_while]. rewrite P. reflexivity.
    + cbn [word_over]. rewrite (proj2 (word_not c) W). reflexivity.
Qed.
Lemma more_all v : numbers v -> forall n r, length v < n -> closed r -> more_numbers n ("."%char :: v ++ r) = Some ("."%char :: v).
Proof.
  induction 1 as [d D|d v D V IH]; intros n r L C.
  - destruct n as [|n]; [lia|]. cbn [more_numbers]. rewrite Ascii.eqb_refl, (take_digits d r D (closed_stops r C)), (digits_nil d D), (drop_digits d r D (closed_stops r C)), (more_closed n r C), app_nil_r. reflexivity.
  - destruct n as [|n]; [lia|]. cbn [more_numbers]. rewrite Ascii.eqb_refl, <- app_assoc. cbn [app].
    rewrite (take_digits d _ D), (digits_nil d D), (drop_digits d _ D) by reflexivity. rewrite IH; [reflexivity| |exact C]. rewrite app_length in L. cbn in L. lia.
Qed.
Lemma here_dotted v r : dotted v -> closed r -> number_here (v ++ r) = Some v.
Proof.
  intros (d & w & D & W & ->) C. unfold number_here. rewrite <- app_assoc. cbn [app].
  rewrite (take_digits d _ D), (digits_nil d D), (drop_digits d _ D) by reflexivity. rewrite Ascii.eqb_refl.
  destruct W as [e E|e u E U].
  - rewrite (take_digits e r E (closed_stops r C)), (digits_nil e E), (drop_digits e r E (closed_stops r C)), (more_closed _ r C), app_nil_r. reflexivity.
  - rewrite <- app_assoc. cbn [app]. rewrite (take_digits e _ E), (digits_nil e E), (drop_digits e _ E) by reflexivity.
    rewrite more_all; [reflexivity|exact U| |exact C]. rewrite app_length. cbn. rewrite app_length. destruct E as [E _]. destruct e; [contradiction|]. cbn. lia.
Qed.
Lemma here_not_digit s : stops s -> number_here s = None.
Proof. destruct s as [|c s]; [reflexivity|]. intros H. unfold number_here. cbn [take_while]. rewrite H. reflexivity. Qed.
(** texts without digits are passed over *)
Definition last_word (w : bool) (a : text) : bool := match rev a with c :: _ => word_char c | [] => w end.
Lemma last_word_cons w c a : last_word (word_char c) a = last_word w (c :: a).
Proof. unfold last_word. cbn [rev]. destruct (rev a); reflexivity. Qed.
Lemma find_pass a s : no_digit a -> forall w, find_number w (a ++ s) = find_number (last_word w a) s.
Proof.
  induction a as [|c a IH]; intros N w; [reflexivity|]. cbn [app find_number].
  rewrite here_not_digit by (apply N; left; reflexivity). rewrite <- last_word_cons. rewrite <- IH by (intros d D; apply N; right; exact D). destruct w; reflexivity.
Qed.
Lemma fresh_last a : fresh a <-> last_word false a = false.
Proof.
  unfold fresh, last_word. split.
  - intros [->|(b & c & -> & C)]; [reflexivity|]. rewrite rev_app_distr. cbn. apply word_not, C.
  - intros H. destruct (rev a) as [|c r] eqn:E; [left; rewrite <- (rev_involutive a), E; reflexivity|]. right. exists (rev r), c.
    split; [rewrite <- (rev_involutive a), E; reflexivity|apply word_not, H].
Qed.
Lemma dotted_first v : dotted v -> exists c s, v = c :: s.
Proof. intros (d & r & D & _ & ->). destruct (digits_ne d D) as (c & s & -> & _). exists c, (s ++ "."%char :: r). reflexivity. Qed.
Lemma find_dotted a v r : no_digit a -> fresh a -> dotted v -> closed r -> find_number false (a ++ v ++ r) = Some v.
Proof.
  intros N F D C. rewrite find_pass, (proj1 (fresh_last a) F) by exact N. destruct (dotted_first v D) as (c & s & E).
  rewrite E. cbn [app find_number]. change (c :: s ++ r) with ((c :: s) ++ r). rewrite <- E, (here_dotted v r D C). reflexivity.
Qed.
(** a number glued to a word is passed over with its point *)
Lemma find_skip d s : digits d -> find_number true (d ++ s) = find_number true s.
Proof.
  intros [_ D]. induction d as [|c d IH]; [reflexivity|]. cbn [app find_number]. rewrite digit_word_char by (apply D; left; reflexivity). apply IH. intros e E. apply D. right. exact E.
Qed.
Lemma find_glued a d v r : no_digit a -> ~ fresh a -> digits d -> dotted v -> closed r -> find_number false (a ++ d ++ "."%char :: v ++ r) = Some v.
Proof.
  intros N F D V C. rewrite find_pass by exact N. assert (L : last_word false a = true). { destruct (last_word false a) eqn:E; [reflexivity|]. exfalso. apply F, fresh_last, E. }
  rewrite L, find_skip by exact D. cbn [find_number]. destruct (dotted_first v V) as (c & s & E).
  change (word_char "."%char) with false. rewrite E. cbn [app find_number]. change (c :: s ++ r) with ((c :: s) ++ r). rewrite <- E, (here_dotted v r V C). reflexivity.
Qed.
(** ** What is found is there *)
Lemma take_drop f s : s = take_while f s ++ drop_while f s.
Proof. induction s as [|c s IH]; [reflexivity|]. cbn. destruct (f c); [cbn; f_equal; exact IH|reflexivity]. Qed.
Lemma take_in f s c : In c (take_while f s) -> f c = true.
Proof. induction s as [|d s IH]; [intros []|]. cbn. destruct (f d) eqn:E; [|intros []]. intros [<-|H]; auto. Qed.
Lemma take_digits_of s : is_nil (take_while is_digit s) = false -> digits (take_while is_digit s).
Proof. intros H. split; [destruct (take_while is_digit s); [discriminate H|discriminate]|]. intros c. apply take_in. Qed.
Definition loose (r : text) : Prop := match r with [] => True | c :: _ => ~ of_word c end.
Lemma word_over_loose r : word_over r = true <-> loose r.
Proof. destruct r as [|c r]; [split; [exact (fun _ => I)|reflexivity]|]. cbn. rewrite negb_true_iff. apply word_not. Qed.
Lemma more_sound n : forall s t, more_numbers n s = Some t -> exists r, s = t ++ r /\ loose r /\ (t = [] \/ exists v, t = "."%char :: v /\ numbers v).
Proof.
  induction n as [|n IH]; intros s t H.
  - cbn in H. destruct (word_over s) eqn:E; [|discriminate H]. injection H as <-. exists s. split; [reflexivity|]. split; [apply word_over_loose, E|left; reflexivity].
  - destruct s as [|c s]; [injection H as <-; exists []; split; [reflexivity|split; [exact I|left; reflexivity]]|].
    cbn [more_numbers] in H. destruct (Ascii.eqb_spec c "."%char) as [->|N].
    + assert (P : loose ("."%char :: s)) by (intros [X|X]; discriminate X).
      destruct (is_nil (take_while is_digit s)) eqn:E; [injection H as <-; exists ("."%char :: s); split; [reflexivity|split; [exact P|left; reflexivity]]|].
      destruct (more_numbers n (drop_while is_digit s)) as [t'|] eqn:M; injection H as <-; [|exists ("."%char :: s); split; [reflexivity|split; [exact P|left; reflexivity]]].
      destruct (IH _ _ M) as (r & R & L & K). exists r. split; [|split; [exact L|right]].
      * cbn [app]. f_equal. rewrite <- app_assoc, <- R. apply take_drop.
      * exists (take_while is_digit s ++ t'). split; [reflexivity|]. destruct K as [->|(v & -> & V)]; [rewrite app_nil_r; constructor; apply take_digits_of, E|apply numbers_more; [apply take_digits_of, E|exact V]].
    + destruct (word_over (c :: s)) eqn:E; [|discriminate H]. injection H as <-. exists (c :: s). split; [reflexivity|]. split; [apply word_over_loose, E|left; reflexivity].
Qed.
Lemma here_sound s v : number_here s = Some v -> exists r, s = v ++ r /\ dotted v /\ loose r.
Proof.
  unfold number_here. destruct (is_nil (take_while is_digit s)) eqn:E; [discriminate|]. destruct (drop_while is_digit s) as [|c q] eqn:Q; [discriminate|].
  destruct (Ascii.eqb_spec c "."%char) as [->|]; [|discriminate]. destruct (is_nil (take_while is_digit q)) eqn:F; [discriminate|].
  destruct (more_numbers (length q) (drop_while is_digit q)) as [t|] eqn:M; [|discriminate]. intros H. injection H as <-.
  destruct (more_sound _ _ _ M) as (r & R & L & K). exists r. split; [|split; [|exact L]].
  - rewrite <- !app_assoc. cbn [app]. rewrite (take_drop is_digit s) at 1. rewrite Q. f_equal. f_equal. rewrite (take_drop is_digit q) at 1. rewrite R, <- app_assoc. reflexivity.
  - exists (take_while is_digit s), (take_while is_digit q ++ t). split; [apply take_digits_of, E|]. split; [|reflexivity].
    destruct K as [->|(v & -> & V)]; [rewrite app_nil_r; constructor; apply take_digits_of, F|apply numbers_more; [apply take_digits_of, F|exact V]].
Qed.
Lemma find_sound s : forall w v, find_number w s = Some v -> exists a r, s = a ++ v ++ r /\ dotted v /\ last_word w a = false /\ loose r.
Proof.
  induction s as [|c s IH]; intros w v H; [discriminate H|]. cbn [find_number] in H. destruct w.
  - destruct (IH _ _ H) as (a & r & -> & D & L & R). exists (c :: a), r. split; [reflexivity|]. split; [exact D|]. split; [rewrite <- last_word_cons; exact L|exact R].
  - destruct (number_here (c :: s)) as [u|] eqn:E.
    + injection H as ->. destruct (here_sound _ _ E) as (r & R & D & L). exists [], r. split; [exact R|]. split; [exact D|]. split; [reflexivity|exact L].
    + destruct (IH _ _ H) as (a & r & -> & D & L & R). exists (c :: a), r. split; [reflexivity|]. split; [exact D|]. split; [rewrite <- last_word_cons; exact L|exact R].
Qed.

Lemma more_some n s : loose s -> more_numbers n s <> None.
Proof.
  intros L. apply word_over_loose in L. destruct n as [|n]; [cbn; rewrite L; discriminate|]. destruct s as [|c s]; [discriminate|]. cbn [more_numbers]. destruct (Ascii.eqb c "."); [|rewrite L; discriminate].
  destruct (is_nil (take_while is_digit s)); [discriminate|]. destruct (more_numbers n _); discriminate.
Qed.
Lemma loose_stops r : loose r -> stops r.
Proof. destruct r as [|c r]; [tauto|]. apply not_word_digit. Qed.
Lemma here_some v r : dotted v -> loose r -> number_here (v ++ r) <> None.
Proof.
  intros (d & w & D & W & ->) L. unfold number_here. rewrite <- app_assoc. cbn [app].
  rewrite (take_digits d _ D), (digits_nil d D), (drop_digits d _ D) by reflexivity. rewrite Ascii.eqb_refl.
  assert (K : exists e s, w ++ r = e ++ s /\ digits e /\ loose s).
  { destruct W as [e E|e u E U]; [exists e, r; auto|]. exists e, ("."%char :: u ++ r). split; [rewrite <- app_assoc; reflexivity|]. split; [exact E|intros [X|X]; discriminate X]. }
  destruct K as (e & s & -> & E & S). rewrite (take_digits e s E (loose_stops s S)), (digits_nil e E), (drop_digits e s E (loose_stops s S)).
  destruct (more_numbers _ s) eqn:M; [discriminate|]. exfalso. exact (more_some _ s S M).
Qed.
Lemma find_some a s : number_here s <> None -> s <> [] -> forall w, last_word w a = false -> find_number w (a ++ s) <> None.
Proof.
  intros H N. induction a as [|c a IH]; intros w L.
  - change w with (last_word w []). rewrite L. destruct s as [|c s]; [contradiction|]. cbn [app find_number]. destruct (number_here (c :: s)); [discriminate|contradiction].
  - cbn [app find_number]. rewrite <- last_word_cons in L. destruct (if w then None else number_here (c :: a ++ s)); [discriminate|]. apply IH, L.
Qed.
Lemma extract_stands s : (exists a v r, stands a v r s) -> exists a v r, extract_version s = Some v /\ stands a v r s.
Proof.
  intros (a & v & r & E & D & F & L). unfold extract_version. destruct (find_number false s) as [u|] eqn:Q.
  - destruct (find_sound _ _ _ Q) as (a' & r' & E' & D' & F' & L'). exists a', u, r'. split; [reflexivity|]. split; [exact E'|]. split; [exact D'|]. split; [apply fresh_last, F'|exact L'].
  - exfalso. revert Q. rewrite E. apply find_some; [apply here_some; assumption| |apply fresh_last, F]. destruct (dotted_first v D) as (c & t & ->). discriminate.
Qed.
