(** C286-C292: helpers for texts and times. *)
From Verif Require Import Base Base_lemmas Text_lemmas Util_spec Util_model.
From Verif Require Bundle_model Bind_spec Bind_text Rex_model Range_compat.
From Coq Require Import Lia.
Open Scope string_scope. Open Scope list_scope.

(** ** C286: shortening *)
Theorem C286_length_partial : forall s n, 3 <= n -> length (truncate s n) <= n.
Proof.
  intros s n L. unfold truncate. destruct (Nat.leb_spec n 3); [cbn; lia|]. destruct (Nat.leb_spec (length s) (n - 3)); [lia|]. rewrite app_length, firstn_length. cbn [length]. change (length (T "...")) with 3. lia.
Qed.
Theorem C286_kept_partial : forall s n, 3 < n -> (length s + 3 <= n -> truncate s n = s) /\ (n < length s + 3 -> exists a b, s = a ++ b /\ length a + 3 = n /\ truncate s n = a ++ T "...").
Proof.
  intros s n L. unfold truncate. destruct (Nat.leb_spec n 3); [lia|]. split; intros K.
  - destruct (Nat.leb_spec (length s) (n - 3)); [reflexivity|lia].
  - destruct (Nat.leb_spec (length s) (n - 3)); [lia|]. exists (firstn (n - 3) s), (skipn (n - 3) s). split; [symmetry; apply firstn_skipn|]. split; [rewrite firstn_length; lia|reflexivity].
Qed.
Example C286_example : truncate (T "abcdefghij") 8 = T "abcde..." /\ truncate (T "abcde") 8 = T "abcde".
Proof. split; reflexivity. Qed.
(** texts that fit are cut, and then are as long or longer than before; with less than three nothing fits *)
Theorem C286_fits_refuted : forall s n, 3 < n -> length s <= n < length s + 3 -> length (truncate s n) = n /\ (length s < n -> length s < length (truncate s n)) /\ truncate s n <> s \/ s = firstn (n - 3) s ++ T "...".
Proof.
  intros s n L K. destruct (C286_kept_partial s n L) as [_ B]. destruct B as (a & b & E & F & G); [lia|]. destruct (list_eq_dec ascii_dec s (firstn (n - 3) s ++ T "...")) as [Q|Q]; [now right|left].
  assert (LL : length (truncate s n) = n) by (rewrite G, app_length; change (length (T "...")) with 3; lia). split; [exact LL|]. split; [lia|]. intros W. apply Q. rewrite <- W at 1. rewrite G. f_equal. rewrite E, firstn_app. replace (n - 3 - length a) with 0 by lia. rewrite firstn_all2 by lia. cbn [firstn]. now rewrite app_nil_r.
Qed.
Theorem C286_short_refuted : (forall s n, n < 3 -> n < length (truncate s n)) /\ truncate (T "ab") 3 = T "..." /\ truncate (T "abcd") 5 = T "ab...".
Proof. split; [|split; reflexivity]. intros s n L. unfold truncate. destruct (Nat.leb_spec n 3); [change (length (T "...")) with 3; lia|lia]. Qed.
Print Assumptions C286_length_partial.
Print Assumptions C286_kept_partial.
Print Assumptions C286_fits_refuted.
Print Assumptions C286_short_refuted.

(** ** C287: identifiers *)
Lemma valid_iff s : is_valid_identifier s = true <-> identifier s.
Proof.
  unfold is_valid_identifier, identifier. destruct s as [|c r]; [split; [discriminate|intros (c & r & [=] & _)]|]. split.
  - destruct (negb (is_alpha c) && negb (Ascii.eqb c "_")) eqn:E; [discriminate|]. intros F. exists c, r. split; [reflexivity|]. split.
    + apply andb_false_iff in E as [E|E]; apply negb_false_iff in E; [now left|right; now apply Ascii.eqb_eq].
    + intros d I. rewrite forallb_forall in F. apply F in I. apply orb_true_iff in I as [I|I]; [now left|right; now apply Ascii.eqb_eq].
  - intros (c' & r' & [= <- <-] & S & F). assert (E : negb (is_alpha c) && negb (Ascii.eqb c "_") = false) by (destruct S as [-> | ->]; [reflexivity|apply andb_false_r]). rewrite E. apply forallb_forall. intros d I. apply orb_true_iff. destruct (F d I) as [K| ->]; [now left|now right].
Qed.
Lemma python_in c : in_name (python_char c).
Proof. unfold python_char, in_name. destruct (is_alnum c) eqn:E; cbn [orb]; [now left|]. destruct (Ascii.eqb c "_") eqn:F; [right; now apply Ascii.eqb_eq|now right]. Qed.
Theorem C287_valid : forall s, is_valid_identifier s = true <-> identifier s.
Proof. exact valid_iff. Qed.
Theorem C287_identifier : forall s, identifier (to_python_identifier s).
Proof.
  intros s. unfold to_python_identifier. set (t := map python_char _). assert (A : forall d, In d t -> in_name d) by (intros d I; apply in_map_iff in I as (c & <- & _); apply python_in).
  destruct t as [|c r] eqn:E.
  - exists "_"%char, []. split; [reflexivity|]. split; [now right|intros d []].
  - destruct (is_alpha c) eqn:L; cbn [negb].
    + exists c, r. split; [reflexivity|]. split; [now left|]. intros d I. apply A. now right.
    + exists "_"%char, (c :: r). split; [reflexivity|]. split; [now right|exact A].
Qed.
Theorem C287_same_partial : forall c r, is_alpha c = true -> (forall d, In d r -> in_name d) -> to_python_identifier (c :: r) = c :: r.
Proof.
  intros c r L A. assert (P : forall d, in_name d -> python_char (if Ascii.eqb d "-" || Ascii.eqb d " " then "_"%char else d) = d).
  { intros d [D| ->]; [|reflexivity]. destruct (Ascii.eqb d "-") eqn:E1; [apply Ascii.eqb_eq in E1; subst d; discriminate|]. destruct (Ascii.eqb d " ") eqn:E2; [apply Ascii.eqb_eq in E2; subst d; discriminate|]. cbn [orb]. unfold python_char. now rewrite D. }
  unfold to_python_identifier. cbn [map]. rewrite (P c) by (left; unfold is_alnum; now rewrite L). rewrite L. cbn [negb]. f_equal. induction r as [|d r IH]; [reflexivity|]. cbn [map]. rewrite P by (apply A; now left). f_equal. apply IH. intros e I. apply A. now right.
Qed.
Theorem C287_length : forall s, length s <= length (to_python_identifier s) <= S (length s).
Proof. intros s. unfold to_python_identifier. destruct (match map python_char _ with [] => true | _ => _ end); [rewrite app_length|]; rewrite !map_length; cbn [length]; [change (length (T "_")) with 1|]; lia. Qed.
Example C287_example : to_python_identifier (T "my-tool 2.0") = T "my_tool_2_0" /\ to_python_identifier (T "2to3") = T "_2to3" /\ identifier (T "_2to3").
Proof. split; [reflexivity|]. split; [reflexivity|]. apply valid_iff. reflexivity. Qed.
(** an identifier that starts with an underscore is changed, every time again *)
Theorem C287_same_refuted : forall r, (forall d, In d r -> in_name d) -> identifier ("_"%char :: r) /\ to_python_identifier ("_"%char :: r) = "_"%char :: "_"%char :: r.
Proof.
  intros r A. split; [exists "_"%char, r; split; [reflexivity|]; split; [now right|exact A]|]. pose proof (C287_same_partial "a"%char r eq_refl A) as H. unfold to_python_identifier in *. cbn [map] in *. 
  change (python_char (if Ascii.eqb "_" "-" || Ascii.eqb "_" " " then "_"%char else "_"%char)) with "_"%char. change (is_alpha "_") with false. cbn [negb]. change (T "_") with ["_"%char]. cbn [app]. f_equal. f_equal.
  change (python_char (if Ascii.eqb "a" "-" || Ascii.eqb "a" " " then "_"%char else "a"%char)) with "a"%char in H. change (is_alpha "a") with true in H. cbn [negb] in H. congruence.
Qed.
Theorem C287_clash_refuted : exists a b, a <> b /\ to_python_identifier a = to_python_identifier b.
Proof. exists (T "a-b"), (T "a.b"). split; [discriminate|reflexivity]. Qed.
Print Assumptions C287_valid.
Print Assumptions C287_identifier.
Print Assumptions C287_same_partial.
Print Assumptions C287_length.
Print Assumptions C287_same_refuted.
Print Assumptions C287_clash_refuted.

(** ** C288: names of packages *)
Definition norm_char (c : ascii) : ascii := if Ascii.eqb (to_lower c) " " || Ascii.eqb (to_lower c) "-" then "_"%char else to_lower c.
Lemma normalize_map s : normalize_name s = map norm_char s.
Proof. unfold normalize_name. rewrite map_map. reflexivity. Qed.
Lemma norm_fixed c : norm_char (norm_char c) = norm_char c /\ is_upper (norm_char c) = false /\ norm_char c <> " "%char /\ norm_char c <> "-"%char.
Proof. destruct c as [[] [] [] [] [] [] [] []]; vm_compute; repeat split; discriminate. Qed.
Theorem C288_idempotent : forall s, normalize_name (normalize_name s) = normalize_name s.
Proof. intros s. rewrite !normalize_map, map_map. apply map_ext. intros c. apply norm_fixed. Qed.
Theorem C288_clean : forall s c, In c (normalize_name s) -> is_upper c = false /\ c <> " "%char /\ c <> "-"%char.
Proof. intros s c I. rewrite normalize_map in I. apply in_map_iff in I as (d & <- & _). apply norm_fixed. Qed.
Theorem C288_same : forall s, normalize_name s = s <-> forall c, In c s -> is_upper c = false /\ c <> " "%char /\ c <> "-"%char.
Proof.
  intros s. split; [intros E c I; rewrite <- E in I; exact (C288_clean s c I)|]. intros H. rewrite normalize_map. induction s as [|c s IH]; [reflexivity|]. cbn [map]. f_equal; [|apply IH; intros d I; apply H; now right].
  destruct (H c (or_introl eq_refl)) as (A & B & C). clear IH H. revert A B C. unfold norm_char, to_lower. intros ->. intros B C. apply Ascii.eqb_neq in B, C. now rewrite B, C.
Qed.
Theorem C288_equal : forall s t, normalize_name s = normalize_name t <-> Forall2 (fun c d => to_lower c = to_lower d \/ (In c (T " -_") /\ In d (T " -_"))) s t.
Proof.
  assert (K : forall c d, norm_char c = norm_char d <-> to_lower c = to_lower d \/ (In c (T " -_") /\ In d (T " -_"))).
  { assert (U : forall c, norm_char c = "_"%char <-> In c (T " -_")) by (intros c; destruct c as [[] [] [] [] [] [] [] []]; vm_compute; intuition discriminate).
    assert (W : forall c, norm_char c = to_lower c \/ norm_char c = "_"%char) by (intros c; unfold norm_char; destruct (_ || _); [now right|now left]).
    intros c d. split.
    - intros E. destruct (W c) as [A|A]; [|right; split; apply U; [exact A|congruence]]. destruct (W d) as [B|B]; [left; congruence|right; split; apply U; congruence].
    - intros [E|[A B]]; [unfold norm_char; now rewrite E|]. apply U in A, B. congruence. }
  intros s t. rewrite !normalize_map. revert t. induction s as [|c s IH]; intros [|d t]; cbn [map]; try (split; [discriminate|intros H; inversion H]); [split; [constructor|reflexivity]|]. split.
  - intros E. constructor; [apply K; congruence|]. apply IH. congruence.
  - intros H. inversion H; subst. f_equal; [now apply K|now apply IH].
Qed.
Example C288_example : normalize_name (T "My Package-Name") = T "my_package_name" /\ normalize_name (T "a-b") = normalize_name (T "A_B").
Proof. split; reflexivity. Qed.
Print Assumptions C288_idempotent.
Print Assumptions C288_clean.
Print Assumptions C288_same.
Print Assumptions C288_equal.

(** ** C289: durations *)
Lemma digit_not_ws s : forallb is_digit s = true -> forallb (fun c => negb (is_ws c)) s = true.
Proof. intros H. apply forallb_forall. intros c I. rewrite forallb_forall in H. apply H in I. revert I. clear. destruct c as [[] [] [] [] [] [] [] []]; vm_compute; congruence. Qed.
Lemma digit_lower s : forallb is_digit s = true -> map to_lower s = s.
Proof. induction s as [|c s IH]; [reflexivity|]. cbn [forallb map]. intros H. apply andb_true_iff in H as [A B]. rewrite IH by exact B. f_equal. revert A. clear. destruct c as [[] [] [] [] [] [] [] []]; vm_compute; congruence. Qed.
Lemma blank_forallb s : blanks s -> forallb is_ws s = true.
Proof. intros H. apply forallb_forall. exact H. Qed.
Lemma blank_lower s : blanks s -> map to_lower s = s.
Proof. induction s as [|c s IH]; [reflexivity|]. intros H. cbn [map]. rewrite IH by (intros d I; apply H; now right). f_equal. pose proof (H c (or_introl eq_refl)) as W. revert W. clear. destruct c as [[] [] [] [] [] [] [] []]; vm_compute; congruence. Qed.
Lemma parse_with_unit n b1 b2 b3 u k : blanks b1 -> blanks b2 -> blanks b3 -> In (u, k) units -> parse_duration (b1 ++ show_N n ++ b2 ++ [u] ++ b3) = times (show_N n ++ b2) k.
Proof.
  intros B1 B2 B3 U. destruct (show_N_spec n) as (_ & D & N). unfold parse_duration. rewrite trim_app_ws_l by now apply blank_forallb. rewrite !app_assoc. rewrite trim_app_ws_r by now apply blank_forallb.
  assert (W : is_ws u = false) by (cbn in U; repeat (destruct U as [[= <- <-]|U]; [reflexivity|]); destruct U).
  assert (E : trim ((show_N n ++ b2) ++ [u]) = (show_N n ++ b2) ++ [u]).
  { destruct (show_N n) as [|c r] eqn:S; [congruence|]. cbn [app]. apply trim_ends; [|exact W]. apply digit_not_ws in D. cbn [forallb] in D. apply andb_true_iff in D as [D _]. now apply negb_true_iff in D. }
  rewrite E. rewrite !map_app, digit_lower by exact D. rewrite (blank_lower b2 B2). rewrite rev_app_distr. cbn [map rev app]. rewrite <- rev_app_distr || idtac. cbn in U.
  repeat (destruct U as [[= <- <-]|U]; [cbn [Ascii.eqb]; rewrite rev_involutive; reflexivity|]). destruct U.
Qed.
Lemma times_show n b2 k : blanks b2 -> (n <= U64_MAX)%N -> times (show_N n ++ b2) k = if (n * k <=? U64_MAX)%N then Secs (n * k) else Overflow.
Proof.
  intros B L. unfold times. rewrite trim_app_ws_r by now apply blank_forallb. rewrite trim_no_ws by (apply digit_not_ws; apply show_N_spec). rewrite parse_u64_show by exact L. reflexivity.
Qed.
Theorem C289_units_partial : forall n b1 b2 b3 u k, blanks b1 -> blanks b2 -> blanks b3 -> In (u, k) units -> (n * k <= U64_MAX)%N -> parse_duration (b1 ++ show_N n ++ b2 ++ [u] ++ b3) = Secs (n * k).
Proof.
  intros n b1 b2 b3 u k B1 B2 B3 U L. rewrite (parse_with_unit n b1 b2 b3 u k B1 B2 B3 U). assert (K : (1 <= k)%N) by (cbn in U; repeat (destruct U as [[= <- <-]|U]; [lia|]); destruct U).
  rewrite times_show; [|exact B2|nia]. apply N.leb_le in L. now rewrite L.
Qed.
Theorem C289_number : forall n b1 b2, blanks b1 -> blanks b2 -> (n <= U64_MAX)%N -> parse_duration (b1 ++ show_N n ++ b2) = Secs n.
Proof.
  intros n b1 b2 B1 B2 L. destruct (show_N_spec n) as (_ & D & N). unfold parse_duration. rewrite trim_app_ws_l by now apply blank_forallb. rewrite trim_app_ws_r by now apply blank_forallb. rewrite trim_no_ws by now apply digit_not_ws. rewrite digit_lower by exact D.
  destruct (exists_last N) as (r & c & E). rewrite E at 1. rewrite rev_app_distr. cbn [rev app]. assert (C : is_digit c = true) by (rewrite forallb_forall in D; apply D; rewrite E; apply in_or_app; right; now left).
  rewrite parse_u64_show by exact L. destruct c as [[] [] [] [] [] [] [] []]; vm_compute in C; try discriminate C; reflexivity.
Qed.
Theorem C289_letters : forall s, (forall c, In c s -> is_digit c = false) -> parse_duration s = BadNumber.
Proof.
  intros s H. assert (Q : forall t : text, (forall c, In c t -> is_digit c = false) -> parse_u64 t = None).
  { intros t K. unfold parse_u64. destruct t as [|c t]; [reflexivity|]. destruct (Ascii.eqb c "+"); [destruct t as [|d t]; [reflexivity|]|]; cbn [forallb is_nil negb andb]; rewrite K by (cbn; tauto); rewrite ?andb_false_r; reflexivity. }
  assert (TS : forall t c, In c (trim t) -> In c t) by (intros t c I; destruct (trim_split t) as (u & v & _ & _ & E); rewrite E; apply in_or_app; right; apply in_or_app; now left).
  assert (LW : forall t : text, (forall c, In c t -> is_digit c = false) -> forall c, In c (map to_lower t) -> is_digit c = false) by (intros t K c I; apply in_map_iff in I as (d & <- & I); apply K in I; revert I; clear; destruct d as [[] [] [] [] [] [] [] []]; vm_compute; congruence).
  assert (A : forall c, In c (map to_lower (trim s)) -> is_digit c = false) by (apply LW; intros c I; apply H, TS, I).
  unfold parse_duration. destruct (rev (map to_lower (trim s))) as [|c r] eqn:R; [reflexivity|]. assert (B : forall d, In d (rev r) -> is_digit d = false) by (intros d I; apply A; apply in_rev; rewrite R; right; now apply in_rev).
  assert (X : forall k, times (rev r) k = BadNumber) by (intros k; unfold times; rewrite Q; [reflexivity|]; intros d I; apply B, TS, I). rewrite !X, Q by exact A. repeat destruct (Ascii.eqb _ _); reflexivity.
Qed.
Example C289_example : parse_duration (T " 90 M ") = Secs 5400 /\ parse_duration (T "2d") = Secs 172800 /\ parse_duration (T "45") = Secs 45 /\ parse_duration (T "fast") = BadNumber.
Proof. repeat split; vm_compute; reflexivity. Qed.
(** a number that is read but is too large in seconds overflows and is not refused *)
Theorem C289_overflow_refuted : (forall n u k, In (u, k) units -> (n <= U64_MAX)%N -> (U64_MAX < n * k)%N -> parse_duration (show_N n ++ [u]) = Overflow) /\ parse_duration (T "18446744073709551615m") = Overflow.
Proof.
  split; [|vm_compute; reflexivity]. intros n u k U L O. pose proof (parse_with_unit n [] [] [] u k (fun _ F => match F with end) (fun _ F => match F with end) (fun _ F => match F with end) U) as E. cbn [app] in E. rewrite E.
  rewrite times_show; [|intros ? []|exact L]. apply N.leb_gt in O. now rewrite O.
Qed.
Print Assumptions C289_units_partial.
Print Assumptions C289_number.
Print Assumptions C289_letters.
Print Assumptions C289_overflow_refuted.

(** ** C290: differences of times *)
Theorem C290_difference_partial : forall now t, (t <= now)%N -> exists n name u, In (name, u) spans /\ human_time_diff now t = show_N n ++ T " " ++ name ++ T " ago" /\ (n * u <= now - t < (n + 1) * u)%N /\
  (1 <= n \/ u = 1)%N /\ forall name' u', In (name', u') spans -> (u' <= now - t)%N -> (u' <= u)%N.
Proof.
  intros now t L. unfold human_time_diff. destruct (N.ltb_spec now t); [lia|]. set (d := (now - t)%N). clearbody d.
  assert (F : forall u, (u <> 0)%N -> ((d / u) * u <= d < (d / u + 1) * u)%N) by (intros u K; pose proof (N.div_mod d u K); pose proof (N.mod_lt d u K); nia).
  assert (G : forall u, (0 < u)%N -> (u <= d)%N -> (1 <= d / u)%N) by (intros u K J; apply N.div_le_lower_bound; lia).
  destruct (N.ltb_spec d 60); [exists d, (T "seconds"), 1%N; split; [cbn; tauto|]; split; [reflexivity|]; split; [lia|]; split; [now right|]; intros m u I J; cbn in I; repeat (destruct I as [[= <- <-]|I]; [lia|]); destruct I|].
  destruct (N.ltb_spec d 3600); [exists (d / 60)%N, (T "minutes"), 60%N; split; [cbn; tauto|]; split; [reflexivity|]; split; [apply F; lia|]; split; [left; apply G; lia|]; intros m u I J; cbn in I; repeat (destruct I as [[= <- <-]|I]; [lia|]); destruct I|].
  destruct (N.ltb_spec d 86400); [exists (d / 3600)%N, (T "hours"), 3600%N; split; [cbn; tauto|]; split; [reflexivity|]; split; [apply F; lia|]; split; [left; apply G; lia|]; intros m u I J; cbn in I; repeat (destruct I as [[= <- <-]|I]; [lia|]); destruct I|].
  destruct (N.ltb_spec d 604800); [exists (d / 86400)%N, (T "days"), 86400%N; split; [cbn; tauto|]; split; [reflexivity|]; split; [apply F; lia|]; split; [left; apply G; lia|]; intros m u I J; cbn in I; repeat (destruct I as [[= <- <-]|I]; [lia|]); destruct I|].
  destruct (N.ltb_spec d 2592000); [exists (d / 604800)%N, (T "weeks"), 604800%N; split; [cbn; tauto|]; split; [reflexivity|]; split; [apply F; lia|]; split; [left; apply G; lia|]; intros m u I J; cbn in I; repeat (destruct I as [[= <- <-]|I]; [lia|]); destruct I|].
  destruct (N.ltb_spec d 31536000); [exists (d / 2592000)%N, (T "months"), 2592000%N; split; [cbn; tauto|]; split; [reflexivity|]; split; [apply F; lia|]; split; [left; apply G; lia|]; intros m u I J; cbn in I; repeat (destruct I as [[= <- <-]|I]; [lia|]); destruct I|].
  exists (d / 31536000)%N, (T "years"), 31536000%N; split; [cbn; tauto|]; split; [reflexivity|]; split; [apply F; lia|]; split; [left; apply G; lia|]; intros m u I J; cbn in I; repeat (destruct I as [[= <- <-]|I]; [lia|]); destruct I.
Qed.
Theorem C290_future : forall now t, human_time_diff now t = T "in the future" <-> (now < t)%N.
Proof.
  intros now t. split; [|intros L; unfold human_time_diff; apply N.ltb_lt in L; now rewrite L]. intros E. destruct (N.lt_ge_cases now t) as [L|L]; [exact L|exfalso]. destruct (C290_difference_partial now t L) as (n & name & u & _ & K & _). rewrite E in K.
  destruct (show_N_spec n) as (_ & D & N). destruct (show_N n) as [|c r]; [congruence|]. cbn [app] in K. assert (C : c = "i"%char) by (apply (f_equal (fun s => hd "i"%char s)) in K; cbn in K; congruence). subst c. discriminate D.
Qed.
Example C290_example : human_time_diff 1000000 (1000000 - 7200) = T "2 hours ago" /\ human_time_diff 5 9 = T "in the future".
Proof. split; vm_compute; reflexivity. Qed.
(** twelve months are less than a year *)
Theorem C290_months_refuted : exists now t, (t <= now)%N /\ (now - t < 31536000)%N /\ human_time_diff now t = T "12 months ago" /\ human_time_diff 60 0 = T "1 minutes ago".
Proof. exists 31104000%N, 0%N. repeat split; vm_compute; congruence. Qed.
Print Assumptions C290_difference_partial.
Print Assumptions C290_future.
Print Assumptions C290_months_refuted.

(** ** C291: indenting *)
Lemma lined_lines ls : ls <> [] -> Forall whole_line ls -> Bundle_model.file_lines (lined ls) = ls.
Proof.
  intros N F. unfold Bundle_model.file_lines. change Rex_model.NL with "010"%char. assert (S : split_on "010" (lined ls) = ls).
  { induction F as [|l ls (_ & A & _) F IH]; [congruence|]. destruct ls as [|m ls]; [cbn [lined join]; now apply split_on_none|]. unfold lined in *. change (join ["010"%char] (l :: m :: ls)) with (l ++ ["010"%char] ++ join ["010"%char] (m :: ls)). cbn [app]. rewrite split_on_app by exact A. f_equal. apply IH. discriminate. }
  rewrite S. assert (E : is_nil (last ls []) = false).
  { destruct (exists_last N) as (r & l & ->). rewrite last_last. apply Forall_app in F as [_ F]. inversion F as [|? ? (A & _)]; subst. destruct l; [congruence|reflexivity]. }
  cbv zeta. rewrite E. clear S E N. induction F as [|l ls (_ & A & B) F IH]; [reflexivity|]. cbn [map]. rewrite IH. f_equal. apply Bind_text.chomp_line. split; [exact A|]. destruct (rev l) as [|c r] eqn:R; [exact I|]. intros ->. apply (B (rev r)). rewrite <- (rev_involutive l), R. reflexivity.
Qed.
Theorem C291_lines_partial : forall ls n, ls <> [] -> Forall whole_line ls -> indent (lined ls) n = lined (map (fun l => repeat " "%char n ++ l) ls).
Proof. intros ls n N F. unfold indent. rewrite lined_lines by assumption. reflexivity. Qed.
Theorem C291_zero_partial : forall ls, ls <> [] -> Forall whole_line ls -> indent (lined ls) 0 = lined ls.
Proof. intros ls N F. rewrite C291_lines_partial by assumption. f_equal. cbn [repeat app]. apply map_id. Qed.
Theorem C291_twice_partial : forall ls n m, ls <> [] -> Forall whole_line ls -> indent (indent (lined ls) n) m = indent (lined ls) (m + n).
Proof.
  intros ls n m N F. rewrite !(C291_lines_partial ls) by assumption. rewrite C291_lines_partial.
  - rewrite map_map. f_equal. apply map_ext. intros l. now rewrite repeat_app, app_assoc.
  - destruct ls; [congruence|discriminate].
  - rewrite Forall_forall in *. intros l I. apply in_map_iff in I as (k & <- & I). destruct (F k I) as (A & B & C). split; [destruct k; [congruence|destruct n; discriminate]|]. split.
    + intros K. apply in_app_or in K as [K|K]; [apply repeat_spec in K; discriminate|exact (B K)].
    + intros r E. destruct (exists_last A) as (k' & c & ->). rewrite app_assoc in E. apply app_inj_tail in E as [_ ->]. exact (C k' eq_refl).
Qed.
Example C291_example : indent (lined [T "a"; T "b c"]) 2 = lined [T "  a"; T "  b c"] /\ Forall whole_line [T "a"; T "b c"].
Proof.
  split; [vm_compute; reflexivity|]. repeat constructor; try discriminate; try (intros H; cbn in H; repeat (destruct H as [H|H]; [discriminate|]); exact H); intros r E; apply (f_equal (@rev ascii)) in E; rewrite rev_app_distr in E; discriminate E.
Qed.
(** the end of the last line is lost, and lines that end in the other way are changed *)
Theorem C291_end_refuted : forall ls n, ls <> [] -> Forall whole_line ls -> indent (lined ls ++ ["010"%char]) n = indent (lined ls) n.
Proof.
  intros ls n N F. unfold indent. f_equal. f_equal. rewrite lined_lines by assumption. assert (E : lined ls ++ ["010"%char] = Bind_spec.lines ls).
  { clear F n. induction ls as [|l ls IH]; [congruence|]. destruct ls as [|m ls]; [unfold Bind_spec.lines; cbn [flat_map lined join]; now rewrite app_nil_r|]. unfold lined in *. change (join ["010"%char] (l :: m :: ls)) with (l ++ ["010"%char] ++ join ["010"%char] (m :: ls)). rewrite <- !app_assoc. rewrite IH by discriminate. unfold Bind_spec.lines. cbn [flat_map]. now rewrite <- !app_assoc. }
  rewrite E. apply Bind_text.lines_of. intros l I. rewrite Forall_forall in F. destruct (F l I) as (_ & A & B). split; [exact A|]. destruct (rev l) as [|c r] eqn:R; [exact Logic.I|]. intros ->. apply (B (rev r)). rewrite <- (rev_involutive l), R. reflexivity.
Qed.
Print Assumptions C291_lines_partial.
Print Assumptions C291_zero_partial.
Print Assumptions C291_twice_partial.
Print Assumptions C291_end_refuted.

(** ** C292: lists of items *)
Theorem C292_list : forall l conj x y z, format_list [] conj = [] /\ format_list [x] conj = x /\ format_list [x; y] conj = x ++ T " " ++ conj ++ T " " ++ y /\
  format_list ((x :: y :: l) ++ [z]) conj = join (T ", ") (x :: y :: l) ++ T ", " ++ conj ++ T " " ++ z.
Proof.
  intros l conj x y z. split; [reflexivity|]. split; [reflexivity|]. split; [reflexivity|]. assert (R : forall m u, list_rest conj ((u :: m) ++ [z]) = T ", " ++ join (T ", ") (u :: m) ++ T ", " ++ conj ++ T " " ++ z).
  { induction m as [|v m IH]; intros u; [cbn [app list_rest join]; now rewrite ?app_assoc|]. change ((u :: v :: m) ++ [z]) with (u :: ((v :: m) ++ [z])). assert (S : list_rest conj (u :: ((v :: m) ++ [z])) = T ", " ++ u ++ list_rest conj ((v :: m) ++ [z])) by reflexivity. rewrite S, IH.
    change (join (T ", ") (u :: v :: m)) with (u ++ T ", " ++ join (T ", ") (v :: m)). now rewrite <- !app_assoc. }
  assert (S : format_list ((x :: y :: l) ++ [z]) conj = x ++ list_rest conj ((y :: l) ++ [z])) by (destruct l; reflexivity). rewrite S, R. change (join (T ", ") (x :: y :: l)) with (x ++ T ", " ++ join (T ", ") (y :: l)). now rewrite <- !app_assoc.
Qed.
Example C292_example : format_list [T "a"; T "b"; T "c"] (T "and") = T "a, b, and c" /\ format_list [T "a"; T "b"] (T "or") = T "a or b".
Proof. split; reflexivity. Qed.
Print Assumptions C292_list.
