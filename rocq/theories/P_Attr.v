(** C301-C306: data written as Python code and as a block of YAML. *)
From Verif Require Import Base Base_lemmas Text_lemmas Maps Sorting Json Attr_model Attr_spec Attr_proofs.
From Verif Require Rex_model Rex_proofs Bundle_model Bind_text Util_spec Range_compat.
From Coq Require Import Lia Permutation.
Open Scope string_scope. Open Scope list_scope.

(** ** C301: texts *)
Theorem C301_text_partial : forall s rest, readable s -> hd_error rest <> Some "039"%char -> py_text (py_string s ++ rest) = Some (s, rest).
Proof. exact py_string_reads. Qed.
Lemma short_escape q a b rest : q <> "010"%char -> q <> "092"%char -> q <> "n"%char -> ~ In q (a ++ b) -> ~ In "010"%char (a ++ b) -> ~ In "013"%char (a ++ b) -> ~ In "092"%char (a ++ b) ->
  short_rest q ((a ++ "092"%char :: "n"%char :: b) ++ q :: rest) = Some (a ++ "010"%char :: b, rest).
Proof.
  intros N1 N2 N3. induction a as [|c a IH]; intros A B C D; cbn [app] in *.
  - cbn [short_rest]. destruct (Ascii.eqb_spec "092" q); [congruence|]. change (Ascii.eqb "092" "010" || Ascii.eqb "092" "013") with false. change (Ascii.eqb "092" "092") with true. cbv iota. change (escaped "n") with (Some "010"%char). cbv iota. rewrite short_reads by assumption. reflexivity.
  - cbn [short_rest]. cbn [In] in *. destruct (Ascii.eqb_spec c q) as [->|_]; [tauto|]. destruct (Ascii.eqb_spec c "010") as [->|_]; [tauto|]. destruct (Ascii.eqb_spec c "013") as [->|_]; [tauto|]. destruct (Ascii.eqb_spec c "092") as [->|_]; [tauto|]. cbn [orb]. rewrite IH by tauto. reflexivity.
Qed.
(** a backslash is not escaped: one before the letter n becomes a line feed *)
Theorem C301_backslash_refuted : forall a b, (forall c, In c (a ++ b) -> is_alnum c = true) -> py_text (py_string (a ++ "092"%char :: "n"%char :: b)) = Some (a ++ "010"%char :: b, []).
Proof.
  intros a b H. assert (K : forall c, is_alnum c = false -> ~ In c (a ++ b)) by (intros c E I; apply H in I; congruence).
  assert (M : forall c, is_alnum c = false -> c <> "092"%char -> ~ In c (a ++ "092"%char :: "n"%char :: b)).
  { intros c E N I. apply in_app_iff in I. destruct I as [I|[I|[I|I]]]; [apply (K c E), in_or_app; now left|congruence|subst c; discriminate|apply (K c E), in_or_app; now right]. }
  unfold py_string. destruct (existsb (Ascii.eqb "010") (a ++ "092"%char :: "n"%char :: b)) eqn:E1; [apply has_in in E1; now apply M in E1|]. destruct (existsb (Ascii.eqb Q) (a ++ "092"%char :: "n"%char :: b)) eqn:E2; [apply has_in in E2; now apply M in E2|]. cbn [andb].
  rewrite no_quote by (apply M; [reflexivity|discriminate]). unfold py_text. cbn [app].
  assert (W : starts_with ["039"%char; "039"%char; "039"%char] (Q :: (a ++ "092"%char :: "n"%char :: b) ++ [Q]) = false).
  { cbn [starts_with]. change (Ascii.eqb "039" Q) with true. cbn [andb]. destruct a as [|x a]; [reflexivity|]. cbn [app starts_with]. destruct (Ascii.eqb_spec "039" x) as [<-|]; [exfalso; apply (K "039"%char eq_refl); now left|reflexivity]. }
  rewrite W. change (Ascii.eqb Q "039") with true. cbv iota. apply short_escape; try discriminate; apply K; reflexivity.
Qed.
(** a text with both quotes that ends in a single one cannot be read *)
Theorem C301_quote_refuted : forall a b, (forall c, In c (a ++ b) -> is_alnum c = true) -> let s := a ++ "034"%char :: b ++ ["039"%char] in py_text (py_string s) = Some (a ++ "034"%char :: b, ["039"%char]).
Proof.
  intros a b H s. assert (K : forall c, is_alnum c = false -> ~ In c (a ++ b)) by (intros c E I; apply H in I; congruence).
  assert (M : forall c, is_alnum c = false -> c <> "034"%char -> ~ In c (a ++ "034"%char :: b)) by (intros c E N I; apply in_app_iff in I; destruct I as [I|[I|I]]; [apply (K c E), in_or_app; now left|congruence|apply (K c E), in_or_app; now right]).
  assert (S1 : s = (a ++ "034"%char :: b) ++ [Q]) by (unfold s; rewrite <- app_assoc; reflexivity). rewrite S1. remember (a ++ "034"%char :: b) as u eqn:U. clear S1 s.
  assert (Du : In "034"%char u) by (subst u; apply in_or_app; right; now left).
  unfold py_string. destruct (existsb (Ascii.eqb "010") (u ++ [Q])) eqn:E1; [apply has_in, in_app_iff in E1; destruct E1 as [E1|[E1|[]]]; [now apply M in E1|discriminate]|].
  replace (existsb (Ascii.eqb Q) (u ++ [Q])) with true by (symmetry; apply has_in, in_or_app; right; now left). replace (existsb (Ascii.eqb "034") (u ++ [Q])) with true by (symmetry; apply has_in, in_or_app; now left). cbn [andb].
  assert (R : Rex_model.replace [Q; Q; Q] ["092"%char; Q; "092"%char; Q; "092"%char; Q] (u ++ [Q]) = u ++ [Q]).
  { assert (NQ : ~ In Q u) by (apply M; [reflexivity|discriminate]). clear - NQ. induction u as [|c u IH]; [reflexivity|]. cbn [app In] in *. rewrite Rex_proofs.replace_miss; [f_equal; apply IH; tauto|]. cbn [starts_with]. destruct (Ascii.eqb_spec Q c) as [<-|]; [tauto|reflexivity]. }
  unfold long_text. rewrite R. unfold py_text. change (starts_with ["039"%char; "039"%char; "039"%char] ([Q; Q; Q] ++ (u ++ [Q]) ++ [Q; Q; Q])) with true. cbv iota. change (skipn 3 ([Q; Q; Q] ++ ?x)) with x. rewrite <- app_assoc. cbn [app].
  assert (N1 : ~ In Q u) by (apply M; [reflexivity|discriminate]). assert (N2 : ~ In "013"%char u) by (apply M; [reflexivity|discriminate]). assert (N3 : ~ In "092"%char u) by (apply M; [reflexivity|discriminate]). clear - N1 N2 N3.
  induction u as [|c u IH]; [reflexivity|]. cbn [app In] in *. rewrite long_step; [rewrite IH by tauto; reflexivity| |intros ->; tauto|intros ->; tauto]. unfold QQQ. cbn [starts_with]. destruct (Ascii.eqb_spec Q c) as [<-|]; [tauto|reflexivity].
Qed.
Example C301_example : py_string (T "maya-2024") = ["039"%char] ++ T "maya-2024" ++ ["039"%char] /\ py_string (T "it's") = ["034"%char] ++ T "it's" ++ ["034"%char] /\ readable (T "it's") /\ py_text (py_string (T "C:\new")) = Some (T "C:" ++ ["010"%char] ++ T "ew", []).
Proof. split; [reflexivity|]. split; [reflexivity|]. split; [|reflexivity]. split; [cbn; intuition discriminate|]. split; [cbn; intuition discriminate|]. intros [H|[_ H]]; exfalso; cbn in H; intuition discriminate. Qed.

(** ** C302: attributes *)
(** an assignment with a comma at the end of its line is one of a tuple *)
Definition tuple_line (k c t : text) : Prop := exists a b, t = a ++ k ++ T " = " ++ c ++ ","%char :: "010"%char :: b.
Theorem C302_one_partial : forall k v, attributes_code (JObj [(k, v)]) = T "# -*- coding: utf-8 -*-" ++ ["010"%char] ++ T "# Rez package definition" ++ ["010"%char; "010"%char] ++ k ++ T " = " ++ py_code 0 v.
Proof. reflexivity. Qed.
Lemma join_comma ls x y r : exists b, join comma (ls ++ x :: y :: r) = join comma (ls ++ [[]]) ++ x ++ ","%char :: "010"%char :: b.
Proof.
  induction ls as [|l ls IH].
  - exists (join comma (y :: r)). reflexivity.
  - destruct IH as (b & IH). exists b. destruct ls as [|l2 ls]; cbn [app] in *.
    + change (join comma (l :: x :: y :: r)) with (l ++ comma ++ join comma (x :: y :: r)). rewrite IH. change (join comma [l; []]) with (l ++ comma ++ []). rewrite app_nil_r, <- !app_assoc. reflexivity.
    + change (join comma (l :: l2 :: ls ++ x :: y :: r)) with (l ++ comma ++ join comma (l2 :: ls ++ x :: y :: r)). change (join comma (l :: l2 :: ls ++ [[]])) with (l ++ comma ++ join comma (l2 :: ls ++ [[]])). rewrite IH, <- !app_assoc. reflexivity.
Qed.
(** with more than one, every attribute but the last is written as a tuple *)
Theorem C302_tuple_refuted : forall m, exists es, Permutation es m /\ forall a e b, es = a ++ e :: b -> b <> [] -> tuple_line (fst e) (py_code 0 (snd e)) (attributes_code (JObj m)).
Proof.
  intros m. exists (sort_by by_key m). split; [apply sort_perm|]. intros a e b E N. unfold attributes_code. rewrite object_code, E, map_app. destruct b as [|f b]; [congruence|]. cbn [map]. destruct (join_comma (map (line 0) a) (line 0 e) (line 0 f) (map (line 0) b)) as (r & J). rewrite J.
  exists (T "# -*- coding: utf-8 -*-" ++ ["010"%char] ++ T "# Rez package definition" ++ ["010"%char; "010"%char] ++ join comma (map (line 0) a ++ [[]])), r. unfold line at 2. cbn [blanks repeat]. rewrite <- !app_assoc. reflexivity.
Qed.
Example C302_example : py_code 0 (JObj [(T "version", JStr (T "1")); (T "name", JStr (T "a"))]) = T "name = 'a'," ++ ["010"%char] ++ T "version = '1'".
Proof. reflexivity. Qed.

(** ** C303: the order of the keys *)
Theorem C303_order : forall n m, exists es, Permutation es m /\ (forall a x b y c, map fst es = a ++ x :: b ++ y :: c -> before key_order x y) /\
  py_code n (JObj m) = join comma (map (fun e => blanks n ++ fst e ++ T " = " ++ py_code n (snd e)) es).
Proof.
  intros n m. exists (sort_by by_key m). split; [apply sort_perm|]. split; [|apply object_code]. intros a x b y c H. apply key_before.
  assert (S := sort_sorted by_key (fun _ => True) TPO_by_key m ltac:(apply Forall_forall; auto)). apply map_eq_app in H as (l1 & r1 & E & <- & H). symmetry in H. destruct r1 as [|e r1]; [discriminate|]. cbn [map] in H. assert (fst e = x) by congruence. assert (H2 : map fst r1 = b ++ y :: c) by congruence. apply map_eq_app in H2 as (l2 & r2 & -> & <- & H3). destruct r2 as [|f r2]; [discriminate|]. cbn [map] in H3. assert (fst f = y) by congruence. subst x y. exact (S l1 e l2 f r2 E).
Qed.
Theorem C303_same : forall n m m', NoDup (map fst m) -> Permutation m m' -> py_code n (JObj m) = py_code n (JObj m').
Proof. intros n m m' N P. rewrite !object_code. now rewrite (sorted_unique m m' N P). Qed.
Theorem C303_standard : NoDup key_order /\ hd_error key_order = Some (T "name") /\ length key_order = 29.
Proof.
  split; [|split; reflexivity]. assert (D : forall l, (fix nd (l : list text) : bool := match l with [] => true | x :: r => negb (mem_text x r) && nd r end) l = true -> NoDup l).
  { induction l as [|x l IH]; intros H; constructor; apply andb_true_iff in H as [A B]; [|apply IH, B]. intros K. apply mem_text_In in K. rewrite K in A. discriminate. }
  apply D. vm_compute. reflexivity.
Qed.
Example C303_example : py_code 0 (JObj [(T "zeta", JNull); (T "alpha", JNull); (T "version", JNull); (T "name", JNull)]) = join comma [T "name = None"; T "version = None"; T "alpha = None"; T "zeta = None"].
Proof. reflexivity. Qed.

(** ** C304: objects in objects *)
(** they become further assignments: the outer name gets the inner value *)
Theorem C304_nested_refuted : forall k a v, py_code 0 (JObj [(k, JObj [(a, v)])]) = k ++ T " = " ++ a ++ T " = " ++ py_code 0 v.
Proof. intros. reflexivity. Qed.
(** and an empty one becomes nothing *)
Theorem C304_empty_refuted : forall k, py_code 0 (JObj [(k, JObj [])]) = k ++ T " = ".
Proof. intros k. cbn [py_code map sort_by insert_by join blanks repeat app fst snd]. reflexivity. Qed.
(** a list with such an object is the same as one with the assignments as items *)
Theorem C304_list_refuted : forall n a v, py_code n (JArr [JObj [(a, v)]]) = ["["%char; "010"%char] ++ (blanks n ++ T "    " ++ blanks (n + 4) ++ a ++ T " = " ++ py_code (n + 4) v) ++ "010"%char :: blanks n ++ T "]".
Proof. intros n a v. cbn [py_code map sort_by insert_by join fst snd]. rewrite <- !app_assoc. reflexivity. Qed.
Example C304_example : py_code 0 (JObj [(T "config", JObj [(T "release_packages_path", JNum 1)])]) = T "config = release_packages_path = 1".
Proof. reflexivity. Qed.

(** ** C305: values *)
Theorem C305_value_partial : forall v n, simple v -> denotes (py_code n v) v.
Proof. intros v n H. now apply code_denotes. Qed.
Example C305_example : simple (JArr [JStr (T "python-3"); JArr []; JNum (-5); JBool true; JNull]) /\
  py_code 0 (JArr [JStr (T "a"); JNum (-5)]) = ["["%char; "010"%char] ++ T "    'a'," ++ ["010"%char] ++ T "    -5" ++ ["010"%char] ++ T "]".
Proof.
  split; [|reflexivity]. assert (R : readable (T "python-3")).
  { split; [cbn; intuition discriminate|]. split; [cbn; intuition discriminate|]. intros [H|[H _]]; exfalso; cbn in H; intuition discriminate. }
  cbn [simple]. tauto.
Qed.

(** ** C306: blocks *)
Definition a_line (l : text) : Prop := ~ In "010"%char l /\ forall r, l <> r ++ ["013"%char].
Lemma chomp_a l : a_line l -> Bundle_model.chomp l = l.
Proof. intros [A B]. apply Bind_text.chomp_line. split; [exact A|]. destruct (rev l) as [|c r] eqn:R; [exact I|]. intros E. apply (B (rev r)). rewrite <- (rev_involutive l), R, E. reflexivity. Qed.
Lemma map_chomp ls : Forall a_line ls -> map Bundle_model.chomp ls = ls.
Proof. induction 1 as [|l ls A F IH]; [reflexivity|]. cbn [map]. now rewrite IH, chomp_a. Qed.
Lemma split_lines ls : ls <> [] -> Forall a_line ls -> split_on "010" (join ["010"%char] ls) = ls.
Proof.
  intros N F. induction F as [|l ls (A & _) F IH]; [congruence|]. destruct ls as [|m ls]; [cbn [join]; now apply split_on_none|]. change (join ["010"%char] (l :: m :: ls)) with (l ++ ["010"%char] ++ join ["010"%char] (m :: ls)). cbn [app]. rewrite split_on_app by exact A. f_equal. apply IH. discriminate.
Qed.
Lemma lines_join ls : ls <> [] -> Forall a_line ls -> last ls [] <> [] -> Bundle_model.file_lines (join ["010"%char] ls) = ls.
Proof.
  intros N F L. unfold Bundle_model.file_lines. change Rex_model.NL with "010"%char. rewrite split_lines by assumption. cbv zeta. destruct (last ls []) eqn:E; [congruence|]. cbn [is_nil]. now apply map_chomp.
Qed.
Lemma join_snoc ls : ls <> [] -> join ["010"%char] (ls ++ [[]]) = join ["010"%char] ls ++ ["010"%char].
Proof.
  induction ls as [|l ls IH]; intros N; [congruence|]. destruct ls as [|m ls]; [reflexivity|]. cbn [app] in *. change (join ["010"%char] (l :: m :: ls ++ [[]])) with (l ++ ["010"%char] ++ join ["010"%char] (m :: ls ++ [[]])). rewrite IH by discriminate. change (join ["010"%char] (l :: m :: ls)) with (l ++ ["010"%char] ++ join ["010"%char] (m :: ls)). now rewrite <- !app_assoc.
Qed.
Lemma lines_ended ls : ls <> [] -> Forall a_line ls -> Bundle_model.file_lines (join ["010"%char] ls ++ ["010"%char]) = ls.
Proof.
  intros N F. rewrite <- join_snoc by exact N. unfold Bundle_model.file_lines. change Rex_model.NL with "010"%char. rewrite split_lines; [|destruct ls; discriminate|apply Forall_app; split; [assumption|constructor; [split; [intros []|intros r E; now destruct r]|constructor]]].
  cbv zeta. rewrite last_last. cbn [is_nil]. rewrite removelast_last. now apply map_chomp.
Qed.
Theorem C306_line_partial : forall l n, a_line l -> l <> [] -> ~ In "039"%char l -> yaml_quoted (as_block_string l n) = Some l.
Proof.
  intros l n A N H. unfold as_block_string. change l with (join ["010"%char] [l]) at 1. rewrite lines_join; [|discriminate|now constructor|exact N]. cbn [app yaml_quoted]. change (Ascii.eqb Q "039") with true. cbv iota. clear N A. induction l as [|c l IH]; [reflexivity|]. cbn [app yaml_rest In] in *. destruct (Ascii.eqb_spec c "039") as [->|_]; [tauto|]. rewrite IH by tauto. reflexivity.
Qed.
(** the lines come one after another, moved by the blanks unless they are empty *)
Theorem C306_block_partial : forall l ls n, Forall a_line (l :: ls) -> ls <> [] ->
  as_block_string (join ["010"%char] (l :: ls) ++ ["010"%char]) n = ["|"%char; "010"%char] ++ flat_map (fun k => (if is_nil k then [] else repeat " "%char n ++ k) ++ ["010"%char]) (l :: ls).
Proof.
  intros l ls n F N. unfold as_block_string. rewrite lines_ended by (discriminate || assumption). destruct ls as [|m ls]; [congruence|]. f_equal. apply flat_map_ext. intros k. destruct k; [reflexivity|]. unfold block_line, blanks. cbn [is_nil]. now rewrite <- app_assoc.
Qed.
(** a single quote ends the text too early *)
Theorem C306_quote_refuted : forall a c b n, a_line (a ++ "039"%char :: c :: b) -> ~ In "039"%char a -> c <> "039"%char -> yaml_quoted (as_block_string (a ++ "039"%char :: c :: b) n) = None.
Proof.
  intros a c b n A H N. unfold as_block_string. change (a ++ "039"%char :: c :: b) with (join ["010"%char] [a ++ "039"%char :: c :: b]) at 1. rewrite lines_join; [|discriminate|now constructor|destruct a; discriminate]. cbn [app yaml_quoted]. change (Ascii.eqb Q "039") with true. cbv iota. clear A. induction a as [|x a IH].
  - cbn [app yaml_rest]. change (Ascii.eqb "039" "039") with true. cbv iota. destruct (Ascii.eqb_spec c "039"); [contradiction|reflexivity].
  - cbn [app yaml_rest In] in *. destruct (Ascii.eqb_spec x "039") as [->|_]; [tauto|]. rewrite IH by tauto. reflexivity.
Qed.
(** whether there is a line feed at the end is lost *)
Theorem C306_end_refuted : forall ls n, ls <> [] -> Forall a_line ls -> last ls [] <> [] -> as_block_string (join ["010"%char] ls ++ ["010"%char]) n = as_block_string (join ["010"%char] ls) n.
Proof. intros ls n N F L. unfold as_block_string. now rewrite lines_ended, lines_join by assumption. Qed.
Example C306_example : as_block_string (join ["010"%char] [T "a"; []; T "b"]) 2 = ["|"%char; "010"%char] ++ T "  a" ++ ["010"%char; "010"%char] ++ T "  b" ++ ["010"%char] /\ as_block_string (T "hi") 0 = T "'hi'" /\ yaml_quoted (as_block_string (T "it's") 0) = None.
Proof. repeat match goal with |- _ /\ _ => split end; reflexivity. Qed.
Print Assumptions C301_text_partial.
Print Assumptions C301_backslash_refuted.
Print Assumptions C301_quote_refuted.
Print Assumptions C302_one_partial.
Print Assumptions C302_tuple_refuted.
Print Assumptions C303_order.
Print Assumptions C303_same.
Print Assumptions C303_standard.
Print Assumptions C304_nested_refuted.
Print Assumptions C304_empty_refuted.
Print Assumptions C304_list_refuted.
Print Assumptions C305_value_partial.
Print Assumptions C306_line_partial.
Print Assumptions C306_block_partial.
Print Assumptions C306_quote_refuted.
Print Assumptions C306_end_refuted.
