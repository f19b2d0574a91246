(** Model of crates/rez-next-version/src/version.rs and parser.rs. *)
From Verif Require Import Base.

(** version.rs:15-24 [struct Version].  [cached_hash] is always [None] in the code and is
    dropped.  A separator is kept as text, as in the code. *)
Record version := mkVersion {
  v_tokens : list text;
  v_seps : list text;
  v_str : text
}.

(** version.rs:11 [TOKEN_REGEX] character class [a-zA-Z0-9_]; parser.rs:100-102
    [is_token_char] is the same set. *)
Definition is_token_char (c : ascii) : bool := is_alnum c || Ascii.eqb c "_".

(** version.rs:93 [TOKEN_REGEX.find_iter]: the maximal runs of token characters
    (leftmost, greedy).  [cur] is the run in progress, reversed. *)
Fixpoint scan_tokens (cur : text) (s : text) : list text :=
  match s with
  | [] => if is_nil cur then [] else [rev cur]
  | c :: s' =>
      if is_token_char c then scan_tokens (c :: cur) s'
      else if is_nil cur then scan_tokens [] s'
      else rev cur :: scan_tokens [] s'
  end.

(** version.rs:120 [TOKEN_REGEX.split]: the pieces between the matches, always one more
    piece than there are matches.  [cur] is the piece in progress, reversed. *)
Fixpoint scan_split (in_tok : bool) (cur : text) (s : text) : list text :=
  match s with
  | [] => [rev cur]
  | c :: s' =>
      if is_token_char c then
        if in_tok then scan_split true [] s'
        else rev cur :: scan_split true [] s'
      else scan_split false (c :: cur) s'
  end.

(** version.rs:105 [t.chars().all(|c| c.is_ascii_digit())] *)
Definition all_digit (t : text) : bool := forallb is_digit t.

(** version.rs:137 separators accepted by [matches!]: one of ". - _ +" (as one-char
    strings); 131: longer ones are rejected first. *)
Definition sep_ok (sep : text) : bool :=
  if (1 <? length sep) then false
  else text_eqb sep (T ".") || text_eqb sep (T "-") || text_eqb sep (T "_") || text_eqb sep (T "+").

(** version.rs:145-171 per-token validation *)
Definition token_ok (t : text) : bool :=
  if negb (forallb (fun c => is_alnum c || Ascii.eqb c "_") t) then false
  else if starts_with (T "_") t || ends_with (T "_") t then false
  else if forallb is_alpha t && (10 <? length t) then false
  else if text_eqb t (T "not") || text_eqb t (T "version") then false
  else true.

(** version.rs:174-177 [separators[1..separators.len()-1]] *)
Definition middle {A} (l : list A) : list A := removelast (tl l).

(** version.rs:78-183 [parse_internal_gil_free]; [None] is [Err]. *)
Definition parse_internal (s : text) : option (list text * list text) :=
  if starts_with (T "v") s || starts_with (T "V") s then None
  else if contains_text (T "..") s || starts_with (T ".") s || ends_with (T ".") s then None
  else
    let tokens := scan_tokens [] s in
    if is_nil tokens then None
    else if (5 <? length (filter all_digit tokens)) then None
    else if (10 <? length tokens) then None
    else
      let seps := scan_split false [] s in
      if negb (is_nil (hd [] seps)) || negb (is_nil (last seps [])) then None
      else if negb (forallb sep_ok (middle seps)) then None
      else if negb (forallb token_ok tokens) then None
      else Some (tokens, middle seps).

(** version.rs:187-194 [inf], 204-211 [empty] *)
Definition v_inf : version := mkVersion [] [] (T "inf").
(** version.rs:187-194, with the above *)
Definition v_empty : version := mkVersion [] [] [].

(** version.rs:273-300 [Version::parse] *)
Definition parse_version (s0 : text) : option version :=
  let s := trim s0 in
  if is_nil s then Some v_empty
  else if text_eqb s (T "inf") then Some v_inf
  else if text_eqb s (T "epsilon") then Some v_empty
  else match parse_internal s with
       | None => None
       | Some (ts, ss) => Some (mkVersion ts ss s)
       end.

(** version.rs:198-200 [is_inf], 220-222 [is_empty] *)
Definition is_inf (v : version) : bool := text_eqb (v_str v) (T "inf").
(** version.rs:198-200, with the above *)
Definition is_empty_v (v : version) : bool := is_nil (v_tokens v) && is_nil (v_str v).

(** version.rs:230-242 [major], [minor], [patch] *)
Definition nth_u64 (n : nat) (v : version) : option N :=
  match nth_error (v_tokens v) n with Some t => parse_u64 t | None => None end.
(** version.rs:230-242, with the above *)
Definition v_major := nth_u64 0.
(** version.rs:230-242, with the above *)
Definition v_minor := nth_u64 1.
(** version.rs:230-242, with the above *)
Definition v_patch := nth_u64 2.

(** version.rs:250-270 [is_prerelease] *)
Definition prerelease_words : list text :=
  [T "alpha"; T "beta"; T "rc"; T "dev"; T "pre"; T "snapshot"].
(** version.rs:250-270, with the above *)
Definition is_prerelease (v : version) : bool :=
  if is_empty_v v || is_inf v then false
  else existsb (fun t => existsb (fun w => contains_text w (map to_lower t)) prerelease_words)
               (v_tokens v).

(** version.rs:386-409 [split_token_segments]; [cur] reversed, [in_digits] as in the code. *)
Fixpoint split_segments (cur : text) (in_digits : bool) (s : text) : list text :=
  match s with
  | [] => if is_nil cur then [] else [rev cur]
  | c :: s' =>
      let d := is_digit c in
      if is_nil cur then split_segments [c] d s'
      else if Bool.eqb d in_digits then split_segments (c :: cur) in_digits s'
      else rev cur :: split_segments [c] d s'
  end.
(** version.rs:386-409, with the above *)
Definition token_segments (t : text) : list text := split_segments [] false t.

(** version.rs:365-376 comparison of one pair of segments *)
Definition compare_segment (s1 s2 : text) : comparison :=
  match parse_u64 s1, parse_u64 s2 with
  | Some n1, Some n2 => N.compare n1 n2
  | None, None => text_cmp s1 s2
  | None, Some _ => Lt
  | Some _, None => Gt
  end.

(** version.rs:364-381 the zip loop and the final length comparison *)
Fixpoint compare_segments (l1 l2 : list text) : comparison :=
  match l1, l2 with
  | s1 :: l1', s2 :: l2' =>
      match compare_segment s1 s2 with
      | Eq => compare_segments l1' l2'
      | r => r
      end
  | _, _ => Nat.compare (length l1) (length l2)
  end.

(** version.rs:344-345 [all(is_alphabetic || '_')] *)
Definition all_alpha (t : text) : bool := forallb (fun c => is_alpha c || Ascii.eqb c "_") t.

(** version.rs:333-382 [compare_single_token] *)
Definition compare_token (t1 t2 : text) : comparison :=
  match parse_i64 t1, parse_i64 t2 with
  | Some n1, Some n2 => Z.compare n1 n2
  | _, _ =>
      if text_eqb t1 t2 then Eq
      else if all_alpha t1 && all_digit t2 then Lt
      else if all_digit t1 && all_alpha t2 then Gt
      else if all_alpha t1 && all_alpha t2 then text_cmp t1 t2
      else compare_segments (token_segments t1) (token_segments t2)
  end.

(** version.rs:417-473 [compare_token_strings].  The two branches on the first extra token
    (version.rs:440-449 and 460-470) return the same ordering, so they are merged. *)
Definition is_zero_tok (t : text) : bool := text_eqb t (T "0").
(** version.rs:417-473, with the above *)
Fixpoint compare_tokens (l1 l2 : list text) : comparison :=
  match l1, l2 with
  | t1 :: l1', t2 :: l2' =>
      match compare_token t1 t2 with
      | Eq => compare_tokens l1' l2'
      | r => r
      end
  | [], _ :: _ => if forallb is_zero_tok l2 then Eq else Gt
  | _ :: _, [] => if forallb is_zero_tok l1 then Eq else Lt
  | [], [] => Eq
  end.

(** version.rs:303-322 [compare_rez]; [Ord::cmp] 484-488 *)
Definition vcmp (a b : version) : comparison :=
  match is_inf a, is_inf b with
  | true, true => Eq
  | true, false => Gt
  | false, true => Lt
  | false, false =>
      match is_empty_v a, is_empty_v b with
      | true, true => Eq
      | true, false => Lt
      | false, true => Gt
      | false, false => compare_tokens (v_tokens a) (v_tokens b)
      end
  end.

(** version.rs:476-480 [PartialEq::eq] *)
Definition veq (a b : version) : bool := is_eq (vcmp a b).

(** version.rs:496-500 [Hash]: the data fed to the hasher is [string_repr] *)
Definition hash_input (v : version) : text := v_str v.

(** version.rs:63-72 [has_prefix] *)
Fixpoint zip_all_eq (l1 l2 : list text) : bool :=
  match l1, l2 with
  | t1 :: l1', t2 :: l2' => is_eq (compare_token t1 t2) && zip_all_eq l1' l2'
  | _, _ => true
  end.
(** version.rs:63-72, with the above *)
Definition has_prefix (v p : version) : bool :=
  (length (v_tokens p) <=? length (v_tokens v)) && zip_all_eq (v_tokens v) (v_tokens p).

(** version.rs:26-33 Serialize writes [string_repr]; 41-49 Deserialize parses it. *)
Definition v_serialize (v : version) : text := v_str v.
(** version.rs:26-33, with the above *)
Definition v_deserialize (s : text) : option version := parse_version s.

(** ** parser.rs: the state-machine tokenizer *)

(** parser.rs:16-20 [TokenType]; [Separator] is never produced *)
Inductive sm_token := Numeric (n : N) | Alphanumeric (s : text).

(** parser.rs:24-28 [ParseState] *)
Inductive sm_state := Start | InToken | InSeparator.

(** parser.rs:95-97 [is_valid_separator] *)
Definition sm_sep (c : ascii) : bool :=
  Ascii.eqb c "." || Ascii.eqb c "-" || Ascii.eqb c "_" || Ascii.eqb c "+".

(** parser.rs:203-252 [finalize_token] on the completed token; [None] is [Err].
    [intern_string] (62-92) returns a string equal to its argument on every path, so it is
    the identity here. *)
Definition sm_finalize (t : text) : option sm_token :=
  if is_nil t then None
  else if starts_with (T "_") t || ends_with (T "_") t then None
  else if text_eqb t (T "not") || text_eqb t (T "version") then None
  else if forallb is_alpha t && (10 <? length t) then None
  else if forallb is_digit t then
    match parse_u64 t with Some n => Some (Numeric n) | None => Some (Alphanumeric t) end
  else Some (Alphanumeric t).

(** parser.rs:203-252, with the above *)
Definition is_numeric_tok (t : sm_token) : bool := match t with Numeric _ => true | _ => false end.

(** parser.rs:124-180 the main loop; [cur] is [current_token] reversed; tokens and
    separators are returned in order. *)
Fixpoint sm_loop (st : sm_state) (cur : text) (s : text) : option (list sm_token * list ascii) :=
  match s with
  | [] =>
      match st with
      | InToken => if is_nil cur then Some ([], [])
                   else match sm_finalize (rev cur) with Some t => Some ([t], []) | None => None end
      | InSeparator => None
      | Start => Some ([], [])
      end
  | c :: s' =>
      match st with
      | Start => if is_token_char c then sm_loop InToken (c :: cur) s' else None
      | InToken =>
          if is_token_char c then sm_loop InToken (c :: cur) s'
          else if sm_sep c then
            match sm_finalize (rev cur), sm_loop InSeparator [] s' with
            | Some t, Some (ts, cs) => Some (t :: ts, c :: cs)
            | _, _ => None
            end
          else None
      | InSeparator => if is_token_char c then sm_loop InToken (c :: cur) s' else None
      end
  end.

(** parser.rs:107-199 [parse_tokens] *)
Definition sm_parse (max_tokens max_numeric : nat) (input : text) : option (list sm_token * list ascii) :=
  if is_nil input then Some ([], [])
  else match sm_loop Start [] input with
       | None => None
       | Some (ts, cs) =>
           if (max_tokens <? length ts) then None
           else if (max_numeric <? length (filter is_numeric_tok ts)) then None
           else Some (ts, cs)
       end.
