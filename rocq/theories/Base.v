(** Text, characters, comparisons: shared vocabulary of the models.
    Models of the Rust standard library functions used by the code
    ([char::is_ascii_digit], [str::trim], [str::cmp], [str::parse::<u64>] ...).
    Text is a list of bytes; see DESIGN.md for what this leaves out. *)
From Coq Require Export Ascii String.
From Coq Require Export List Bool Arith NArith ZArith Lia Permutation.
Export ListNotations.
#[global] Open Scope list_scope.
#[global] Open Scope bool_scope.
#[global] Arguments N.add : simpl never.
#[global] Arguments N.mul : simpl never.
#[global] Arguments N.leb : simpl never.
#[global] Arguments N.ltb : simpl never.
#[global] Arguments N.eqb : simpl never.
#[global] Arguments N.compare : simpl never.

(* String shadows these list names; restore them. *)
Notation length := Datatypes.length.
Notation concat := List.concat.

Definition text := list ascii.
(** literal notation: [T "1.2"] *)
Definition T (s : string) : text := list_ascii_of_string s.

Definition code (c : ascii) : N := N_of_ascii c.
Definition in_codes (lo hi : N) (c : ascii) : bool := (lo <=? code c)%N && (code c <=? hi)%N.

(** [char::is_ascii_digit] *)
Definition is_digit (c : ascii) : bool := in_codes 48 57 c.
(** [char::is_ascii_lowercase] *)
Definition is_lower (c : ascii) : bool := in_codes 97 122 c.
(** [char::is_ascii_uppercase] *)
Definition is_upper (c : ascii) : bool := in_codes 65 90 c.
(** [char::is_alphabetic] restricted to ASCII *)
Definition is_alpha (c : ascii) : bool := is_lower c || is_upper c.
(** [char::is_alphanumeric] restricted to ASCII *)
Definition is_alnum (c : ascii) : bool := is_alpha c || is_digit c.
(** [char::is_whitespace] restricted to ASCII (U+0009..U+000D, U+0020) *)
Definition is_ws (c : ascii) : bool := in_codes 9 13 c || (code c =? 32)%N.

(** [char::to_ascii_lowercase] *)
Definition to_lower (c : ascii) : ascii :=
  if is_upper c then ascii_of_N (code c + 32) else c.
(** [char::to_ascii_uppercase] *)
Definition to_upper (c : ascii) : ascii :=
  if is_lower c then ascii_of_N (code c - 32) else c.

(** [String == String] *)
Fixpoint text_eqb (a b : text) : bool :=
  match a, b with
  | [], [] => true
  | x :: a', y :: b' => Ascii.eqb x y && text_eqb a' b'
  | _, _ => false
  end.

(** [str::cmp]: byte-wise lexicographic *)
Fixpoint text_cmp (a b : text) : comparison :=
  match a, b with
  | [], [] => Eq
  | [], _ :: _ => Lt
  | _ :: _, [] => Gt
  | x :: a', y :: b' =>
      match N.compare (code x) (code y) with
      | Eq => text_cmp a' b'
      | r => r
      end
  end.

(** [str::starts_with] for a string pattern *)
Fixpoint starts_with (p s : text) : bool :=
  match p, s with
  | [], _ => true
  | c :: p', d :: s' => Ascii.eqb c d && starts_with p' s'
  | _ :: _, [] => false
  end.

(** [str::ends_with] for a string pattern *)
Definition ends_with (p s : text) : bool := starts_with (rev p) (rev s).

(** [str::contains] for a string pattern *)
Fixpoint contains_text (p s : text) : bool :=
  starts_with p s || match s with [] => false | _ :: s' => contains_text p s' end.

(** [str::trim_start] *)
Fixpoint trim_start (s : text) : text :=
  match s with
  | c :: s' => if is_ws c then trim_start s' else s
  | [] => []
  end.
(** [str::trim_end] *)
Definition trim_end (s : text) : text := rev (trim_start (rev s)).
(** [str::trim] *)
Definition trim (s : text) : text := trim_end (trim_start s).

(** [str::is_empty] *)
Definition is_nil {A} (l : list A) : bool := match l with [] => true | _ => false end.

(** [str::split(char)]: always at least one piece *)
Fixpoint split_on (sep : ascii) (s : text) : list text :=
  match s with
  | [] => [[]]
  | c :: s' =>
      if Ascii.eqb c sep then [] :: split_on sep s'
      else match split_on sep s' with
           | p :: ps => (c :: p) :: ps
           | [] => [[c]]
           end
  end.

(** [slice::join(sep)] *)
Fixpoint join (sep : text) (ps : list text) : text :=
  match ps with
  | [] => []
  | [p] => p
  | p :: ps' => p ++ sep ++ join sep ps'
  end.

(** value of a decimal digit string, most significant digit first *)
Definition digit_val (c : ascii) : N := (code c - 48)%N.
Definition digits_val (s : text) : N := fold_left (fun a c => a * 10 + digit_val c)%N s 0%N.

Definition U64_MAX : N := 18446744073709551615.
Definition I64_MAX : N := 9223372036854775807.

(** [str::parse::<u64>]: optional '+', at least one digit, no overflow *)
Definition parse_u64 (s : text) : option N :=
  let d := match s with
           | c :: s' => if Ascii.eqb c "+" then s' else s
           | [] => [] end in
  if negb (is_nil d) && forallb is_digit d then
    let v := digits_val d in if (v <=? U64_MAX)%N then Some v else None
  else None.

(** [str::parse::<i64>]: optional sign, at least one digit, no overflow *)
Definition parse_i64 (s : text) : option Z :=
  let '(neg, d) := match s with
           | c :: s' => if Ascii.eqb c "+" then (false, s')
                        else if Ascii.eqb c "-" then (true, s') else (false, s)
           | [] => (false, []) end in
  if negb (is_nil d) && forallb is_digit d then
    let v := digits_val d in
    if neg then (if (v <=? I64_MAX + 1)%N then Some (- Z.of_N v)%Z else None)
    else (if (v <=? I64_MAX)%N then Some (Z.of_N v) else None)
  else None.

(** decimal printing of an unsigned integer ([u64::to_string]) *)
Definition digit_char (n : N) : ascii := ascii_of_N (48 + n).
Fixpoint show_N_fuel (fuel : nat) (n : N) (acc : text) : text :=
  match fuel with
  | O => acc
  | S f => let acc' := digit_char (n mod 10) :: acc in
           if (n / 10 =? 0)%N then acc' else show_N_fuel f (n / 10) acc'
  end.
Definition show_N (n : N) : text := show_N_fuel (S (N.to_nat (N.size n))) n [].

Definition mem_text (x : text) (l : list text) : bool := existsb (text_eqb x) l.

(** reverse of a Rust [Ordering] is [CompOpp]; [Ordering] is [comparison]. *)
Definition is_eq (c : comparison) : bool := match c with Eq => true | _ => false end.
Definition is_lt (c : comparison) : bool := match c with Lt => true | _ => false end.
Definition is_gt (c : comparison) : bool := match c with Gt => true | _ => false end.
Definition is_le (c : comparison) : bool := negb (is_gt c).
Definition is_ge (c : comparison) : bool := negb (is_lt c).
