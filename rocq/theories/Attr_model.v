(** Model of writing the data of a package as Python code and as a block of YAML.
    Source: crates/rez-next-serialise/src/package_serialise.rs (PS).
    Simplifications: texts are ASCII; numbers are whole and fit 64 bits with a sign, so that they are written in digits; an object has no key twice; files and the other formats are left out. *)
From Verif Require Import Base Maps Sorting Json.
From Verif Require Rex_model Bundle_model.
Open Scope string_scope. Open Scope list_scope.

(** PS:51-81 [PACKAGE_KEY_ORDER] *)
Definition key_order : list text := [T "name"; T "version"; T "description"; T "authors"; T "license"; T "requires"; T "variants"; T "build_requires"; T "private_build_requires"; T "uuid"; T "revision"; T "timestamp"; T "config"; T "help"; T "tests";
  T "pre_commands"; T "commands"; T "post_commands"; T "release_commands"; T "pre_build_commands"; T "build_commands"; T "post_build_commands"; T "pre_test_commands"; T "test_commands"; T "post_test_commands"; T "implicit"; T "cachable"; T "universal"; T "hashed_variants"].
(** PS:295-296 [position] *)
Fixpoint position (k : text) (l : list text) : option nat := match l with [] => None | x :: r => if text_eqb x k then Some 0 else option_map S (position k r) end.
(** PS:294-303 *)
Definition key_cmp (a b : text) : comparison :=
  match position a key_order, position b key_order with
  | Some i, Some j => Nat.compare i j
  | Some _, None => Lt
  | None, Some _ => Gt
  | None, None => text_cmp a b
  end.
(** PS:324-336 [format_python_string]; character 34 is the double quote, 39 the single one, 92 the backslash and 10 the line feed *)
Definition Q : ascii := "039".
(** PS:326-330: in three quotes *)
Definition long_text (s : text) : text := [Q; Q; Q] ++ Rex_model.replace [Q; Q; Q] ["092"%char; Q; "092"%char; Q; "092"%char; Q] s ++ [Q; Q; Q].
(** PS:324-336 *)
Definition py_string (s : text) : text :=
  if existsb (Ascii.eqb "010") s then long_text s
  else if existsb (Ascii.eqb Q) s && existsb (Ascii.eqb "034") s then long_text s
  else if existsb (Ascii.eqb Q) s then ["034"%char] ++ s ++ ["034"%char]
  else [Q] ++ Rex_model.replace_char Q ["092"%char; Q] s ++ [Q].
(** PS:266 [to_string] of a number *)
Definition show_int (z : Z) : text := if (z <? 0)%Z then "-"%char :: show_N (Z.abs_N z) else show_N (Z.abs_N z).
(** PS:255, 277 *)
Definition blanks (n : nat) : text := repeat " "%char n.
(** PS:280-283, 306-315: between two *)
Definition comma : text := [","%char; "010"%char].
(** PS:250-321 [dict_to_python_code] *)
Fixpoint py_code (n : nat) (v : json) : text :=
  match v with
  | JNull => T "None"
  | JBool b => if b then T "True" else T "False"
  | JNum z => show_int z
  | JStr s => py_string s
  | JArr l => ["["%char; "010"%char] ++ match l with [] => [] | _ => join comma (map (fun x => blanks n ++ T "    " ++ py_code (n + 4) x) l) ++ ["010"%char] end ++ blanks n ++ T "]"
  | JObj m => join comma (map (fun e => blanks n ++ fst e ++ T " = " ++ snd e) (sort_by (fun a b => key_cmp (fst a) (fst b)) (map (fun e => (fst e, py_code n (snd e))) m)))
  end.
(** PS:225-236 [dict_to_attributes_code] *)
Definition attributes_code (v : json) : text := T "# -*- coding: utf-8 -*-" ++ ["010"%char] ++ T "# Rez package definition" ++ ["010"%char; "010"%char] ++ py_code 0 v.

(** PS:196-204: one line of a block *)
Definition block_line (n : nat) (l : text) : text := match l with [] => ["010"%char] | _ => blanks n ++ l ++ ["010"%char] end.
(** PS:183-207 [as_block_string] *)
Definition as_block_string (s : text) (n : nat) : text :=
  match Bundle_model.file_lines s with
  | [] => [Q; Q]
  | [l] => [Q] ++ l ++ [Q]
  | ls => ["|"%char; "010"%char] ++ flat_map (block_line n) ls
  end.
