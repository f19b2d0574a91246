(** JSON values: the model of [serde_json::Value]. Objects keep their bindings as a list; numbers are integers. *)
From Verif Require Import Base Base_lemmas Maps.

Inductive json :=
| JNull
| JBool (b : bool)
| JNum (n : Z)
| JStr (s : text)
| JArr (l : list json)
| JObj (m : list (text * json)).

(** [Value::get] with a string key: absent or not an object is [None] *)
Definition jget (k : text) (j : json) : option json :=
  match j with JObj m => aget k m | _ => None end.
(** [Value::as_str] *)
Definition as_str (j : json) : option text := match j with JStr s => Some s | _ => None end.
(** [Value::as_bool] *)
Definition as_bool (j : json) : option bool := match j with JBool b => Some b | _ => None end.
(** [Value::as_array] *)
Definition as_array (j : json) : option (list json) := match j with JArr l => Some l | _ => None end.
(** [Value::as_object] *)
Definition as_object (j : json) : option (list (text * json)) := match j with JObj m => Some m | _ => None end.
Definition I64_MIN : Z := -9223372036854775808.
(** [Value::as_i64] *)
Definition as_i64 (j : json) : option Z :=
  match j with JNum n => if ((I64_MIN <=? n) && (n <=? Z.of_N I64_MAX))%Z then Some n else None | _ => None end.
(** [iter().filter_map(f).collect()] *)
Fixpoint filter_map {A B} (f : A -> option B) (l : list A) : list B :=
  match l with
  | [] => []
  | x :: l' => match f x with Some y => y :: filter_map f l' | None => filter_map f l' end
  end.
Lemma filter_map_all {A B} (f : A -> option B) (g : B -> A) (l : list B) :
  (forall x, f (g x) = Some x) -> filter_map f (map g l) = l.
Proof. intros H. induction l as [|x l IH]; cbn [map filter_map]; [reflexivity|]. rewrite H, IH. reflexivity. Qed.
