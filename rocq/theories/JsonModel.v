(** Values of nlohmann::json as the library uses them. *)
From Verif Require Import Base.
Open Scope Z_scope.

(** Objects are std::map<string, json>: unique keys in ascending byte order. *)
Inductive json :=
| JNull
| JBool (b : bool)
| JNum (n : Z)
| JStr (s : bytes)
| JArr (l : list json)
| JObj (l : list (bytes * json)).

(** std::less<std::string> *)
Fixpoint bytes_ltb (a b : bytes) : bool :=
  match a, b with
  | [], [] => false
  | [], _ :: _ => true
  | _ :: _, [] => false
  | x :: a', y :: b' => (x <? y) || ((x =? y) && bytes_ltb a' b')
  end.

(** j[key] = value on the members of an object *)
Fixpoint members_set (l : list (bytes * json)) (k : bytes) (v : json) : list (bytes * json) :=
  match l with
  | [] => [(k, v)]
  | (k', v') :: t =>
      if bytes_eqb k k' then (k, v) :: t
      else if bytes_ltb k k' then (k, v) :: l
      else (k', v') :: members_set t k v
  end.
(** operator[] turns null into an object and throws on any other non-object. *)
Definition json_set (j : json) (k : bytes) (v : json) : outcome json :=
  match j with
  | JNull => Ok (JObj [(k, v)])
  | JObj l => Ok (JObj (members_set l k v))
  | _ => Throw JsonError
  end.
(** push_back turns null into an array. *)
Definition json_push (j : json) (v : json) : outcome json :=
  match j with
  | JNull => Ok (JArr [v])
  | JArr l => Ok (JArr (l ++ [v]))
  | _ => Throw JsonError
  end.
