(** The rules a C client goes by: what the headers say of the functions (or what they
    would have to say), and the book the client keeps of its handles.
    Independent of the model: nothing here looks at objects or memory. *)
From Coq Require Import PArith List Bool Arith.
From Verif Require Import CApiClass CApiNames.
Import ListNotations.

(** What becomes of a handle given to a function.  [Borrow]: lent for the call.
    [Empty]: its contents are taken; it may only be freed.  [GiveUp]: the
    function frees it.  [Free]: this is the function that frees it.
    [Outlive]: it must stay as it is while the result is in use. *)
Inductive terms := Borrow | Empty | GiveUp | Free | Outlive.
Inductive title := Owned | Reference.
Record contract := {
  cname : name;
  csignature : list ctype;
  cgiven : list (class * terms * bool);  (** with true for an array *)
  cresults : list (class * title) }.
Definition given (c : class) (t : terms) := (c, t, false).
Definition given_all (c : class) (t : terms) := (c, t, true).
Definition decl n s g r : contract := {| cname := n; csignature := s; cgiven := g; cresults := r |}.

(** The client itself reads the characters, bytes and words it is given. *)
Definition reading : list contract :=
  [decl read_text [Ptr c_char] [given Text Borrow] [];
   decl read_bytes [Ptr c_uint8_t] [given ByteBuffer Borrow] [];
   decl read_words [Ptr c_uint64_t] [given Words Borrow] []].

(** The book: for each handle received, in order, its type and how it is held. *)
Inductive state := Good | Emptied | Gone.
Inductive hold := Mine (s : state) (needs : list nat) | PartOf (owner : nat) | Constant.
Record entry := { etype : class; ehold : hold }.
Definition book := list entry.

Definition good (b : book) (n : nat) : Prop :=
  exists c k, nth_error b n = Some {| etype := c; ehold := Mine Good k |}
           \/ nth_error b n = Some {| etype := c; ehold := Constant |}.
(** What handle [n] rests on: itself or the handle it is a reference into, and what
    that one needs. *)
Inductive rests (b : book) (n : nat) : nat -> Prop :=
| rests_self c s k : nth_error b n = Some {| etype := c; ehold := Mine s k |} -> rests b n n
| rests_need c s k m : nth_error b n = Some {| etype := c; ehold := Mine s k |} -> In m k -> rests b n m
| rests_owner c r : nth_error b n = Some {| etype := c; ehold := PartOf r |} -> rests b n r
| rests_owner_need c r c' s k m :
    nth_error b n = Some {| etype := c; ehold := PartOf r |} ->
    nth_error b r = Some {| etype := c'; ehold := Mine s k |} -> In m k -> rests b n m.
(** A handle can be used when everything it rests on is good. *)
Definition usable (b : book) (n : nat) : Prop := forall m, rests b n m -> good b m.
Definition held (b : book) (n : nat) : Prop :=
  exists c s k, nth_error b n = Some {| etype := c; ehold := Mine s k |} /\ s <> Gone.
Definition typed (b : book) (n : nat) (c : class) : Prop :=
  exists h, nth_error b n = Some {| etype := c; ehold := h |}.

(** The handles a call gives, with their terms. *)
Fixpoint uses (g : list (class * terms * bool)) (args : list (list nat)) : list (class * terms * nat) :=
  match g, args with
  | (c, t, _) :: g', a :: args' => map (fun n => (c, t, n)) a ++ uses g' args'
  | _, _ => []
  end.
Fixpoint well_shaped (g : list (class * terms * bool)) (args : list (list nat)) : Prop :=
  match g, args with
  | [], [] => True
  | (_, _, array) :: g', a :: args' => (array = true \/ length a = 1%nat) /\ well_shaped g' args'
  | _, _ => False
  end.
Definition consumes (t : terms) : bool :=
  match t with Empty | GiveUp | Free => true | _ => false end.

(** A call by the rules.  Handles have the types the function declares; they are
    usable; those emptied, given up or freed are the client's own, and no other
    argument of the call is or rests on one of them.  Only a handle to be freed may have
    been emptied. *)
Definition allowed (b : book) (c : contract) (args : list (list nat)) : Prop :=
  well_shaped (cgiven c) args /\
  (forall k t n, In (k, t, n) (uses (cgiven c) args) ->
     typed b n k /\ (t <> Free -> usable b n) /\ (consumes t = true -> held b n)) /\
  (forall before k t n after,
     uses (cgiven c) args = before ++ (k, t, n) :: after -> consumes t = true ->
     forall k' t' n', In (k', t', n') (before ++ after) -> n' <> n /\ ~ rests b n' n).

(** The book afterwards. *)
Definition ends (l : list (class * terms * nat)) (n : nat) (t : terms) : bool :=
  existsb (fun x => match x, t with
                    | (_, Empty, m), Empty | (_, GiveUp, m), GiveUp | (_, Free, m), Free => (m =? n)%nat
                    | _, _ => false
                    end) l.
Definition entry_after (l : list (class * terms * nat)) (n : nat) (e : entry) : entry :=
  match ehold e with
  | Mine s k => {| etype := etype e;
                   ehold := Mine (if ends l n GiveUp || ends l n Free then Gone
                                  else if ends l n Empty then Emptied else s) k |}
  | _ => e
  end.
Fixpoint map_from {A} (f : nat -> A -> A) (n : nat) (l : list A) : list A :=
  match l with [] => [] | x :: t => f n x :: map_from f (S n) t end.
Definition needed (l : list (class * terms * nat)) : list nat :=
  flat_map (fun x => match x with (_, Outlive, n) => [n] | _ => [] end) l.
Definition into (b : book) (l : list (class * terms * nat)) : hold :=
  match l with
  | [] => Constant
  | (_, _, n) :: _ => match nth_error b n with
                      | Some {| ehold := Mine _ _ |} => PartOf n
                      | Some {| ehold := h |} => h
                      | None => Constant
                      end
  end.
Definition received (b : book) (l : list (class * terms * nat)) (r : class * title) : entry :=
  match r with
  | (c, Owned) => {| etype := c; ehold := Mine Good (needed l) |}
  | (c, Reference) => {| etype := c; ehold := into b l |}
  end.
(** A call may fail, or return null references; then nothing is received. *)
Definition book_after (b : book) (c : contract) (args : list (list nat)) (receives : bool) : book :=
  let l := uses (cgiven c) args in
  map_from (entry_after l) 0 b ++
  (if receives then map (received b l) (cresults c) else []).

Definition find_contract (cs : list contract) (n : name) : option contract :=
  find (fun c => Pos.eqb (cname c) n) cs.
(** A history of calls by the rules, from one book to another. *)
Inductive by_the_rules (cs : list contract) : book -> list (name * list (list nat) * bool) -> book -> Prop :=
| rules_end b : by_the_rules cs b [] b
| rules_call b c f args receives l b' :
    find_contract cs f = Some c ->
    allowed b c args ->
    by_the_rules cs (book_after b c args receives) l b' ->
    by_the_rules cs b ((f, args, receives) :: l) b'.
Definition nothing_held (b : book) : Prop := forall n, ~ held b n.
