(** src/electionguard/async.hpp:103-193 AsyncQueue: a linked list with one lock at
    each end, used by any number of threads.  Steps are single accesses to shared
    memory or operations of a lock. *)
From Verif Require Import Base ThreadModel FifoSpec.
Open Scope nat_scope.

Section Queue.
Context {A : Type}.
(** async.hpp:146-149 Node; nodes are named by numbers. *)
Record node := Nd { nd_data : option A; nd_next : option nat }.
Definition new_node : node := Nd None None.

(** Calls: push(v), pop() (119-123), pop(value) (125-129), empty(). *)
Inductive qop := QPush (v : A) | QPop (by_value : bool) | QEmpty.
Inductive qret := RNone | RItem (v : A) | REmpty (b : bool).

Inductive qpc :=
| QIdle
| Push0 (v : A)                     (* allocate data and node, 133-134 *)
| Push1 (v : A) (n : nat)           (* lock _tail_mutex, 136 *)
| Push2 (v : A) (n : nat)           (* _tail->data = data, 137 *)
| Push3 (v : A) (n : nat)           (* _tail->next = node, 138-139 *)
| Push4 (v : A) (n : nat)           (* _tail = new_tail, 140 *)
| Push5                             (* unlock _tail_mutex, 141 *)
| Take0 (b : bool)                  (* lock _head_mutex, 177, 186 *)
| Take1 (b : bool)                  (* lock _tail_mutex in _getTail, 161 *)
| Take2 (b : bool)                  (* read _tail, 162 *)
| Take3 (b : bool) (t : nat)        (* unlock _tail_mutex *)
| Take4 (b : bool) (t : nat)        (* compare with _head, 178, 187 *)
| Take5                             (* value = move of *_head->data, 190; pop(value) only *)
| Take6 (v : option A)              (* lock _tail_mutex in _getTail called by _pop, 167 *)
| Take7 (v : option A)              (* read _tail *)
| Take8 (v : option A) (t : nat)    (* unlock _tail_mutex *)
| Take9 (v : option A) (t : nat)    (* compare with _head, 167 *)
| Take10 (v : option A)             (* old = _head; _head = old->next, 170-171 *)
| Take11 (v : option A) (old : nat) (* unlock _head_mutex *)
| Take12 (v : option A) (old : nat) (* read old->data, 122; free the node *)
| Miss0                             (* unlock _head_mutex, nothing found *)
| Empty0 | Empty1 | Empty2          (* lock _head_mutex, 115; lock, read _tail, 116 *)
| Empty3 (t : nat) | Empty4 (t : nat) (* unlock _tail_mutex; compare with _head *)
| Empty5.                           (* unlock _head_mutex *)

(** [q_hist]: the history, with the acting thread; [q_rets]: what the calls returned. *)
Record qstate := QS {
  q_hlock : option nat;
  q_tlock : option nat;
  q_head : nat;
  q_tail : nat;
  q_heap : nat -> node;
  q_fresh : nat;
  q_hist : list (nat * qev A);
  q_rets : list (nat * qret) }.

(** async.hpp:106 AsyncQueue(): one empty node. *)
Definition qstate0 : qstate := QS None None 0 0 (fun _ => new_node) 1 [] [].

Definition set_hlock s v := QS v (q_tlock s) (q_head s) (q_tail s) (q_heap s) (q_fresh s) (q_hist s) (q_rets s).
Definition set_tlock s v := QS (q_hlock s) v (q_head s) (q_tail s) (q_heap s) (q_fresh s) (q_hist s) (q_rets s).
Definition set_node s n d := QS (q_hlock s) (q_tlock s) (q_head s) (q_tail s)
  (fun m => if m =? n then d else q_heap s m) (q_fresh s) (q_hist s) (q_rets s).
Definition set_tail s n e := QS (q_hlock s) (q_tlock s) (q_head s) n (q_heap s) (q_fresh s) (q_hist s ++ [e]) (q_rets s).
Definition set_head s n e := QS (q_hlock s) (q_tlock s) n (q_tail s) (q_heap s) (q_fresh s) (q_hist s ++ [e]) (q_rets s).
Definition event s e := QS (q_hlock s) (q_tlock s) (q_head s) (q_tail s) (q_heap s) (q_fresh s) (q_hist s ++ [e]) (q_rets s).
Definition alloc s := QS (q_hlock s) (q_tlock s) (q_head s) (q_tail s)
  (fun m => if m =? q_fresh s then new_node else q_heap s m) (S (q_fresh s)) (q_hist s) (q_rets s).
Definition returns s e := QS (q_hlock s) (q_tlock s) (q_head s) (q_tail s) (q_heap s) (q_fresh s) (q_hist s) (q_rets s ++ [e]).

(** One step of thread [me]; [None] where it would wait or use a null pointer.
    Simplifications: a moved-from element keeps its value (it is not read again);
    names of freed nodes are not used again; the condition variable of 142 has no
    waiter in this code. *)
Definition qstep (me : nat) (s : qstate) (t : qpc * list qop) : option (qstate * (qpc * list qop)) :=
  let '(p, ops) := t in
  let go s p := Some (s, (p, ops)) in
  let lock_h p := match q_hlock s with None => go (set_hlock s (Some me)) p | Some _ => None end in
  let lock_t p := match q_tlock s with None => go (set_tlock s (Some me)) p | Some _ => None end in
  match p with
  | QIdle => match ops with
             | [] => None
             | QPush v :: r => Some (s, (Push0 v, r))
             | QPop b :: r => Some (s, (Take0 b, r))
             | QEmpty :: r => Some (s, (Empty0, r))
             end
  | Push0 v => go (alloc s) (Push1 v (q_fresh s))
  | Push1 v n => lock_t (Push2 v n)
  | Push2 v n => go (set_node s (q_tail s) (Nd (Some v) (nd_next (q_heap s (q_tail s))))) (Push3 v n)
  | Push3 v n => go (set_node s (q_tail s) (Nd (nd_data (q_heap s (q_tail s))) (Some n))) (Push4 v n)
  | Push4 v n => go (set_tail s n (me, Put v)) Push5
  | Push5 => go (set_tlock s None) QIdle
  | Take0 b => lock_h (Take1 b)
  | Take1 b => lock_t (Take2 b)
  | Take2 b => go (if q_tail s =? q_head s then event s (me, Missed) else s) (Take3 b (q_tail s))
  | Take3 b t => go (set_tlock s None) (Take4 b t)
  | Take4 b t => go s (if q_head s =? t then Miss0 else if b then Take5 else Take6 None)
  | Take5 => match nd_data (q_heap s (q_head s)) with
             | Some v => go s (Take6 (Some v))
             | None => None
             end
  | Take6 v => lock_t (Take7 v)
  | Take7 v => go s (Take8 v (q_tail s))
  | Take8 v t => go (set_tlock s None) (Take9 v t)
  | Take9 v t => go s (if q_head s =? t then Miss0 else Take10 v)
  | Take10 v => let old := q_head s in
                match nd_next (q_heap s old), nd_data (q_heap s old) with
                | Some m, Some d => go (set_node (set_head s m (me, Got d)) old (Nd (Some d) None)) (Take11 v old)
                | _, _ => None
                end
  | Take11 v old => go (set_hlock s None) (Take12 v old)
  | Take12 v old => let s' := set_node s old (Nd None None) in
                    match v, nd_data (q_heap s old) with
                    | Some x, _ => go (returns s' (me, RItem x)) QIdle
                    | None, Some x => go (returns s' (me, RItem x)) QIdle
                    | None, None => None
                    end
  | Miss0 => go (returns (set_hlock s None) (me, RNone)) QIdle
  | Empty0 => lock_h Empty1
  | Empty1 => lock_t Empty2
  | Empty2 => go (event s (me, if q_tail s =? q_head s then Missed else Seen)) (Empty3 (q_tail s))
  | Empty3 t => go (set_tlock s None) (Empty4 t)
  | Empty4 t => go (returns s (me, REmpty (q_head s =? t))) Empty5
  | Empty5 => go (set_hlock s None) QIdle
  end.

Definition qbegin (progs : list (list qop)) : @sys qstate (qpc * list qop) := Sys qstate0 (map (pair QIdle) progs).
Definition qexec (progs : list (list qop)) (sched : list nat) : @sys qstate (qpc * list qop) := run qstep (qbegin progs) sched.

(** Shared memory: the two pointers and the fields of the nodes.  [accesses]: what a
    thread reads ([false]) or writes ([true]) in its next step. *)
Inductive loc := LHead | LTail | LData (n : nat) | LNext (n : nat).
Definition accesses (s : qstate) (t : qpc * list qop) : list (loc * bool) :=
  match fst t with
  | Push2 _ _ => [(LTail, false); (LData (q_tail s), true)]
  | Push3 _ _ => [(LTail, false); (LNext (q_tail s), true)]
  | Push4 _ _ => [(LTail, true)]
  | Take2 _ | Take7 _ | Empty2 => [(LTail, false)]
  | Take4 _ _ | Take9 _ _ | Empty4 _ => [(LHead, false)]
  | Take5 => [(LHead, false); (LData (q_head s), true)]
  | Take10 _ => [(LHead, true); (LNext (q_head s), true)]
  | Take12 _ old => [(LData old, true); (LNext old, true)]
  | _ => []
  end.
Definition qrace (w : @sys qstate (qpc * list qop)) : Prop :=
  exists i j t u x b c, i <> j /\ nth_error (threads w) i = Some t /\ nth_error (threads w) j = Some u /\
    In (x, b) (accesses (shared w) t) /\ In (x, c) (accesses (shared w) u) /\ (b = true \/ c = true).
End Queue.
