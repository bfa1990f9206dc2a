(** src/electionguard/precompute_buffers.cpp and precompute_buffers.hpp: the
    precompute buffers, used by any number of threads.  Steps are single accesses to
    shared variables or operations of the lock [queue_lock]. *)
From Verif Require Import Base GroupModel CodecModel HashModel ElgamalModel ChaumModel ThreadModel FifoSpec.
Open Scope Z_scope.

(** A precomputed value.  [it_draws] records which results of rand_q it was made
    from; the code does not store it and no step depends on it. *)
Record item (A : Type) := Item { it_draws : list nat; it_val : A }.
Arguments Item {A}.
Arguments it_draws {A}.
Arguments it_val {A}.

(** The calls of the public interface, and a call of rand_q by other code. *)
Inductive op :=
| OInit (n : Z)        (* init(n), precompute_buffers.cpp:188-199 *)
| OPopulate (K : Z)    (* populate(K), 201-248 *)
| OStop                (* stop_populate(), 250 *)
| OMax                 (* get_max_queue_size(), 252 *)
| OSize                (* get_current_queue_size(), 254-257 *)
| OTake                (* getTwoTriplesAndAQuadruple(), 259-273 *)
| OTriple              (* getTriple(), 275-289 *)
| OEmpty               (* empty_queues(), 291-302 *)
| ORand.               (* rand_q() *)

(** Where a thread is: the next access it will make. *)
Inductive pc :=
| Idle                                  (* between calls *)
| Init0 (n : Z)                         (* lock, 190 *)
| Init1 (n : Z)                         (* populate_OK = true, 191 *)
| Init2 (n : Z)                         (* max = ..., 194-198 *)
| Pop0 (K : Z) (i : nat)                (* lock, 214; i = iteration_count *)
| Pop1 (K : Z) (i : nat)                (* read populate_OK, 215 *)
| Pop2 (K : Z) (i : nat) (ds : list nat) (* the draws of 219-221, then push, 226 *)
| Pop3 (K : Z) (i : nat) (j : nat)      (* draw of the j-th extra triple, 238, 240 *)
| Pop4 (K : Z) (i : nat) (j : nat) (d : nat) (* push it, 239, 241 *)
| Pop5 (K : Z) (i : nat)                (* unlock at the end of the loop body, 247 *)
| Pop6 (K : Z) (i : nat)                (* read the queue's size, 247, not locked *)
| Pop7 (K : Z) (i : nat) (size : Z)     (* read max and compare, 247, not locked *)
| Stop0                                 (* populate_OK = false, 250, not locked *)
| Max0                                  (* read max, 252, not locked *)
| Size0                                 (* read the queue's size, 256, not locked *)
| Take0 | Take1                         (* lock, 264; test and pop, 267-270 *)
| Triple0 | Triple1                     (* lock, 280; test and pop, 283-286 *)
| Empty0 | Empty1                       (* lock, 293; read the size of the triples, 294 *)
| Empty2 (n : Z)                        (* pop a triple, 295-297 *)
| Empty3                                (* read the other size, 298 *)
| Empty4 (n : Z)                        (* pop an entry, 299-301 *)
| Unlock.                               (* the lock_guard's destructor *)

(** What a call that returns a number or a random value returned. *)
Inductive note := NMax (n : Z) | NSize (n : Z) | NRand (d : nat).

(** The shared variables, precompute_buffers.hpp:240-244, the number of calls of
    rand_q so far, and the history.  [p_calls] counts the calls of populate. *)
Record pstate := PS {
  p_lock : option nat;
  p_ok : bool;
  p_max : Z;
  p_tq : list (item two_triples_quad);
  p_tr : list (item triple);
  p_draws : nat;
  p_htq : list (qev (item two_triples_quad));
  p_htr : list (qev (item triple));
  p_notes : list (nat * note);
  p_calls : nat }.

(** precompute_buffers.hpp:240-244 and constants.h:22. *)
Definition default_size : Z := 5000.
Definition pstate0 : pstate := PS None false default_size [] [] 0 [] [] [] 0.

Definition set_lock (s : pstate) v := PS v (p_ok s) (p_max s) (p_tq s) (p_tr s) (p_draws s) (p_htq s) (p_htr s) (p_notes s) (p_calls s).
Definition set_ok (s : pstate) v := PS (p_lock s) v (p_max s) (p_tq s) (p_tr s) (p_draws s) (p_htq s) (p_htr s) (p_notes s) (p_calls s).
Definition set_max (s : pstate) v := PS (p_lock s) (p_ok s) v (p_tq s) (p_tr s) (p_draws s) (p_htq s) (p_htr s) (p_notes s) (p_calls s).
Definition set_tq (s : pstate) v e := PS (p_lock s) (p_ok s) (p_max s) v (p_tr s) (p_draws s) (p_htq s ++ [e]) (p_htr s) (p_notes s) (p_calls s).
Definition set_tr (s : pstate) v e := PS (p_lock s) (p_ok s) (p_max s) (p_tq s) v (p_draws s) (p_htq s) (p_htr s ++ [e]) (p_notes s) (p_calls s).
Definition draw (s : pstate) := PS (p_lock s) (p_ok s) (p_max s) (p_tq s) (p_tr s) (S (p_draws s)) (p_htq s) (p_htr s) (p_notes s) (p_calls s).
Definition note_of (s : pstate) i n := PS (p_lock s) (p_ok s) (p_max s) (p_tq s) (p_tr s) (p_draws s) (p_htq s) (p_htr s) (p_notes s ++ [(i, n)]) (p_calls s).
Definition called (s : pstate) := PS (p_lock s) (p_ok s) (p_max s) (p_tq s) (p_tr s) (p_draws s) (p_htq s) (p_htr s) (p_notes s) (S (p_calls s)).

(** uint32_t n = size; (int) n in the loop conditions of 295 and 299. *)
Definition int_of_size (n : nat) : Z :=
  let u := Z.of_nat n mod 2 ^ 32 in if u <? 2 ^ 31 then u else u - 2 ^ 32.

Section Pre.
Context (gp : params) (rnd : nat -> Z).   (* results of rand_q, in order *)

(** precompute_buffers.cpp:64-70 generateTriple. *)
Definition make_triple (K : Z) (d : nat) : triple :=
  let e := rnd d in {| tr_exp := e; tr_g := g_pow_p gp e; tr_k := pow_mod_p gp K e |}.
(** precompute_buffers.cpp:125-132 generateQuadruple. *)
Definition make_quad (K : Z) (d1 d2 : nat) : quadruple :=
  {| qd_exp1 := rnd d1; qd_exp2 := rnd d2; qd_g1 := g_pow_p gp (rnd d1);
     qd_g2k1 := mul_mod_p gp (g_pow_p gp (rnd d2)) (pow_mod_p gp K (rnd d1)) |}.

(** The first access of a call. *)
Definition start (o : op) : pc :=
  match o with
  | OInit n => Init0 n | OPopulate K => Pop0 K 0 | OStop => Stop0 | OMax => Max0 | OSize => Size0
  | OTake => Take0 | OTriple => Triple0 | OEmpty => Empty0 | ORand => Idle
  end.

(** One step of thread [me].
    Simplifications: iteration_count (an int) does not overflow; the queues never
    fail to allocate; a call that returns leaves the thread [Idle] or at [Unlock]. *)
Definition tstep (me : nat) (s : pstate) (t : pc * list op) : option (pstate * (pc * list op)) :=
  let '(p, ops) := t in
  let go s p := Some (s, (p, ops)) in
  let acquire p := match p_lock s with None => go (set_lock s (Some me)) p | Some _ => None end in
  match p with
  | Idle => match ops with
            | [] => None
            | ORand :: r => Some (note_of (draw s) me (NRand (p_draws s)), (Idle, r))
            | OPopulate K :: r => Some (called s, (Pop0 K 0, r))
            | o :: r => Some (s, (start o, r))
            end
  | Init0 n => acquire (Init1 n)
  | Init1 n => go (set_ok s true) (Init2 n)
  | Init2 n => go (set_max s (if n =? 0 then default_size else n)) Unlock
  | Pop0 K i => acquire (Pop1 K i)
  | Pop1 K i => go s (if p_ok s then Pop2 K i [] else Unlock)
  | Pop2 K i [d1; d2; d3; d4] =>
      let v := {| tq_t1 := make_triple K d1; tq_t2 := make_triple K d2; tq_q := make_quad K d3 d4 |} in
      let x := Item [d1; d2; d3; d4] v in
      go (set_tq s (p_tq s ++ [x]) (Put x)) (if (i mod 3 =? 0)%nat then Pop3 K i 0 else Pop5 K (S i))
  | Pop2 K i ds => go (draw s) (Pop2 K i (ds ++ [p_draws s]))
  | Pop3 K i j => go (draw s) (Pop4 K i j (p_draws s))
  | Pop4 K i j d =>
      let x := Item [d] (make_triple K d) in
      go (set_tr s (p_tr s ++ [x]) (Put x)) (if (j =? 0)%nat then Pop3 K i 1 else Pop5 K (S i))
  | Pop5 K i => go (set_lock s None) (Pop6 K i)
  | Pop6 K i => go s (Pop7 K i (Z.of_nat (length (p_tq s))))
  | Pop7 K i size => go s (if size <? p_max s then Pop0 K i else Idle)
  | Stop0 => go (set_ok s false) Idle
  | Max0 => go (note_of s me (NMax (p_max s))) Idle
  | Size0 => go (note_of s me (NSize (Z.of_nat (length (p_tq s)) mod 2 ^ 32))) Idle
  | Take0 => acquire Take1
  | Take1 => match p_tq s with
             | [] => go (set_tq s [] Missed) Unlock
             | x :: q => go (set_tq s q (Got x)) Unlock
             end
  | Triple0 => acquire Triple1
  | Triple1 => match p_tr s with
               | [] => go (set_tr s [] Missed) Unlock
               | x :: q => go (set_tr s q (Got x)) Unlock
               end
  | Empty0 => acquire Empty1
  | Empty1 => go s (Empty2 (int_of_size (length (p_tr s))))
  | Empty2 n => if 0 <? n then
                  match p_tr s with
                  | [] => None   (* pop of an empty queue: undefined; shown not to happen *)
                  | x :: q => go (set_tr s q (Dropped x)) (Empty2 (n - 1))
                  end
                else go s Empty3
  | Empty3 => go s (Empty4 (int_of_size (length (p_tq s))))
  | Empty4 n => if 0 <? n then
                  match p_tq s with
                  | [] => None
                  | x :: q => go (set_tq s q (Dropped x)) (Empty4 (n - 1))
                  end
                else go s Unlock
  | Unlock => go (set_lock s None) Idle
  end.

(** Any number of threads, each with its calls. *)
Definition begin (progs : list (list op)) : @sys pstate (pc * list op) := Sys pstate0 (map (pair Idle) progs).
Definition exec (progs : list (list op)) (sched : list nat) : @sys pstate (pc * list op) := run tstep (begin progs) sched.
End Pre.

(** The shared variables and the access a thread makes next: variable, and whether it
    writes.  The lock orders its own operations, so they are not accesses. *)
Inductive var := VOk | VMax | VTq | VTr.
Definition access (t : pc * list op) : option (var * bool) :=
  match fst t with
  | Init1 _ => Some (VOk, true)
  | Init2 _ => Some (VMax, true)
  | Pop1 _ _ => Some (VOk, false)
  | Pop2 _ _ [_; _; _; _] => Some (VTq, true)
  | Pop4 _ _ _ _ => Some (VTr, true)
  | Pop6 _ _ => Some (VTq, false)
  | Pop7 _ _ _ => Some (VMax, false)
  | Stop0 => Some (VOk, true)
  | Max0 => Some (VMax, false)
  | Size0 => Some (VTq, false)
  | Take1 => Some (VTq, true)
  | Triple1 => Some (VTr, true)
  | Empty1 => Some (VTr, false)
  | Empty2 _ => Some (VTr, true)
  | Empty3 => Some (VTq, false)
  | Empty4 _ => Some (VTq, true)
  | _ => None
  end.
(** Two threads about to access one variable, one of them writing: a data race. *)
Definition race (w : @sys pstate (pc * list op)) : Prop :=
  exists i j t u v b c, i <> j /\ nth_error (threads w) i = Some t /\ nth_error (threads w) j = Some u /\
    access t = Some (v, b) /\ access u = Some (v, c) /\ (b = true \/ c = true).
