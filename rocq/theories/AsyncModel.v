(** src/electionguard/async.hpp: the semaphore, waiting for futures and the thread
    pool; src/electionguard/lookup_table.hpp:142-189: the table cache used by any
    number of threads.  (The queue of async.hpp is in QueueModel.v.) *)
From Verif Require Import Base ThreadModel GroupModel LookupModel.
Open Scope nat_scope.

(** ** async.hpp:41-74 AsyncSemaphore
    A thread performs a number of scoped uses: lock, some work, unlock.  A call of
    [wait()] (line 69) is such a use without work.  Simplifications: unlocking
    without having locked is not modelled (no such call exists), nor are spurious
    wake-ups of the condition variable (the predicate is checked again anyway).
    A notification may be taken by any thread that sleeps. *)
Inductive spc :=
| SIdle
| SLock0 (* lock _mutex, 58 *)
| SCheck (* test the count with _mutex held, 59; decrement, 60 *)
| SSleep (* inside _condition.wait, _mutex released *)
| SWoken (* notified; lock _mutex again *)
| SLeave (* count taken; unlock _mutex, 61 *)
| SHold  (* between lock() and unlock() *)
| SUnlock0 (* lock _mutex, 64 *)
| SGive  (* ++_count; notify_one, 65-66 *)
| SDone. (* unlock _mutex, 67 *)

(** [s_asleep]: threads in [SSleep]; [s_wake]: notifications not yet taken. *)
Record sstate := SS { s_mutex : option nat; s_count : nat; s_asleep : nat; s_wake : nat }.
(** async.hpp:44-48 AsyncSemaphore(count). *)
Definition sstate0 (n : nat) : sstate := SS None n 0 0.

(** A thread: where it is, and how many uses remain. *)
Definition sstep (me : nat) (s : sstate) (t : spc * nat) : option (sstate * (spc * nat)) :=
  let '(p, k) := t in
  let lock q := match s_mutex s with
                | None => Some (SS (Some me) (s_count s) (s_asleep s) (s_wake s), (q, k))
                | Some _ => None
                end in
  let unlock q := Some (SS None (s_count s) (s_asleep s) (s_wake s), (q, k)) in
  match p with
  | SIdle => match k with O => None | S k' => Some (s, (SLock0, k')) end
  | SLock0 => lock SCheck
  | SCheck => match s_count s with
              | O => Some (SS None 0 (S (s_asleep s)) (s_wake s), (SSleep, k))
              | S c => Some (SS (s_mutex s) c (s_asleep s) (s_wake s), (SLeave, k))
              end
  | SSleep => match s_wake s with
              | O => None
              | S w => Some (SS (s_mutex s) (s_count s) (pred (s_asleep s)) w, (SWoken, k))
              end
  | SWoken => lock SCheck
  | SLeave => unlock SHold
  | SHold => Some (s, (SUnlock0, k))
  | SUnlock0 => lock SGive
  | SGive => Some (SS (s_mutex s) (S (s_count s)) (s_asleep s)
                      (if s_wake s <? s_asleep s then S (s_wake s) else s_wake s), (SDone, k))
  | SDone => unlock SIdle
  end.
Definition sexec (n : nat) (uses : list nat) (sched : list nat) : @sys sstate (spc * nat) :=
  run sstep (Sys (sstate0 n) (map (pair SIdle) uses)) sched.

(** ** async.hpp:76-98 isReady and wait_all
    A future: the outcome it will have, or already asked for ([get] leaves it
    invalid).  [ready k i]: what wait_for of future [i] says in pass [k]. *)
Section WaitAll.
Context {A : Type}.
Inductive future := Fut (out : outcome A) | Invalid.
(** async.hpp:90-94, one pass over the tasks from index [i]. *)
Fixpoint wait_pass (ready : nat -> bool) (i : nat) (tasks : list future) (results : list A)
  : outcome (list future * list A) :=
  match tasks with
  | [] => Ok ([], results)
  | f :: rest =>
      do fr <- match f with
               | Fut out => if ready i then do v <- out; Ok (Invalid, results ++ [v]) else Ok (f, results)
               | Invalid => Ok (f, results)
               end;
      do rs <- wait_pass ready (S i) rest (snd fr);
      Ok (fst fr :: fst rs, snd rs)
  end.
(** async.hpp:86-98 wait_all, watched for [fuel] passes from pass [k]; [None]: it is
    still polling. *)
Fixpoint wait_loop (ready : nat -> nat -> bool) (fuel k : nat) (tasks : list future) (results : list A)
  : option (outcome (list A)) :=
  match fuel with
  | O => None
  | S fuel' =>
      match wait_pass (ready k) 0 tasks results with
      | Ok (tasks', results') =>
          if length results' <? length tasks' then wait_loop ready fuel' (S k) tasks' results'
          else Some (Ok results')
      | Throw e => Some (Throw e)
      | UB => Some UB
      end
  end.
Definition wait_all (ready : nat -> nat -> bool) (fuel : nat) (tasks : list future) : option (outcome (list A)) :=
  wait_loop ready fuel 0 tasks [].
End WaitAll.

(** ** async.hpp:240-309 ThreadPool
    One thread owns the pool: it submits tasks and then destroys the pool.  A task is
    its name and the tasks that it submits itself while it runs.  The task queue is
    used through its calls, which act at one instant (C51).  A task that throws is
    complete all the same: std::packaged_task stores the exception. *)
Inductive task := Task (name : nat) (subs : list task).
Definition tname (t : task) : nat := let '(Task n _) := t in n.
Inductive pev := Submitted (n : nat) | Started (n : nat) | Finished (n : nat).
Record tpool := TP { tp_running : bool; tp_queue : list task; tp_log : list pev; tp_live : nat }.

Inductive tpc :=
| Submits (ts : list task)      (* owner: submit, 271-279 *)
| Wait0 | Wait1                 (* owner: wait(), read _running 290, empty() 291 *)
| Stop0                         (* owner: _running = false, 262 *)
| Join0                         (* owner: join every thread, 263-265 *)
| Gone                          (* owner: the pool is destroyed *)
| Loop0                         (* worker: read _running, 300 *)
| Pop0                          (* worker: pop(task), 302 *)
| Run0 (n : nat) (subs : list task) (* worker: task(), 303 *)
| Ended.                        (* worker: left worker(), 308 *)

Definition tlog s e := TP (tp_running s) (tp_queue s) (tp_log s ++ [e]) (tp_live s).
Definition tstep (me : nat) (s : tpool) (p : tpc) : option (tpool * tpc) :=
  let submit t := TP (tp_running s) (tp_queue s ++ [t]) (tp_log s ++ [Submitted (tname t)]) (tp_live s) in
  match p with
  | Submits (t :: ts) => Some (submit t, Submits ts)
  | Submits [] => Some (s, Wait0)
  | Wait0 => Some (s, if tp_running s then Wait1 else Stop0)
  | Wait1 => Some (s, match tp_queue s with [] => Stop0 | _ => Wait0 end)
  | Stop0 => Some (TP false (tp_queue s) (tp_log s) (tp_live s), Join0)
  | Join0 => if tp_live s =? 0 then Some (s, Gone) else None
  | Gone => None
  | Loop0 => if tp_running s then Some (s, Pop0)
             else Some (TP (tp_running s) (tp_queue s) (tp_log s) (pred (tp_live s)), Ended)
  | Pop0 => match tp_queue s with
            | [] => Some (s, Loop0)
            | Task n subs :: q => Some (TP (tp_running s) q (tp_log s ++ [Started n]) (tp_live s), Run0 n subs)
            end
  | Run0 n (t :: ts) => Some (submit t, Run0 n ts)
  | Run0 n [] => Some (tlog s (Finished n), Loop0)
  | Ended => None
  end.
(** async.hpp:243-254: [n] workers; thread 0 is the owner. *)
Definition pool_begin (n : nat) (ts : list task) : @sys tpool tpc :=
  Sys (TP true [] [] n) (Submits ts :: repeat Loop0 n).
Definition pool_exec (n : nat) (ts : list task) (sched : list nat) : @sys tpool tpc :=
  run tstep (pool_begin n ts) sched.

(** ** lookup_table.hpp:142-189 LookupTableContext used by several threads
    The calls of one thread: pow_mod_p(to_hex base, base, exponent) for a list of
    bases and exponents (the caller, group.cpp:609-628, derives the key from the
    base).  Each call on the map is one step; the table is generated before the
    map is changed (186). *)
Section Cache.
Context (gp : params).
Inductive cpc :=
| CIdle
| CLock (b e : Z) | CUnlock (b e : Z)  (* task_lock.wait(), 169 *)
| CFind (b e : Z)                      (* key_map.find, 181 *)
| CEmplace (b e : Z)                   (* key_map.emplace, 186 *)
| CIndex (b e : Z)                     (* key_map[key], 183, 187 *)
| CPow (b e : Z) (t : table).          (* public_key_table->pow_mod_p, 172 *)
Record cstate := CS { c_sem : nat; c_map : cache; c_rets : list (nat * (Z * Z * Z)) }.
Definition cstep (me : nat) (s : cstate) (t : cpc * list (Z * Z)) : option (cstate * (cpc * list (Z * Z))) :=
  let '(p, ops) := t in
  match p with
  | CIdle => match ops with [] => None | (b, e) :: r => Some (s, (CLock b e, r)) end
  | CLock b e => match c_sem s with
                 | O => None
                 | S k => Some (CS k (c_map s) (c_rets s), (CUnlock b e, ops))
                 end
  | CUnlock b e => Some (CS (S (c_sem s)) (c_map s) (c_rets s), (CFind b e, ops))
  | CFind b e => Some (s, (match cache_find (CodecModel.to_hex_p b) (c_map s) with
                           | Some _ => CIndex b e | None => CEmplace b e end, ops))
  | CEmplace b e =>
      let c := c_map s in
      let c' := match cache_find (CodecModel.to_hex_p b) c with
                | Some _ => c   (* emplace keeps an entry that exists *)
                | None => (CodecModel.to_hex_p b, gen_table (gpP gp) b) :: c
                end in
      Some (CS (c_sem s) c' (c_rets s), (CIndex b e, ops))
  | CIndex b e => match cache_find (CodecModel.to_hex_p b) (c_map s) with
                  | Some t => Some (s, (CPow b e t, ops))
                  | None => None   (* operator[] would insert a null pointer *)
                  end
  | CPow b e t => Some (CS (c_sem s) (c_map s) (c_rets s ++ [(me, (b, e, table_pow (gpP gp) t e))]), (CIdle, ops))
  end.
Definition cexec (n : nat) (progs : list (list (Z * Z))) (sched : list nat) : @sys cstate (cpc * list (Z * Z)) :=
  run cstep (Sys (CS n [] []) (map (pair CIdle) progs)) sched.
(** What a thread is about to do with the map: [Some true] if it may change it
    (emplace and operator[] of std::map are modifiers). *)
Definition cache_access (t : cpc * list (Z * Z)) : option bool :=
  match fst t with CFind _ _ => Some false | CEmplace _ _ | CIndex _ _ => Some true | _ => None end.
Definition cache_race (w : @sys cstate (cpc * list (Z * Z))) : Prop :=
  exists i j t u b c, i <> j /\ nth_error (threads w) i = Some t /\ nth_error (threads w) j = Some u /\
    cache_access t = Some b /\ cache_access u = Some c /\ (b = true \/ c = true).
End Cache.
