(** src/electionguard/facades/collections.c: the doubly linked list of strings of the C
    interface.  Memory is a set of cells by address; an address is not used
    twice, so that every use of freed memory is seen (simplification).  [None]
    is the null pointer.  Whether an allocation succeeds is an argument of the
    call.  uint64_t counts are integers reduced modulo 2^64. *)
From Verif Require Import Base.
Open Scope Z_scope.

Definition ptr := option nat.
(** collections.c:3-8. *)
Record node := { nkey : ptr; nvalue : ptr; nprev : ptr; nnext : ptr }.
(** collections.c:10-14. *)
Record header := { lcount : Z; lhead : ptr; ltail : ptr }.
Inductive cell := CNode (n : node) | CList (h : header) | CStr (s : bytes).
Record memory := { cells : nat -> option cell; brk : nat }.

Definition upd (f : nat -> option cell) (a : nat) (c : option cell) : nat -> option cell :=
  fun x => if (x =? a)%nat then c else f x.
Definition empty_memory : memory := {| cells := fun _ => None; brk := 0 |}.
(** malloc of one object, already holding what the caller writes into it. *)
Definition alloc (m : memory) (c : cell) : memory * nat :=
  ({| cells := upd (cells m) (brk m) (Some c); brk := S (brk m) |}, brk m).
Definition store (m : memory) (a : nat) (c : cell) : memory :=
  {| cells := upd (cells m) a (Some c); brk := brk m |}.
Definition load_node (m : memory) (p : ptr) : outcome (nat * node) :=
  match p with
  | None => UB
  | Some a => match cells m a with Some (CNode n) => Ok (a, n) | _ => UB end
  end.
Definition load_list (m : memory) (p : ptr) : outcome (nat * header) :=
  match p with
  | None => UB
  | Some a => match cells m a with Some (CList h) => Ok (a, h) | _ => UB end
  end.
(** What a char pointer shows. *)
Definition load_str (m : memory) (p : ptr) : outcome (option bytes) :=
  match p with
  | None => Ok None
  | Some a => match cells m a with Some (CStr s) => Ok (Some s) | _ => UB end
  end.
(** free(3): null is ignored, anything not allocated is undefined. *)
Definition release_cell (m : memory) (p : ptr) : outcome memory :=
  match p with
  | None => Ok m
  | Some a => match cells m a with
              | None => UB
              | Some _ => Ok {| cells := upd (cells m) a None; brk := brk m |}
              end
  end.
(** strdup(3) of a string; null is undefined. *)
Definition strdup (m : memory) (s : option bytes) (ok : bool) : outcome (memory * ptr) :=
  match s with
  | None => UB
  | Some s => if ok then let '(m', a) := alloc m (CStr s) in Ok (m', Some a) else Ok (m, None)
  end.

Inductive status := Success | BadAllocStatus | OutOfRangeStatus | BadAccessStatus.

(** collections.c:16-28. *)
Definition list_new (m : memory) (ok : bool) : memory * status * ptr :=
  if ok then
    let '(m', a) := alloc m (CList {| lcount := 0; lhead := None; ltail := None |}) in
    (m', Success, Some a)
  else (m, BadAllocStatus, None).

(** collections.c:44-73. *)
Definition list_append (m : memory) (handle : ptr) (key value : option bytes)
  (ok_node ok_key ok_value : bool) : outcome (memory * status) :=
  if ok_node then
    let '(m1, a) := alloc m (CNode {| nkey := None; nvalue := None; nprev := None; nnext := None |}) in
    do (m2, k) <- strdup m1 key ok_key;
    do (m3, v) <- strdup m2 value ok_value;
    do (l, h) <- load_list m3 handle;
    do m4 <- (match ltail h with
              | None => Ok (store m3 a (CNode {| nkey := k; nvalue := v; nprev := None; nnext := None |}))
              | Some _ =>
                  let m' := store m3 a (CNode {| nkey := k; nvalue := v; nprev := ltail h; nnext := None |}) in
                  do (t, n) <- load_node m' (ltail h);
                  Ok (store m' t (CNode {| nkey := nkey n; nvalue := nvalue n;
                                           nprev := nprev n; nnext := Some a |}))
              end);
    let head := match lhead h with None => Some a | _ => lhead h end in
    Ok (store m4 l (CList {| lcount := (lcount h + 1) mod 2 ^ 64; lhead := head; ltail := Some a |}),
        Success)
  else Ok (m, BadAllocStatus).

Definition ptr_eqb (p q : ptr) : bool :=
  match p, q with
  | None, None => true
  | Some a, Some b => (a =? b)%nat
  | _, _ => false
  end.

(** collections.c:75-100. *)
Definition list_delete_last (m : memory) (handle : ptr) : outcome (memory * status) :=
  do (l, h) <- load_list m handle;
  match ltail h with
  | None => Ok (m, Success)
  | Some _ =>
      do (a, n) <- load_node m (ltail h);
      let head := if ptr_eqb (lhead h) (ltail h) then None else lhead h in
      let tail := nprev n in
      do m1 <- (match tail with
                | None => Ok m
                | Some _ => do (t, n') <- load_node m tail;
                            Ok (store m t (CNode {| nkey := nkey n'; nvalue := nvalue n';
                                                    nprev := nprev n'; nnext := None |}))
                end);
      let m2 := store m1 l (CList {| lcount := (lcount h - 1) mod 2 ^ 64; lhead := head; ltail := tail |}) in
      do (_, n2) <- load_node m2 (Some a);
      do m3 <- release_cell m2 (nkey n2);
      do m4 <- release_cell m3 (nvalue n2);
      do m5 <- release_cell m4 (Some a);
      Ok (m5, Success)
  end.

(** collections.c:30-42: while count > 0 delete_last.  As many rounds are allowed as
    the count says; a list that still counts elements after them would never
    be done, which is reported as [UB]. *)
Fixpoint free_loop (n : nat) (m : memory) (handle : ptr) : outcome memory :=
  do (_, h) <- load_list m handle;
  if 0 <? lcount h then
    match n with
    | O => UB
    | S n' => do (m', _) <- list_delete_last m handle; free_loop n' m' handle
    end
  else Ok m.
Definition list_free (m : memory) (handle : ptr) : outcome (memory * status) :=
  match handle with
  | None => Ok (m, Success)
  | Some _ =>
      do (_, h) <- load_list m handle;
      do m1 <- free_loop (Z.to_nat (lcount h)) m handle;
      do m2 <- release_cell m1 handle;
      Ok (m2, Success)
  end.

(** collections.c:102. *)
Definition list_get_count (m : memory) (handle : ptr) : outcome Z :=
  do (_, h) <- load_list m handle; Ok (lcount h).

(** collections.c:111-115 and 134-138: node = node->next, [n] times. *)
Fixpoint walk (n : nat) (m : memory) (p : ptr) : outcome ptr :=
  match n with
  | O => Ok p
  | S n' => do (_, x) <- load_node m p; walk n' m (nnext x)
  end.
(** collections.c:104-125. *)
Definition list_get_element_at (m : memory) (handle : ptr) (position : Z)
  : outcome (status * option (ptr * ptr)) :=
  do (_, h) <- load_list m handle;
  if (lcount h =? 0) || (lcount h <=? position) then Ok (OutOfRangeStatus, None)
  else
    do p <- walk (Z.to_nat position) m (lhead h);
    match p with
    | None => Ok (BadAccessStatus, None)
    | Some _ => do (_, n) <- load_node m p; Ok (Success, Some (nkey n, nvalue n))
    end.
(** collections.c:127-147. *)
Definition list_get_value_at (m : memory) (handle : ptr) (position : Z)
  : outcome (status * option ptr) :=
  do (_, h) <- load_list m handle;
  if (lcount h =? 0) || (lcount h <=? position) then Ok (OutOfRangeStatus, None)
  else
    do p <- walk (Z.to_nat position) m (lhead h);
    match p with
    | None => Ok (BadAccessStatus, None)
    | Some _ => do (_, n) <- load_node m p; Ok (Success, Some (nvalue n))
    end.

(** The calls a client can make, and what it sees: strings are read through the
    returned pointers at once. *)
Inductive call :=
| New (ok : bool)
| Free (h : ptr)
| Append (h : ptr) (key value : option bytes) (ok_node ok_key ok_value : bool)
| DeleteLast (h : ptr)
| GetCount (h : ptr)
| ElementAt (h : ptr) (position : Z)
| ValueAt (h : ptr) (position : Z).
Inductive answer :=
| Done (s : status)
| Handle (s : status) (h : ptr)
| Count (n : Z)
| Element (key value : option bytes)
| Value (value : option bytes).

Definition do_call (m : memory) (c : call) : outcome (memory * answer) :=
  match c with
  | New ok => let '(m', s, p) := list_new m ok in Ok (m', Handle s p)
  | Free h => do (m', s) <- list_free m h; Ok (m', Done s)
  | Append h k v a b c => do (m', s) <- list_append m h k v a b c; Ok (m', Done s)
  | DeleteLast h => do (m', s) <- list_delete_last m h; Ok (m', Done s)
  | GetCount h => do n <- list_get_count m h; Ok (m, Count n)
  | ElementAt h i =>
      do (s, r) <- list_get_element_at m h i;
      match r with
      | None => Ok (m, Done s)
      | Some (k, v) => do k' <- load_str m k; do v' <- load_str m v; Ok (m, Element k' v')
      end
  | ValueAt h i =>
      do (s, r) <- list_get_value_at m h i;
      match r with
      | None => Ok (m, Done s)
      | Some v => do v' <- load_str m v; Ok (m, Value v')
      end
  end.
Fixpoint do_calls (m : memory) (l : list call) : outcome (memory * list answer) :=
  match l with
  | [] => Ok (m, [])
  | c :: t => do (m1, a) <- do_call m c; do (m2, b) <- do_calls m1 t; Ok (m2, a :: b)
  end.
