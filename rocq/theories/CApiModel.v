(** The C interface (src/electionguard/facades/*.cpp, collections.c) as seen by a C
    client: functions that receive and return opaque handles.  What a function
    computes is modelled elsewhere; here a function is its effect on the
    objects behind the handles, and memory is those objects.

    Simplifications.  An address is not used twice, so that every use of freed
    memory is seen.  C strings, numbers and byte arrays passed in are not
    tracked.  Whether a function throws (and so returns an error status), and
    whether it returns a null pointer, are arguments of the call.  A function
    that fails is taken to have had all its effects on its arguments. *)
From Coq Require Import PArith.
From Verif Require Import Base CApiClass CApiNames.

(** What the body does with the object a handle parameter points to.  [Use]: reads it
    (or changes it in place).  [Move]: std::move's its contents into a new
    object (manifest.cpp:191 and the other move constructors leave a null
    pimpl behind).  [Take]: wraps the pointer in a unique_ptr, which deletes
    it (facades/encrypt.cpp:352, 414).  [Delete]: deletes it.  [Keep]: stores
    a reference to it in the object returned (encrypt.cpp:102-115).  [Trim]:
    frees parts of it (collections.c:96-98; all parts are counted as freed). *)
Inductive effect := Use | Move | Take | Delete | Keep | Trim.
(** A parameter: its C type, the class the body reinterpret_casts it to, the effect,
    and whether null is answered by an error status.  An array parameter is a
    parameter receiving any number of handles. *)
Record param := { pdeclared : class; pcast : class; peffect : effect; pnull : bool; parray : bool }.
Definition arg c t e n : param := {| pdeclared := c; pcast := t; peffect := e; pnull := n; parray := false |}.
Definition arr c t e n : param := {| pdeclared := c; pcast := t; peffect := e; pnull := n; parray := true |}.
(** A handle returned: its C type and the class of the object, which is newly
    allocated, part of the object of the first argument, or a global constant. *)
Inductive result := Fresh (declared actual : class) | Inner (declared actual : class)
                  | Static (declared actual : class).
Record func := { fname : name; fsignature : list ctype; fparams : list param; fresults : list result }.
Definition fn n s p r : func := {| fname := n; fsignature := s; fparams := p; fresults := r |}.

(** The objects.  A separately allocated object may have been moved from or deleted and
    may hold references to others; a part lives in another object. *)
Inductive condition := Intact | MovedFrom | Deleted.
Inductive home := Allocated (c : condition) (keeps : list nat) | Within (owner : nat) | Global.
Record object := { oclass : class; ohome : home }.
Definition heap := list object.

(** reinterpret_cast to the class of the object or a base of it: electionguard/ballot.hpp
    (SubmittedBallot : CiphertextBallot), electionguard/manifest.hpp
    (ContestDescriptionWithPlaceholders : ContestDescription). *)
Definition derives (c base : class) : bool :=
  class_beq c base ||
  match c, base with
  | SubmittedBallot, CiphertextBallot => true
  | ContestDescriptionWithPlaceholders, ContestDescription => true
  | _, _ => false
  end.

Definition intact (h : heap) (n : nat) : bool :=
  match nth_error h n with
  | Some {| ohome := Allocated Intact _ |} => true
  | Some {| ohome := Global |} => true
  | _ => false
  end.
(** The allocation an object lives in; [None] for a global. *)
Definition owner_of (h : heap) (n : nat) : option nat :=
  match nth_error h n with
  | Some {| ohome := Allocated _ _ |} => Some n
  | Some {| ohome := Within r |} => Some r
  | _ => None
  end.
Definition references (h : heap) (n : nat) : list nat :=
  match nth_error h n with
  | Some {| ohome := Allocated _ k |} => k
  | _ => []
  end.
(** Using the object at [n] as a [c]: it must be one, its memory must be there with its
    contents, and so must everything it refers to.  A part of an object that
    was moved from is counted as gone, though it lives on in the object its
    owner was moved to. *)
Definition access (h : heap) (n : nat) (c : class) : bool :=
  match nth_error h n with
  | None => false
  | Some o =>
      derives (oclass o) c &&
      match owner_of h n with
      | None => true
      | Some r => intact h r && forallb (intact h) (references h r)
      end
  end.
Fixpoint set_condition (h : heap) (n : nat) (c : condition) : heap :=
  match h, n with
  | [], _ => []
  | o :: t, O =>
      match ohome o with
      | Allocated _ k => {| oclass := oclass o; ohome := Allocated c k |} :: t
      | _ => o :: t
      end
  | o :: t, S n' => o :: set_condition t n' c
  end.
Definition trim (h : heap) (n : nat) : heap :=
  map (fun o => match ohome o with
                | Within r => if (r =? n)%nat then {| oclass := oclass o; ohome := Allocated Deleted [] |} else o
                | _ => o
                end) h.
(** delete, delete[] and free of exactly one allocation, moved from or not, of exactly
    the class deleted. *)
Definition release_object (h : heap) (n : nat) (c : class) : outcome heap :=
  match nth_error h n with
  | Some {| oclass := c'; ohome := Allocated k _ |} =>
      match k with
      | Deleted => UB
      | _ => if class_beq c' c then Ok (set_condition h n Deleted) else UB
      end
  | _ => UB
  end.

(** One argument; null where it is not checked is dereferenced. *)
Definition touch (h : heap) (x : param * option nat) : outcome heap :=
  match x with
  | (p, None) => UB
  | (p, Some n) =>
      match peffect p with
      | Delete => Ok h
      | Use | Keep | Take => if access h n (pcast p) then Ok h else UB
      | Move => if access h n (pcast p)
                then match owner_of h n with
                     | Some r => Ok (set_condition h r MovedFrom)
                     | None => UB
                     end
                else UB
      | Trim => if access h n (pcast p)
                then match owner_of h n with
                     | Some r => Ok (trim h r)
                     | None => UB
                     end
                else UB
      end
  end.
(** Deletions, at the end of the body. *)
Definition reclaim (h : heap) (x : param * option nat) : outcome heap :=
  match x with
  | (p, Some n) => match peffect p with
                   | Take | Delete => release_object h n (pcast p)
                   | _ => Ok h
                   end
  | (_, None) => Ok h
  end.
(** The arguments of a call, one list for each parameter. *)
Fixpoint flatten (ps : list param) (args : list (list (option nat))) : list (param * option nat) :=
  match ps, args with
  | p :: ps', a :: args' => map (fun x => (p, x)) a ++ flatten ps' args'
  | _, _ => []
  end.
Fixpoint shaped (ps : list param) (args : list (list (option nat))) : bool :=
  match ps, args with
  | [], [] => true
  | p :: ps', a :: args' => (parray p || (length a =? 1)%nat) && shaped ps' args'
  | _, _ => false
  end.
Definition kept (l : list (param * option nat)) : list nat :=
  flat_map (fun x => match x with
                     | (p, Some n) => match peffect p with Keep => [n] | _ => [] end
                     | _ => []
                     end) l.
Definition first_handle (l : list (param * option nat)) : option nat :=
  match l with (_, Some n) :: _ => Some n | _ => None end.
(** The object behind a returned handle. *)
Definition new_object (h : heap) (l : list (param * option nat)) (r : result) : outcome object :=
  match r with
  | Fresh _ a => Ok {| oclass := a; ohome := Allocated Intact (kept l) |}
  | Static _ a => Ok {| oclass := a; ohome := Global |}
  | Inner _ a =>
      match first_handle l with
      | None => UB
      | Some n => Ok {| oclass := a;
                        ohome := match owner_of h n with Some o => Within o | None => Global end |}
      end
  end.

(** The client itself reads the plain C results. *)
Definition client_reads : list func :=
  [fn read_text [Ptr c_char] [arg Text Text Use false] [];
   fn read_bytes [Ptr c_uint8_t] [arg ByteBuffer ByteBuffer Use false] [];
   fn read_words [Ptr c_uint64_t] [arg Words Words Use false] []].

(** How a call ends: an error status, or success, where the pointers to parts may be null. *)
Inductive ending := Failed | ReturnedNull | Returned.
Definition returns_parts (f : func) : bool :=
  forallb (fun r => match r with Inner _ _ => true | _ => false end) (fresults f).
(** [Error]: nothing is returned.  The status is an error, except that
    eg_linked_list_free answers success for null (collections.c:32). *)
Inductive answer := Error | Handles (l : list (option nat)).
Definition call (h : heap) (f : func) (args : list (list (option nat))) (e : ending)
  : outcome (heap * answer) :=
  if negb (shaped (fparams f) args) then UB
  else
    let l := flatten (fparams f) args in
    if existsb (fun x => match x with (p, None) => pnull p | _ => false end) l then Ok (h, Error)
    else
      do h1 <- foldM touch l h;
      do h2 <- foldM reclaim l h1;
      match e with
      | Failed => Ok (h2, Error)
      | ReturnedNull => if returns_parts f then Ok (h2, Handles (map (fun _ => None) (fresults f)))
                        else Ok (h2, Error)
      | Returned =>
          do os <- mapM (new_object h l) (fresults f);
          Ok (h2 ++ os, Handles (map Some (seq (length h2) (length os))))
      end.

Record event := { ecall : name; eargs : list (list (option nat)); eending : ending }.
Definition lookup (fs : list func) (n : name) : option func :=
  find (fun f => Pos.eqb (fname f) n) fs.
(** A call of a name the library does not export does not link: such a program does not run. *)
Fixpoint run (fs : list func) (h : heap) (l : list event) : outcome (heap * list answer) :=
  match l with
  | [] => Ok (h, [])
  | e :: t =>
      match lookup fs (ecall e) with
      | None => Throw OtherExn
      | Some f =>
          do (h1, a) <- call h f (eargs e) (eending e);
          do (h2, b) <- run fs h1 t;
          Ok (h2, a :: b)
      end
  end.
(** Allocations not deleted. *)
Definition allocated (h : heap) : list nat :=
  filter (fun n => match nth_error h n with
                   | Some {| ohome := Allocated Deleted _ |} => false
                   | Some {| ohome := Allocated _ _ |} => true
                   | _ => false
                   end) (seq 0 (length h)).

(** The linker.  Only the declarations of the headers are extern "C" (the #include at the
    top of each facade file is, the definitions are not): a definition whose
    parameters differ from those declared for its name is another, C++
    function, and the name declared to C has no definition.  collections.c is C. *)
Fixpoint signature_eqb (a b : list ctype) : bool :=
  match a, b with
  | [], [] => true
  | x :: a', y :: b' => ctype_eqb x y && signature_eqb a' b'
  | _, _ => false
  end.
Definition link (declared : list (name * list ctype)) (fs : list func) : list func :=
  filter (fun f => existsb (fun d => Pos.eqb (fst d) (fname f) && signature_eqb (snd d) (fsignature f))
                           declared) fs.
