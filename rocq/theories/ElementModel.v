(** ElementModP and ElementModQ as objects with a lifetime (src/electionguard/group.cpp:109-270,
    272-420): the cached hex text, the fixed-base flag and the table cache it leads to, copies,
    assignments, and the memory a destructor leaves behind. *)
From Verif Require Import Base GroupModel CodecModel LookupModel.
Local Open Scope Z_scope.

Inductive ekind := KP | KQ.
(** constants.h MAX_P_LEN, MAX_Q_LEN: limbs of 64 bits. *)
Definition limb_count (k : ekind) : nat := match k with KP => 64 | KQ => 4 end.

(** group.cpp:109-113 and 274-276, the two Impl structures.  [eo_data] is the number held by the
    limb array.  An ElementModQ has neither flag nor text; they stay false and empty. *)
Record eobj := { eo_kind : ekind; eo_data : Z; eo_fixed : bool; eo_hex : bytes }.

(** Memory given back to the allocator: the bytes of the data array (little endian hosts, lowest
    byte first) and the characters of the text. *)
Record freed := { fr_data : bytes; fr_hex : bytes }.

(** Handles are positions of [es_objs]; [None] is a destroyed element. *)
Record estate := { es_objs : list (option eobj); es_cache : cache; es_freed : list freed }.
Definition einit : estate := {| es_objs := []; es_cache := []; es_freed := [] |}.

Inductive eop :=
| ENew (k : ekind) (v : Z) (unchecked fixed : bool)
| ECopy (i : nat)
| EClone (i : nat)
| EAssign (i j : nat)
| EToHex (i : nat)
| ESetFixed (i : nat) (b : bool)
| EIsFixed (i : nat)
| EWrite (i limb : nat) (w : Z)
| ELess (i j : nat)
| EEqual (i j : nat)
| EPow (i j : nat)
| EDestroy (i : nat).

Inductive eres :=
| RVoid | RHandle (n : nat) | RBool (b : bool) | RText (s : bytes) | RThrow (e : exn)
| RMisuse.   (* a destroyed or unknown handle, operands of the wrong class, a limb outside the array *)

(** The memory image of a 64-bit limb array holding [v]. *)
Definition image (limbs : nat) (v : Z) : bytes :=
  map (fun i => (v / 2 ^ (8 * Z.of_nat i)) mod 256) (seq 0 (8 * limbs)).

(** src/karamel/Lib_Memzero0.c:31-56: the first [len] bytes become zero. *)
Definition memzero (len : nat) (m : bytes) : bytes := repeat 0 (min len (length m)) ++ skipn len m.

(** group.cpp:137, 296: ~Impl passes the number of limbs as the length.  The text is released by
    ~string, which writes nothing. *)
Definition eobj_release (o : eobj) : freed :=
  {| fr_data := memzero (limb_count (eo_kind o)) (image (limb_count (eo_kind o)) (eo_data o));
     fr_hex := eo_hex o |}.

(** group.cpp:139-142, 298-301 Impl::clone, used by the copy constructors (166, 325): unchecked,
    with the flag and without the text. *)
Definition eobj_copy (o : eobj) : eobj :=
  {| eo_kind := eo_kind o; eo_data := eo_data o; eo_fixed := eo_fixed o; eo_hex := [] |}.

Section Element.
Context (gp : params).

(** group.cpp:127-135, 286-294 constructors from an array. *)
Definition eobj_new (k : ekind) (v : Z) (unchecked fixed : bool) : outcome eobj :=
  match k with
  | KP => do d <- make_p gp 64 v unchecked; Ok {| eo_kind := KP; eo_data := d; eo_fixed := fixed; eo_hex := [] |}
  | KQ => do d <- make_q gp 4 v unchecked; Ok {| eo_kind := KQ; eo_data := d; eo_fixed := false; eo_hex := [] |}
  end.

(** group.cpp:241-244 ElementModP::clone is unchecked; 414-417 ElementModQ::clone is checked. *)
Definition eobj_clone (o : eobj) : outcome eobj :=
  match eo_kind o with
  | KP => eobj_new KP (eo_data o) true (eo_fixed o)
  | KQ => eobj_new KQ (eo_data o) false false
  end.

(** group.cpp:226-239 ElementModP::toHex fills the text when it is empty and returns it;
    375-383 ElementModQ::toHex computes it anew. *)
Definition eobj_tohex (o : eobj) : bytes * eobj :=
  match eo_kind o with
  | KP =>
      match eo_hex o with
      | [] => let t := to_hex_p (eo_data o) in
              (t, {| eo_kind := KP; eo_data := eo_data o; eo_fixed := eo_fixed o; eo_hex := t |})
      | _ => (eo_hex o, o)
      end
  | KQ => (to_hex_q (eo_data o), o)
  end.

(** One limb stored through the pointer of get() or the reference of ref() (198-200, 354-356; the C
    interface hands out the same pointer in eg_element_mod_p_get_data): text and flag stay. *)
Definition put_limb (v : Z) (limb : nat) (w : Z) : Z :=
  v - (v / 2 ^ (64 * Z.of_nat limb)) mod 2 ^ 64 * 2 ^ (64 * Z.of_nat limb) + w * 2 ^ (64 * Z.of_nat limb).
Definition eobj_write (o : eobj) (limb : nat) (w : Z) : eobj :=
  {| eo_kind := eo_kind o; eo_data := put_limb (eo_data o) limb w; eo_fixed := eo_fixed o; eo_hex := eo_hex o |}.

(** group.cpp:246 setIsFixedBase *)
Definition eobj_fix (o : eobj) (b : bool) : eobj :=
  {| eo_kind := eo_kind o; eo_data := eo_data o; eo_fixed := b; eo_hex := eo_hex o |}.

(** group.cpp:609-628 pow_mod_p: a fixed base is looked up under its (possibly cached) text.
    Returns the result, the base afterwards and the table cache afterwards. *)
Definition eobj_pow (c : cache) (b : eobj) (e : Z) : Z * eobj * cache :=
  if e =? 0 then (1, b, c)
  else if eo_fixed b then
    let '(t, b') := eobj_tohex b in
    let '(tb, c') := cache_get gp c t (eo_data b) in
    (table_pow (gpP gp) tb e, b', c')
  else (pow_mod_p_p gp (eo_data b) e, b, c).

Definition obj_at (s : estate) (i : nat) : option eobj :=
  match nth_error (es_objs s) i with Some (Some o) => Some o | _ => None end.
Fixpoint put {A} (l : list A) (i : nat) (x : A) : list A :=
  match l, i with
  | [], _ => []
  | _ :: t, O => x :: t
  | y :: t, S k => y :: put t k x
  end.
Definition set_obj (s : estate) (i : nat) (o : option eobj) : estate :=
  {| es_objs := put (es_objs s) i o; es_cache := es_cache s; es_freed := es_freed s |}.
Definition add_obj (s : estate) (o : eobj) : estate * eres :=
  ({| es_objs := es_objs s ++ [Some o]; es_cache := es_cache s; es_freed := es_freed s |},
   RHandle (length (es_objs s))).
Definition add_result (s : estate) (r : outcome eobj) : estate * eres :=
  match r with Ok o => add_obj s o | Throw e => (s, RThrow e) | UB => (s, RMisuse) end.
Definition release (s : estate) (f : freed) : estate :=
  {| es_objs := es_objs s; es_cache := es_cache s; es_freed := es_freed s ++ [f] |}.
Definition same_kind (a b : eobj) : bool :=
  match eo_kind a, eo_kind b with KP, KP => true | KQ, KQ => true | _, _ => false end.

Definition estep (s : estate) (op : eop) : estate * eres :=
  match op with
  | ENew k v u f => add_result s (eobj_new k v u f)
  | ECopy i => match obj_at s i with Some o => add_obj s (eobj_copy o) | None => (s, RMisuse) end
  | EClone i => match obj_at s i with Some o => add_result s (eobj_clone o) | None => (s, RMisuse) end
  (* 184-188, 340-344: the parameter is a copy of the source; the Impl pointers are swapped and the
     old Impl goes with the parameter *)
  | EAssign i j =>
      match obj_at s i, obj_at s j with
      | Some o, Some p =>
          if same_kind o p then (release (set_obj s i (Some (eobj_copy p))) (eobj_release o), RVoid)
          else (s, RMisuse)
      | _, _ => (s, RMisuse)
      end
  | EToHex i =>
      match obj_at s i with
      | Some o => let '(t, o') := eobj_tohex o in (set_obj s i (Some o'), RText t)
      | None => (s, RMisuse)
      end
  | ESetFixed i b =>
      match obj_at s i with
      | Some o => match eo_kind o with KP => (set_obj s i (Some (eobj_fix o b)), RVoid) | KQ => (s, RMisuse) end
      | None => (s, RMisuse)
      end
  | EIsFixed i =>
      match obj_at s i with
      | Some o => match eo_kind o with KP => (s, RBool (eo_fixed o)) | KQ => (s, RMisuse) end
      | None => (s, RMisuse)
      end
  | EWrite i l w =>
      match obj_at s i with
      | Some o =>
          if (l <? limb_count (eo_kind o))%nat then (set_obj s i (Some (eobj_write o l w)), RVoid)
          else (s, RMisuse)
      | None => (s, RMisuse)
      end
  (* 156-161, 315-320: the right operand's Impl is copied (implicit copy constructor, text included)
     and the copy destroyed *)
  | ELess i j =>
      match obj_at s i, obj_at s j with
      | Some o, Some p =>
          if same_kind o p then (release s (eobj_release p), RBool (elem_lt (eo_data o) (eo_data p)))
          else (s, RMisuse)
      | _, _ => (s, RMisuse)
      end
  (* 144-154, 303-313 *)
  | EEqual i j =>
      match obj_at s i, obj_at s j with
      | Some o, Some p =>
          if same_kind o p then (s, RBool (elem_eq (eo_data o) (eo_data p))) else (s, RMisuse)
      | _, _ => (s, RMisuse)
      end
  | EPow i j =>
      match obj_at s i, obj_at s j with
      | Some o, Some p =>
          match eo_kind o, eo_kind p with
          | KP, KQ =>
              let '(r, o', c') := eobj_pow (es_cache s) o (eo_data p) in
              add_result {| es_objs := put (es_objs s) i (Some o'); es_cache := c'; es_freed := es_freed s |}
                         (eobj_new KP r true false)
          | _, _ => (s, RMisuse)
          end
      | _, _ => (s, RMisuse)
      end
  | EDestroy i =>
      match obj_at s i with
      | Some o => (release (set_obj s i None) (eobj_release o), RVoid)
      | None => (s, RMisuse)
      end
  end.

Fixpoint eruns (s : estate) (ops : list eop) : estate * list eres :=
  match ops with
  | [] => (s, [])
  | op :: t => let '(s1, r) := estep s op in let '(s2, rs) := eruns s1 t in (s2, r :: rs)
  end.
Definition eresults (ops : list eop) : list eres := snd (eruns einit ops).
End Element.

(** ** Two threads reading one element (group.cpp:226-239)
    toHex in steps: read whether the text is empty; if so write it; read it again to return it.
    [TDone r] holds what was returned. *)
Inductive tpc := TStart | TFill | TRead | TDone (r : bytes).
Record tstate := { th_hex : bytes; th_pcs : list tpc }.
Definition tinit (hex : bytes) (n : nat) : tstate := {| th_hex := hex; th_pcs := repeat TStart n |}.
Definition tstep (v : Z) (s : tstate) (i : nat) : option tstate :=
  match nth_error (th_pcs s) i with
  | Some TStart =>
      Some {| th_hex := th_hex s;
              th_pcs := put (th_pcs s) i (match th_hex s with [] => TFill | _ => TRead end) |}
  | Some TFill => Some {| th_hex := to_hex_p v; th_pcs := put (th_pcs s) i TRead |}
  | Some TRead => Some {| th_hex := th_hex s; th_pcs := put (th_pcs s) i (TDone (th_hex s)) |}
  | _ => None
  end.
Fixpoint truns (v : Z) (s : tstate) (sched : list nat) : option tstate :=
  match sched with
  | [] => Some s
  | i :: t => match tstep v s i with Some s' => truns v s' t | None => None end
  end.
(** A data race: two different threads about to touch the text, one of them writing it. *)
Definition writes_text (p : tpc) : bool := match p with TFill => true | _ => false end.
Definition touches_text (p : tpc) : bool := match p with TDone _ => false | _ => true end.
Definition races (s : tstate) : Prop :=
  exists i j p q, i <> j /\ nth_error (th_pcs s) i = Some p /\ nth_error (th_pcs s) j = Some q
    /\ writes_text p = true /\ touches_text q = true.
