(** What group elements should look like from outside: plain numbers.  Independent of the
    objects of ElementModel; only the vocabulary of calls and results is shared. *)
From Verif Require Import Base GroupModel HashSpec ElementModel.
Local Open Scope Z_scope.

(** A value of one of the two classes, and the caller's wish that it be treated as a fixed base. *)
Record sval := { sv_kind : ekind; sv_val : Z; sv_fixed : bool }.
Definition sstore := list (option sval).

Definition s_size (k : ekind) : Z := match k with KP => 2 ^ 4096 | KQ => 2 ^ 256 end.
Definition s_bytes (k : ekind) : nat := match k with KP => 512 | KQ => 32 end.

Section Spec.
Context (gp : params).
Definition s_modulus (k : ekind) : Z := match k with KP => gpP gp | KQ => gpQ gp end.
Definition s_at (s : sstore) (i : nat) : option sval := nth i s None.
Definition s_set (s : sstore) (i : nat) (x : option sval) : sstore :=
  firstn i s ++ x :: skipn (S i) s.
Definition s_add (s : sstore) (x : sval) : sstore * eres := (s ++ [Some x], RHandle (length s)).
Definition s_limb (v : Z) (l : nat) (w : Z) : Z :=
  v mod 2 ^ (64 * Z.of_nat l) + w * 2 ^ (64 * Z.of_nat l)
  + v / 2 ^ (64 * Z.of_nat (S l)) * 2 ^ (64 * Z.of_nat (S l)).
Definition kind_eqb (a b : ekind) : bool := match a, b with KP, KP | KQ, KQ => true | _, _ => false end.

Definition s_step (s : sstore) (op : eop) : sstore * eres :=
  match op with
  | ENew k v unchecked fixed =>
      if unchecked || (v <=? s_modulus k)
      then s_add s {| sv_kind := k; sv_val := v; sv_fixed := match k with KP => fixed | KQ => false end |}
      else (s, RThrow OutOfRange)
  | ECopy i | EClone i => match s_at s i with Some x => s_add s x | None => (s, RMisuse) end
  | EAssign i j =>
      match s_at s i, s_at s j with
      | Some x, Some y => if kind_eqb (sv_kind x) (sv_kind y) then (s_set s i (Some y), RVoid) else (s, RMisuse)
      | _, _ => (s, RMisuse)
      end
  | EToHex i =>
      match s_at s i with Some x => (s, RText (sp_hex (s_bytes (sv_kind x)) (sv_val x))) | None => (s, RMisuse) end
  | ESetFixed i b =>
      match s_at s i with
      | Some {| sv_kind := KP; sv_val := v |} => (s_set s i (Some {| sv_kind := KP; sv_val := v; sv_fixed := b |}), RVoid)
      | _ => (s, RMisuse)
      end
  | EIsFixed i =>
      match s_at s i with Some {| sv_kind := KP; sv_fixed := b |} => (s, RBool b) | _ => (s, RMisuse) end
  | EWrite i l w =>
      match s_at s i with
      | Some x => if (Z.of_nat l * 64 <? Z.log2 (s_size (sv_kind x)))
                  then (s_set s i (Some {| sv_kind := sv_kind x; sv_val := s_limb (sv_val x) l w; sv_fixed := sv_fixed x |}), RVoid)
                  else (s, RMisuse)
      | None => (s, RMisuse)
      end
  | ELess i j =>
      match s_at s i, s_at s j with
      | Some x, Some y => if kind_eqb (sv_kind x) (sv_kind y) then (s, RBool (sv_val x <? sv_val y)) else (s, RMisuse)
      | _, _ => (s, RMisuse)
      end
  | EEqual i j =>
      match s_at s i, s_at s j with
      | Some x, Some y => if kind_eqb (sv_kind x) (sv_kind y) then (s, RBool (sv_val x =? sv_val y)) else (s, RMisuse)
      | _, _ => (s, RMisuse)
      end
  | EPow i j =>
      match s_at s i, s_at s j with
      | Some {| sv_kind := KP; sv_val := b |}, Some {| sv_kind := KQ; sv_val := e |} =>
          s_add s {| sv_kind := KP; sv_val := (b ^ e) mod gpP gp; sv_fixed := false |}
      | _, _ => (s, RMisuse)
      end
  | EDestroy i => match s_at s i with Some _ => (s_set s i None, RVoid) | None => (s, RMisuse) end
  end.

Fixpoint s_runs (s : sstore) (ops : list eop) : list eres :=
  match ops with
  | [] => []
  | op :: t => let '(s1, r) := s_step s op in r :: s_runs s1 t
  end.
Definition s_results (ops : list eop) : list eres := s_runs [] ops.

(** Arguments that fit the machine types. *)
Definition op_typed (op : eop) : bool :=
  match op with
  | ENew k v _ _ => (0 <=? v) && (v <? s_size k)
  | EWrite _ _ w => (0 <=? w) && (w <? 2 ^ 64)
  | _ => true
  end.

(** The discipline under which elements are values, told from the outside: [taken] marks the
    handles whose text has been asked for, by toHex or by a power of a fixed base; no such handle is
    written to, and no exponent above Q is given to clone(). *)
Definition taken (s : sstore) (seen : list nat) (op : eop) : list nat :=
  match op with
  | EToHex i => match s_at s i with Some _ => i :: seen | None => seen end
  | EPow i j =>
      match s_at s i, s_at s j with
      | Some {| sv_kind := KP; sv_fixed := true |}, Some {| sv_kind := KQ; sv_val := e |} =>
          if e =? 0 then seen else i :: seen
      | _, _ => seen
      end
  | EAssign i j =>
      match s_at s i, s_at s j with
      | Some x, Some y =>
          if kind_eqb (sv_kind x) (sv_kind y) then filter (fun k => negb (Nat.eqb k i)) seen else seen
      | _, _ => seen
      end
  | _ => seen
  end.
Definition op_kept (s : sstore) (seen : list nat) (op : eop) : bool :=
  match op with
  | EWrite i _ _ =>
      match s_at s i with
      | Some {| sv_kind := KP |} => negb (existsb (Nat.eqb i) seen)
      | _ => true
      end
  | EClone i =>
      match s_at s i with
      | Some {| sv_kind := KQ; sv_val := v |} => v <=? gpQ gp
      | _ => true
      end
  | _ => true
  end.
Fixpoint disciplined_from (s : sstore) (seen : list nat) (ops : list eop) : bool :=
  match ops with
  | [] => true
  | op :: t => op_typed op && op_kept s seen op && disciplined_from (fst (s_step s op)) (taken s seen op) t
  end.
Definition disciplined (ops : list eop) : bool := disciplined_from [] [] ops.
End Spec.

(** ** Erased memory *)
Definition mem_value (m : bytes) : Z := fold_right (fun b acc => b + 256 * acc) 0 m.
Definition erased (f : freed) : Prop := (forall b, In b (fr_data f) -> b = 0) /\ (forall b, In b (fr_hex f) -> b = 0).
