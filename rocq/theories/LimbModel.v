(** The bignum library of src/karamel at the level of its 64-bit limbs.

    A bignum is the little-endian list of its limbs.  The functions are generic
    in the number of limbs; Hacl_Bignum256.c is the instance with 4 limbs and
    Hacl_Bignum4096.c the instance with 64.  (In the 4-limb file the products are
    written out as school book loops; the Karatsuba function below falls back to
    exactly those loops when there are fewer than 32 limbs.)  The loops that the
    C code unrolls by four are the plain loops here.  An in-place update of an
    array is a function from the old contents to the new ones; arrays are given
    at their declared sizes, so reads past an end do not occur inside this file.
    The portable C versions of the carry and borrow primitives are modelled
    (lib_intrinsics.h:19-45), not the x86 intrinsics. *)
From Verif Require Import Base.
Open Scope Z_scope.

(** uint64_t arithmetic: wrap around and bitwise complement. *)
Definition u64 (x : Z) : Z := x mod W64.
Definition not64 (x : Z) : Z := W64 - 1 - x.

(** include/karamel/FStar_UInt_8_16_32_64.h:37-44 FStar_UInt64_eq_mask. *)
Definition eq_mask (a b : Z) : Z :=
  let x := Z.lxor a b in
  let minus_x := u64 (not64 x + 1) in
  let x_or_minus_x := Z.lor x minus_x in
  let xnx := Z.shiftr x_or_minus_x 63 in
  u64 (xnx - 1).

(** FStar_UInt_8_16_32_64.h:46-57 FStar_UInt64_gte_mask. *)
Definition gte_mask (x y : Z) : Z :=
  let x_xor_y := Z.lxor x y in
  let x_sub_y := u64 (x - y) in
  let x_sub_y_xor_y := Z.lxor x_sub_y y in
  let q := Z.lor x_xor_y x_sub_y_xor_y in
  let x_xor_q := Z.lxor x q in
  let x_xor_q_ := Z.shiftr x_xor_q 63 in
  u64 (x_xor_q_ - 1).

(** src/karamel/Hacl_IntTypes_Intrinsics.h:56-64 add_carry_u64: (carry, limb). *)
Definition add_carry (cin x y : Z) : Z * Z :=
  let res := u64 (x + cin + y) in
  let c := Z.land (Z.lor (not64 (gte_mask res x)) (Z.land (eq_mask res x) cin)) 1 in
  (c, res).

(** Hacl_IntTypes_Intrinsics.h:66-75 sub_borrow_u64: (borrow, limb). *)
Definition sub_borrow (cin x y : Z) : Z * Z :=
  let res := u64 (x - y - cin) in
  let c := Z.land (Z.lor (Z.land (gte_mask res x) (not64 (eq_mask res x)))
                         (Z.land (eq_mask res x) cin)) 1 in
  (c, res).

(** Array accesses: read, the [n] limbs from [i], overwrite from [i]. *)
Definition get (l : list Z) (i : nat) : Z := nth i l 0.
Definition slice (i n : nat) (l : list Z) : list Z := firstn n (skipn i l).
Definition splice (i : nat) (w l : list Z) : list Z :=
  firstn i l ++ w ++ skipn (i + length w) l.
Definition zeros (n : nat) : list Z := repeat 0 n.

(** Hacl_Bignum.c:34-42 mul_wide_add2_u64: (high limb, low limb). *)
Definition mul_wide_add2 (a b c_in out : Z) : Z * Z :=
  let res := (a * b + c_in + out) mod (W64 * W64) in
  (u64 (Z.shiftr res 64), u64 res).

(** Hacl_Bignum.c:197-240 bn_add_eq_len_u64 (also Hacl_Bignum256.c:58-100,
    Hacl_Bignum4096.c add): (carry, sum). *)
Fixpoint add_loop (c : Z) (a b : list Z) : Z * list Z :=
  match a, b with
  | x :: a', y :: b' =>
      let '(c1, r) := add_carry c x y in
      let '(c2, rs) := add_loop c1 a' b' in (c2, r :: rs)
  | _, _ => (c, [])
  end.
Definition lb_add (a b : list Z) : Z * list Z := add_loop 0 a b.

(** Hacl_Bignum.c:112-150 bn_sub_eq_len_u64: (borrow, difference). *)
Fixpoint sub_loop (c : Z) (a b : list Z) : Z * list Z :=
  match a, b with
  | x :: a', y :: b' =>
      let '(c1, r) := sub_borrow c x y in
      let '(c2, rs) := sub_loop c1 a' b' in (c2, r :: rs)
  | _, _ => (c, [])
  end.
Definition lb_sub (a b : list Z) : Z * list Z := sub_loop 0 a b.

(** One limb added to a bignum and the carry propagated
    (Hacl_Bignum.c:736-787), one limb subtracted
    (Hacl_Bignum4096.c:1391-1438, 1629-1676). *)
Fixpoint carry_loop (c : Z) (a : list Z) : list Z :=
  match a with
  | [] => []
  | x :: a' => let '(c1, r) := add_carry c x 0 in r :: carry_loop c1 a'
  end.
Definition add_limb (a : list Z) (v : Z) : list Z :=
  match a with
  | [] => []
  | x :: a' => let '(c1, r) := add_carry 0 x v in r :: carry_loop c1 a'
  end.
Fixpoint borrow_loop (c : Z) (a : list Z) : list Z :=
  match a with
  | [] => []
  | x :: a' => let '(c1, r) := sub_borrow c x 0 in r :: borrow_loop c1 a'
  end.
Definition sub_limb (a : list Z) (v : Z) : list Z :=
  match a with
  | [] => []
  | x :: a' => let '(c1, r) := sub_borrow 0 x v in r :: borrow_loop c1 a'
  end.

(** Constant time choice, as in Hacl_Bignum.c:676-683:
    os[i] = (m & a[i]) | (~m & b[i]). *)
Definition sel (m x y : Z) : Z := Z.lor (Z.land m x) (Z.land (not64 m) y).
Fixpoint sel_loop (m : Z) (a b : list Z) : list Z :=
  match a, b with
  | x :: a', y :: b' => sel m x y :: sel_loop m a' b'
  | _, _ => []
  end.

(** One row of the school book product: adds a * bj into the window [w], as long
    as a (Hacl_Bignum.c:293-325): (carry, new window). *)
Fixpoint mul_row (a : list Z) (bj c : Z) (w : list Z) : Z * list Z :=
  match a, w with
  | x :: a', y :: w' =>
      let '(c1, r) := mul_wide_add2 x bj c y in
      let '(c2, rs) := mul_row a' bj c1 w' in (c2, r :: rs)
  | _, _ => (c, [])
  end.

(** Hacl_Bignum.c:285-330 bn_mul_u64 (Hacl_Bignum256.c:379-424). *)
Definition mul_step (a : list Z) (res : list Z) (i : nat) (bj : Z) : list Z :=
  let '(c, w) := mul_row a bj 0 (slice i (length a) res) in
  splice (length a + i) [c] (splice i w res).
Fixpoint mul_loop (a : list Z) (i : nat) (b res : list Z) : list Z :=
  match b with
  | [] => res
  | bj :: b' => mul_loop a (S i) b' (mul_step a res i bj)
  end.
Definition lb_mul (a b : list Z) : list Z :=
  mul_loop a 0 b (zeros (length a + length b)).

(** Hacl_Bignum.c:400-468 bn_sqr_u64 (Hacl_Bignum256.c:433-502). *)
Definition sqr_step (a : list Z) (res : list Z) (i : nat) : list Z :=
  let '(c, w) := mul_row (firstn i a) (get a i) 0 (slice i i res) in
  splice (i + i) [c] (splice i w res).
Fixpoint sqr_diag (a : list Z) : list Z :=
  match a with
  | [] => []
  | x :: a' => let r := x * x in u64 r :: u64 (Z.shiftr r 64) :: sqr_diag a'
  end.
Definition lb_sqr (a : list Z) : list Z :=
  let res := fold_left (sqr_step a) (seq 0 (length a)) (zeros (length a + length a)) in
  let '(_, res) := lb_add res res in
  let '(_, res) := lb_add res (sqr_diag a) in res.

(** Hacl_Bignum.c:631-790 bn_karatsuba_mul_uint64.  [fuel] bounds the recursion
    depth; [length a] is always enough.  The scratch array is not represented. *)
Fixpoint kmul (fuel : nat) (a b : list Z) : list Z :=
  match fuel with
  | O => lb_mul a b
  | S fuel' =>
      let len := length a in
      if (len <? 32)%nat || Nat.odd len then lb_mul a b
      else
        let len2 := (len / 2)%nat in
        let a0 := firstn len2 a in let a1 := skipn len2 a in
        let b0 := firstn len2 b in let b1 := skipn len2 b in
        let '(c0, tmp) := lb_sub a0 a1 in
        let '(_, t0) := lb_sub a1 a0 in
        let t0 := sel_loop (u64 (0 - c0)) t0 tmp in
        let '(c1, tmp) := lb_sub b0 b1 in
        let '(_, t1) := lb_sub b1 b0 in
        let t1 := sel_loop (u64 (0 - c1)) t1 tmp in
        let t23 := kmul fuel' t0 t1 in
        let r01 := kmul fuel' a0 b0 in
        let r23 := kmul fuel' a1 b1 in
        let '(c2, t01) := lb_add r01 r23 in
        let c_sign := Z.lxor c0 c1 in
        let '(c3, t67) := lb_sub t01 t23 in
        let c31 := u64 (c2 - c3) in
        let '(c4, t45) := lb_add t01 t23 in
        let c41 := u64 (c2 + c4) in
        let mask := u64 (0 - c_sign) in
        let t45 := sel_loop mask t45 t67 in
        let c5 := sel mask c41 c31 in
        let res := r01 ++ r23 in
        let '(c6, mid) := lb_add (slice len2 len res) t45 in
        let res := splice len2 mid res in
        let c7 := u64 (c5 + c6) in
        splice (len + len2) (add_limb (skipn (len + len2) res) c7) res
  end.
Definition lb_kmul (a b : list Z) : list Z := kmul (length a) a b.

(** Hacl_Bignum.c:913-1040 bn_karatsuba_sqr_uint64. *)
Fixpoint ksqr (fuel : nat) (a : list Z) : list Z :=
  match fuel with
  | O => lb_sqr a
  | S fuel' =>
      let len := length a in
      if (len <? 32)%nat || Nat.odd len then lb_sqr a
      else
        let len2 := (len / 2)%nat in
        let a0 := firstn len2 a in let a1 := skipn len2 a in
        let '(c0, tmp) := lb_sub a0 a1 in
        let '(_, t0) := lb_sub a1 a0 in
        let t0 := sel_loop (u64 (0 - c0)) t0 tmp in
        let t23 := ksqr fuel' t0 in
        let r01 := ksqr fuel' a0 in
        let r23 := ksqr fuel' a1 in
        let '(c2, t01) := lb_add r01 r23 in
        let '(c3, t45) := lb_sub t01 t23 in
        let c5 := u64 (c2 - c3) in
        let res := r01 ++ r23 in
        let '(c6, mid) := lb_add (slice len2 len res) t45 in
        let res := splice len2 mid res in
        let c7 := u64 (c5 + c6) in
        splice (len + len2) (add_limb (skipn (len + len2) res) c7) res
  end.
Definition lb_ksqr (a : list Z) : list Z := ksqr (length a) a.

(** Hacl_Bignum.c:1135-1232 bn_add_mod_n_u64 (Hacl_Bignum256.c:163-240,
    Hacl_Bignum4096.c add_mod). *)
Definition lb_add_mod (n a b : list Z) : list Z :=
  let '(c0, res) := lb_add a b in
  let '(c1, tmp) := lb_sub res n in
  sel_loop (u64 (c0 - c1)) res tmp.

(** Comparison loop, Hacl_Bignum4096.c:1869-1882 lt_mask
    (Hacl_Bignum256.c:2082-2095). *)
Fixpoint lt_loop (acc : Z) (a b : list Z) : Z :=
  match a, b with
  | x :: a', y :: b' =>
      let beq := eq_mask x y in
      let blt := not64 (gte_mask x y) in
      lt_loop (Z.lor (Z.land beq acc)
                     (Z.land (not64 beq)
                             (Z.lor (Z.land blt (W64 - 1)) (Z.land (not64 blt) 0)))) a' b'
  | _, _ => acc
  end.
Definition lb_lt (a b : list Z) : Z := lt_loop 0 a b.

(** Hacl_Bignum4096.c:1889-1902 eq_mask (Hacl_Bignum256.c:2102). *)
Fixpoint eq_loop (acc : Z) (a b : list Z) : Z :=
  match a, b with
  | x :: a', y :: b' => eq_loop (Z.land (eq_mask x y) acc) a' b'
  | _, _ => acc
  end.
Definition lb_eq (a b : list Z) : Z := eq_loop (W64 - 1) a b.

(** Hacl_Bignum.c:57-68 bn_get_top_index_u64. *)
Fixpoint top_loop (priv : Z) (i : Z) (b : list Z) : Z :=
  match b with
  | [] => priv
  | x :: b' =>
      let mask := eq_mask x 0 in
      top_loop (Z.lor (Z.land mask priv) (Z.land (not64 mask) i)) (i + 1) b'
  end.
Definition top_index (b : list Z) : Z := top_loop 0 0 b.

(** Hacl_Bignum.c:1460-1482 mod_inv_uint64. *)
Definition inv_step (beta : Z) (uv : Z * Z) : Z * Z :=
  let '(us, vs) := uv in
  let alpha := 9223372036854775808 in
  let u_is_odd := u64 (0 - Z.land us 1) in
  let beta_if := Z.land beta u_is_odd in
  let ub := u64 (Z.shiftr (Z.lxor us beta_if) 1 + Z.land us beta_if) in
  let alpha_if := Z.land alpha u_is_odd in
  (ub, u64 (Z.shiftr vs 1 + alpha_if)).
Definition mod_inv_limb (n0 : Z) : Z := snd (Nat.iter 64 (inv_step n0) (1, 0)).

(** The bignum one and the modulus checks (Hacl_Bignum.c:1706-1737,
    Hacl_Bignum4096.c:709-735): all ones iff n is odd and 1 < n. *)
Definition lb_one (len : nat) : list Z := splice 0 [1] (zeros len).
Definition check_modulus (n : list Z) : Z :=
  Z.land (u64 (0 - Z.land (get n 0) 1)) (lb_lt (lb_one (length n)) n).

(** Hacl_Bignum.c:1739-1752 bn_precomp_r2_mod_n_u64 (Hacl_Bignum4096.c:401-414,
    Hacl_Bignum256.c:504-517). *)
Definition precomp_r2 (nBits : Z) (n : list Z) : list Z :=
  let len := length n in
  let i0 := Z.to_nat (nBits / 64) in
  let j := nBits mod 64 in
  let res := zeros len in
  let res := splice i0 [Z.lor (get res i0) (u64 (Z.shiftl 1 j))] res in
  Nat.iter (Z.to_nat (128 * Z.of_nat len - nBits)) (fun r => lb_add_mod n r r) res.

(** One round of the Montgomery reduction (Hacl_Bignum.c:1762-1803,
    Hacl_Bignum4096.c:421-467): carry and array. *)
Definition red_step (n : list Z) (mu : Z) (st : Z * list Z) (i : nat) : Z * list Z :=
  let '(c00, c) := st in
  let len := length n in
  let qj := u64 (mu * get c i) in
  let '(c1, w) := mul_row n qj 0 (slice i len c) in
  let c := splice i w c in
  let '(c00', r) := add_carry c00 c1 (get c (len + i)) in
  (c00', splice (len + i) [r] c).
Definition red_loop (n : list Z) (mu : Z) (c : list Z) : Z * list Z :=
  fold_left (red_step n mu) (seq 0 (length n)) (0, c).

(** Hacl_Bignum.c:1754-1863 bn_mont_reduction_u64, Hacl_Bignum4096.c:416-526
    reduction, Hacl_Bignum256.c:519-629. *)
Definition reduction (n : list Z) (mu : Z) (c : list Z) : list Z :=
  let '(c0, c') := red_loop n mu c in
  let res := skipn (length n) c' in
  let '(c1, tmp) := lb_sub res n in
  sel_loop (u64 (c0 - c1)) res tmp.

(** Hacl_Bignum4096.c:528-597 areduction (Hacl_Bignum256.c:631-700). *)
Definition areduction (n : list Z) (mu : Z) (c : list Z) : list Z :=
  let '(c0, c') := red_loop n mu c in
  let res := skipn (length n) c' in
  let '(_, tmp) := lb_sub res n in
  sel_loop (u64 (0 - c0)) tmp res.

(** Hacl_Bignum4096.c:599-614 (Hacl_Bignum256.c:702-826). *)
Definition amont_mul (n : list Z) (mu : Z) (aM bM : list Z) : list Z :=
  areduction n mu (lb_kmul aM bM).
Definition amont_sqr (n : list Z) (mu : Z) (aM : list Z) : list Z :=
  areduction n mu (lb_ksqr aM).

(** Hacl_Bignum4096.c:616-697 bn_slow_precomp (Hacl_Bignum256.c:829-911): the
    argument has twice as many limbs as the modulus. *)
Definition slow_precomp (n : list Z) (mu : Z) (r2 a : list Z) : list Z :=
  reduction n mu (lb_kmul (areduction n mu a) r2).

(** A Montgomery context, Hacl_Bignum4096.c:1479-1508 mont_ctx_init. *)
Record mont_ctx := { mc_n : list Z; mc_mu : Z; mc_r2 : list Z }.
Definition mont_ctx_init (n : list Z) : mont_ctx :=
  {| mc_n := n; mc_mu := mod_inv_limb (get n 0);
     mc_r2 := precomp_r2 (64 * top_index n) n |}.

(** Hacl_Bignum4096.c:1533-1542 mod_precomp. *)
Definition mod_precomp (k : mont_ctx) (a : list Z) : list Z :=
  slow_precomp (mc_n k) (mc_mu k) (mc_r2 k) a.

(** Hacl_Bignum4096.c:709-750 mod (Hacl_Bignum256.c:922-963): success flag and
    result. *)
Definition lb_mod (n a : list Z) : bool * list Z :=
  if check_modulus n =? W64 - 1 then
    (true, slow_precomp n (mod_inv_limb (get n 0)) (precomp_r2 (64 * top_index n) n) a)
  else (false, zeros (length n)).

(** Hacl_Bignum.c:1865-1911, called by Hacl_GenericField64.c:140-206 to_field,
    from_field and mul. *)
Definition to_mont (k : mont_ctx) (a : list Z) : list Z :=
  reduction (mc_n k) (mc_mu k) (lb_kmul a (mc_r2 k)).
Definition from_mont (k : mont_ctx) (aM : list Z) : list Z :=
  reduction (mc_n k) (mc_mu k) (aM ++ zeros (length (mc_n k))).
Definition mont_mul (k : mont_ctx) (aM bM : list Z) : list Z :=
  reduction (mc_n k) (mc_mu k) (lb_kmul aM bM).
Definition mont_sqr (k : mont_ctx) (aM : list Z) : list Z :=
  reduction (mc_n k) (mc_mu k) (lb_ksqr aM).

(** Bit [i] of an exponent (Hacl_Bignum4096.c:874-877). *)
Definition exp_bit (b : list Z) (i : Z) : Z :=
  Z.land (Z.shiftr (get b (Z.to_nat (i / 64))) (i mod 64)) 1.

(** The four bits from bit [i] (Hacl_Bignum4096.c:942-957); [bLen] is the number
    of limbs of the exponent. *)
Definition exp_window (bLen : Z) (b : list Z) (i : Z) : Z :=
  let i1 := i / 64 in
  let j := i mod 64 in
  let p1 := Z.shiftr (get b (Z.to_nat i1)) j in
  let ite := if (i1 + 1 <? bLen) && (0 <? j)
             then Z.lor p1 (u64 (Z.shiftl (get b (Z.to_nat (i1 + 1))) (64 - j)))
             else p1 in
  Z.land ite 15.

Definition exp_len (bBits : Z) : Z := if bBits =? 0 then 1 else (bBits - 1) / 64 + 1.

(** Table of the powers 0..15 (Hacl_Bignum4096.c:921-932). *)
Fixpoint pow_table (n : list Z) (mu : Z) (aM : list Z) (k : nat) (last : list Z)
  : list (list Z) :=
  match k with
  | O => [last]
  | S k' => last :: pow_table n mu aM k' (amont_mul n mu aM last)
  end.

(** Right to left binary method of exp_vartime_precomp
    (Hacl_Bignum4096.c:868-885). *)
Definition bin_step (n : list Z) (mu : Z) (b : list Z) (st : list Z * list Z) (i : nat)
  : list Z * list Z :=
  let '(resM, aM) := st in
  let resM := if exp_bit b (Z.of_nat i) =? 0 then resM else amont_mul n mu resM aM in
  (resM, amont_sqr n mu aM).

(** One window of the 4-bit fixed window method (Hacl_Bignum4096.c:959-990). *)
Definition win_step (sel_entry : list (list Z) -> Z -> list Z)
  (n : list Z) (mu : Z) (table : list (list Z)) (bBits : Z) (b : list Z)
  (resM : list Z) (i : nat) : list Z :=
  let resM := Nat.iter 4 (amont_sqr n mu) resM in
  let bk := bBits - bBits mod 4 in
  let bits := exp_window (exp_len bBits) b (bk - 4 * Z.of_nat i - 4) in
  amont_mul n mu resM (sel_entry table bits).

(** Table access by index (vartime) and by scanning (consttime,
    Hacl_Bignum4096.c:1103-1122). *)
Definition table_get (table : list (list Z)) (bits : Z) : list Z :=
  nth (Z.to_nat bits) table [].
Definition table_scan (table : list (list Z)) (bits : Z) : list Z :=
  fold_left (fun acc i => sel_loop (eq_mask bits (Z.of_nat i)) (nth i table []) acc)
            (seq 1 15) (nth 0 table []).

Definition win_exp (sel_entry : list (list Z) -> Z -> list Z)
  (n : list Z) (mu : Z) (r2 a : list Z) (bBits : Z) (b : list Z) : list Z :=
  let len := length n in
  let aM := reduction n mu (lb_kmul a r2) in
  let one := reduction n mu (r2 ++ zeros len) in
  let table := pow_table n mu aM 15 one in
  let resM := if bBits mod 4 =? 0 then one
              else sel_entry table (exp_window (exp_len bBits) b (bBits / 4 * 4)) in
  let resM := fold_left (win_step sel_entry n mu table bBits b)
                        (seq 0 (Z.to_nat (bBits / 4))) resM in
  reduction n mu (resM ++ zeros len).

(** Hacl_Bignum4096.c:846-993 exp_vartime_precomp. *)
Definition exp_vartime (n : list Z) (mu : Z) (r2 a : list Z) (bBits : Z) (b : list Z)
  : list Z :=
  if bBits <? 200 then
    let len := length n in
    let aM := reduction n mu (lb_kmul a r2) in
    let resM := reduction n mu (r2 ++ zeros len) in
    let '(resM, _) := fold_left (bin_step n mu b) (seq 0 (Z.to_nat bBits)) (resM, aM) in
    reduction n mu (resM ++ zeros len)
  else win_exp table_get n mu r2 a bBits b.

(** Conditional swap and Montgomery ladder of exp_consttime_precomp
    (Hacl_Bignum4096.c:1019-1058). *)
Fixpoint cswap (m : Z) (a b : list Z) : list Z * list Z :=
  match a, b with
  | x :: a', y :: b' =>
      let dummy := Z.land m (Z.lxor x y) in
      let '(ra, rb) := cswap m a' b' in
      (Z.lxor x dummy :: ra, Z.lxor y dummy :: rb)
  | _, _ => ([], [])
  end.
Definition ladder_step (n : list Z) (mu : Z) (bBits : Z) (b : list Z)
  (st : Z * (list Z * list Z)) (i : nat) : Z * (list Z * list Z) :=
  let '(sw, (resM, aM)) := st in
  let bit := exp_bit b (bBits - Z.of_nat i - 1) in
  let sw1 := Z.lxor bit sw in
  let '(resM, aM) := cswap (u64 (0 - sw1)) resM aM in
  let aM := amont_mul n mu aM resM in
  (bit, (amont_sqr n mu resM, aM)).

(** Hacl_Bignum4096.c:996-1195 exp_consttime_precomp. *)
Definition exp_consttime (n : list Z) (mu : Z) (r2 a : list Z) (bBits : Z) (b : list Z)
  : list Z :=
  if bBits <? 200 then
    let len := length n in
    let aM := reduction n mu (lb_kmul a r2) in
    let resM := reduction n mu (r2 ++ zeros len) in
    let '(sw, (resM, aM)) :=
      fold_left (ladder_step n mu bBits b) (seq 0 (Z.to_nat bBits)) (0, (resM, aM)) in
    let '(resM, _) := cswap (u64 (0 - sw)) resM aM in
    reduction n mu (resM ++ zeros len)
  else win_exp table_scan n mu r2 a bBits b.

(** Hacl_Bignum4096.c:1563-1618 mod_exp_vartime_precomp, mod_exp_consttime_precomp. *)
Definition mod_exp_vartime_precomp (k : mont_ctx) (a : list Z) (bBits : Z) (b : list Z) :=
  exp_vartime (mc_n k) (mc_mu k) (mc_r2 k) a bBits b.
Definition mod_exp_consttime_precomp (k : mont_ctx) (a : list Z) (bBits : Z) (b : list Z) :=
  exp_consttime (mc_n k) (mc_mu k) (mc_r2 k) a bBits b.

(** Hacl_Bignum4096.c:752-843 exp_check. *)
Definition exp_check (n a : list Z) (bBits : Z) (b : list Z) : Z :=
  let m0 := check_modulus n in
  let bLen := exp_len bBits in
  let m1 :=
    if bBits <? 64 * bLen then
      let b2 := zeros (Z.to_nat bLen) in
      let i0 := Z.to_nat (bBits / 64) in
      let b2 := splice i0 [Z.lor (get b2 i0) (u64 (Z.shiftl 1 (bBits mod 64)))] b2 in
      lb_lt (firstn (Z.to_nat bLen) b) b2
    else W64 - 1 in
  let m2 := lb_lt a n in
  Z.land m0 (Z.land m1 m2).

(** Hacl_Bignum4096.c:1252-1314 mod_exp_vartime, mod_exp_consttime: success flag
    and result. *)
Definition mod_exp (ct : bool) (n a : list Z) (bBits : Z) (b : list Z) : bool * list Z :=
  if exp_check n a bBits b =? W64 - 1 then
    let r2 := precomp_r2 (64 * top_index n) n in
    let mu := mod_inv_limb (get n 0) in
    (true, (if ct then exp_consttime else exp_vartime) n mu r2 a bBits b)
  else (false, zeros (length n)).

(** Hacl_Bignum4096.c:1332-1451 mod_inv_prime_vartime. *)
Definition mod_inv_prime (n a : list Z) : bool * list Z :=
  let m0 := check_modulus n in
  let m1 := lb_eq a (zeros (length n)) in
  let m2 := lb_lt a n in
  if Z.land (Z.land m0 (not64 m1)) m2 =? W64 - 1 then
    let r2 := precomp_r2 (64 * top_index n) n in
    let mu := mod_inv_limb (get n 0) in
    (true, exp_vartime n mu r2 a (64 * Z.of_nat (length n)) (sub_limb n 2))
  else (false, zeros (length n)).

(** Loads and stores.  load64_be / store64_be (krml/lowstar_endianness.h) are
    the big-endian value of eight bytes and back. *)
Definition load64_be (l : bytes) : Z := fold_left (fun acc x => acc * 256 + x) l 0.
Definition store64_be (v : Z) : bytes :=
  map (fun k => (v / 2 ^ (8 * k)) mod 256) [7; 6; 5; 4; 3; 2; 1; 0].

(** Hacl_Bignum4096.c:1698-1743 new_bn_from_bytes_be (Hacl_Bignum256.c:1911);
    None is a null pointer.  The failure of calloc is not represented. *)
Definition bn_from_bytes_be (l : bytes) : option (list Z) :=
  let len := Z.of_nat (length l) in
  if (len =? 0) || negb ((len - 1) / 8 + 1 <=? 536870911) then None
  else
    let bnLen := Z.to_nat ((len - 1) / 8 + 1) in
    let tmp := repeat 0 (8 * bnLen - length l) ++ l in
    Some (map (fun i => load64_be (firstn 8 (skipn ((bnLen - i - 1) * 8) tmp)))
              (seq 0 bnLen)).

(** Hacl_Bignum4096.c:1811-1831 bn_to_bytes_be (Hacl_Bignum256.c:2024). *)
Definition bn_to_bytes_be (b : list Z) : bytes :=
  let bnLen := length b in
  flat_map (fun i => store64_be (get b (bnLen - i - 1))) (seq 0 bnLen).
