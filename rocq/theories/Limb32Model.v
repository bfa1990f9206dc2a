(** The 32-bit variant of the bignum library, which Windows builds use for
    numbers modulo P (facades/Hacl_Bignum4096.cpp under _WIN32): Hacl_Bignum4096_32.c,
    Hacl_GenericField32.c and the u32 functions of Hacl_Bignum.c, all in src/karamel.

    The conventions are those of LimbModel.v: a bignum is the little-endian list of
    its limbs, here 32 bits each; the functions are generic in the number of limbs
    (the code uses 128); loops unrolled by four are plain loops; in-place updates are
    functions from the old contents to the new ones.  The portable C versions of
    carry and borrow are modelled, not the x86 intrinsics. *)
From Verif Require Import Base.
Open Scope Z_scope.

(** uint32_t arithmetic: wrap around and bitwise complement. *)
Definition W32 : Z := 2 ^ 32.
Definition u32 (x : Z) : Z := x mod W32.
Definition not32 (x : Z) : Z := W32 - 1 - x.

(** include/karamel/FStar_UInt_8_16_32_64.h:85-92 FStar_UInt32_eq_mask. *)
Definition eq_mask (a b : Z) : Z :=
  let x := Z.lxor a b in
  let minus_x := u32 (not32 x + 1) in
  let x_or_minus_x := Z.lor x minus_x in
  let xnx := Z.shiftr x_or_minus_x 31 in
  u32 (xnx - 1).

(** FStar_UInt_8_16_32_64.h:94-105 FStar_UInt32_gte_mask. *)
Definition gte_mask (x y : Z) : Z :=
  let x_xor_y := Z.lxor x y in
  let x_sub_y := u32 (x - y) in
  let x_sub_y_xor_y := Z.lxor x_sub_y y in
  let q := Z.lor x_xor_y x_sub_y_xor_y in
  let x_xor_q := Z.lxor x q in
  let x_xor_q_ := Z.shiftr x_xor_q 31 in
  u32 (x_xor_q_ - 1).

(** src/karamel/Hacl_IntTypes_Intrinsics.h:38-45 add_carry_u32: (carry, limb).  The
    sum is formed in 64 bits, unlike the masks of the 64-bit version. *)
Definition add_carry (cin x y : Z) : Z * Z :=
  let res := (x + cin + y) mod W64 in
  (u32 (Z.shiftr res 32), u32 res).

(** Hacl_IntTypes_Intrinsics.h:47-54 sub_borrow_u32: (borrow, limb). *)
Definition sub_borrow (cin x y : Z) : Z * Z :=
  let res := (x - y - cin) mod W64 in
  (Z.land (u32 (Z.shiftr res 32)) 1, u32 res).

(** Array accesses: read, the [n] limbs from [i], overwrite from [i]. *)
Definition get (l : list Z) (i : nat) : Z := nth i l 0.
Definition slice (i n : nat) (l : list Z) : list Z := firstn n (skipn i l).
Definition splice (i : nat) (w l : list Z) : list Z :=
  firstn i l ++ w ++ skipn (i + length w) l.
Definition zeros (n : nat) : list Z := repeat 0 n.

(** Hacl_Bignum.c:26-32 mul_wide_add2_u32: (high limb, low limb). *)
Definition mul_wide_add2 (a b c_in out : Z) : Z * Z :=
  let res := (a * b + c_in + out) mod (W32 * W32) in
  (u32 (Z.shiftr res 32), u32 res).

(** Hacl_Bignum.c:154-195 bn_add_eq_len_u32 (also Hacl_Bignum4096_32.c:62-104 add):
    (carry, sum). *)
Fixpoint add_loop (c : Z) (a b : list Z) : Z * list Z :=
  match a, b with
  | x :: a', y :: b' =>
      let '(c1, r) := add_carry c x y in
      let '(c2, rs) := add_loop c1 a' b' in (c2, r :: rs)
  | _, _ => (c, [])
  end.
Definition lb_add (a b : list Z) : Z * list Z := add_loop 0 a b.

(** Hacl_Bignum.c:70-110 bn_sub_eq_len_u32 (Hacl_Bignum4096_32.c:113-155 sub):
    (borrow, difference). *)
Fixpoint sub_loop (c : Z) (a b : list Z) : Z * list Z :=
  match a, b with
  | x :: a', y :: b' =>
      let '(c1, r) := sub_borrow c x y in
      let '(c2, rs) := sub_loop c1 a' b' in (c2, r :: rs)
  | _, _ => (c, [])
  end.
Definition lb_sub (a b : list Z) : Z * list Z := sub_loop 0 a b.

(** One limb added to a bignum and the carry propagated (Hacl_Bignum.c:578-622). *)
Fixpoint carry_loop (c : Z) (a : list Z) : list Z :=
  match a with
  | [] => []
  | x :: a' => let '(c1, r) := add_carry c x 0 in r :: carry_loop c1 a'
  end.
Definition add_limb (a : list Z) (v : Z) : list Z :=
  match a with
  | [] => []
  | x :: a' => let '(c1, r) := add_carry 0 x v in r :: carry_loop c1 a'
  end.
(** Constant time choice, as in Hacl_Bignum.c:523-530:
    os[i] = (m & a[i]) | (~m & b[i]). *)
Definition sel (m x y : Z) : Z := Z.lor (Z.land m x) (Z.land (not32 m) y).
Fixpoint sel_loop (m : Z) (a b : list Z) : list Z :=
  match a, b with
  | x :: a', y :: b' => sel m x y :: sel_loop m a' b'
  | _, _ => []
  end.

(** One row of the school book product: adds a * bj into the window [w], as long
    as a (Hacl_Bignum.c:248-280): (carry, new window). *)
Fixpoint mul_row (a : list Z) (bj c : Z) (w : list Z) : Z * list Z :=
  match a, w with
  | x :: a', y :: w' =>
      let '(c1, r) := mul_wide_add2 x bj c y in
      let '(c2, rs) := mul_row a' bj c1 w' in (c2, r :: rs)
  | _, _ => (c, [])
  end.

(** Hacl_Bignum.c:240-283 bn_mul_u32. *)
Definition mul_step (a : list Z) (res : list Z) (i : nat) (bj : Z) : list Z :=
  let '(c, w) := mul_row a bj 0 (slice i (length a) res) in
  splice (length a + i) [c] (splice i w res).
Fixpoint mul_loop (a : list Z) (i : nat) (b res : list Z) : list Z :=
  match b with
  | [] => res
  | bj :: b' => mul_loop a (S i) b' (mul_step a res i bj)
  end.
Definition lb_mul (a b : list Z) : list Z :=
  mul_loop a 0 b (zeros (length a + length b)).

(** Hacl_Bignum.c:330-398 bn_sqr_u32. *)
Definition sqr_step (a : list Z) (res : list Z) (i : nat) : list Z :=
  let '(c, w) := mul_row (firstn i a) (get a i) 0 (slice i i res) in
  splice (i + i) [c] (splice i w res).
Fixpoint sqr_diag (a : list Z) : list Z :=
  match a with
  | [] => []
  | x :: a' => let r := x * x in u32 r :: u32 (Z.shiftr r 32) :: sqr_diag a'
  end.
Definition lb_sqr (a : list Z) : list Z :=
  let res := fold_left (sqr_step a) (seq 0 (length a)) (zeros (length a + length a)) in
  let '(_, res) := lb_add res res in
  let '(_, res) := lb_add res (sqr_diag a) in res.

(** Hacl_Bignum.c:471-629 bn_karatsuba_mul_uint32.  [fuel] bounds the recursion
    depth; [length a] is always enough.  The scratch array is not represented. *)
Fixpoint kmul (fuel : nat) (a b : list Z) : list Z :=
  match fuel with
  | O => lb_mul a b
  | S fuel' =>
      let len := length a in
      if (len <? 32)%nat || Nat.odd len then lb_mul a b
      else
        let len2 := (len / 2)%nat in
        let a0 := firstn len2 a in let a1 := skipn len2 a in
        let b0 := firstn len2 b in let b1 := skipn len2 b in
        let '(c0, tmp) := lb_sub a0 a1 in
        let '(_, t0) := lb_sub a1 a0 in
        let t0 := sel_loop (u32 (0 - c0)) t0 tmp in
        let '(c1, tmp) := lb_sub b0 b1 in
        let '(_, t1) := lb_sub b1 b0 in
        let t1 := sel_loop (u32 (0 - c1)) t1 tmp in
        let t23 := kmul fuel' t0 t1 in
        let r01 := kmul fuel' a0 b0 in
        let r23 := kmul fuel' a1 b1 in
        let '(c2, t01) := lb_add r01 r23 in
        let c_sign := Z.lxor c0 c1 in
        let '(c3, t67) := lb_sub t01 t23 in
        let c31 := u32 (c2 - c3) in
        let '(c4, t45) := lb_add t01 t23 in
        let c41 := u32 (c2 + c4) in
        let mask := u32 (0 - c_sign) in
        let t45 := sel_loop mask t45 t67 in
        let c5 := sel mask c41 c31 in
        let res := r01 ++ r23 in
        let '(c6, mid) := lb_add (slice len2 len res) t45 in
        let res := splice len2 mid res in
        let c7 := u32 (c5 + c6) in
        splice (len + len2) (add_limb (skipn (len + len2) res) c7) res
  end.
Definition lb_kmul (a b : list Z) : list Z := kmul (length a) a b.

(** Hacl_Bignum.c:791-911 bn_karatsuba_sqr_uint32. *)
Fixpoint ksqr (fuel : nat) (a : list Z) : list Z :=
  match fuel with
  | O => lb_sqr a
  | S fuel' =>
      let len := length a in
      if (len <? 32)%nat || Nat.odd len then lb_sqr a
      else
        let len2 := (len / 2)%nat in
        let a0 := firstn len2 a in let a1 := skipn len2 a in
        let '(c0, tmp) := lb_sub a0 a1 in
        let '(_, t0) := lb_sub a1 a0 in
        let t0 := sel_loop (u32 (0 - c0)) t0 tmp in
        let t23 := ksqr fuel' t0 in
        let r01 := ksqr fuel' a0 in
        let r23 := ksqr fuel' a1 in
        let '(c2, t01) := lb_add r01 r23 in
        let '(c3, t45) := lb_sub t01 t23 in
        let c5 := u32 (c2 - c3) in
        let res := r01 ++ r23 in
        let '(c6, mid) := lb_add (slice len2 len res) t45 in
        let res := splice len2 mid res in
        let c7 := u32 (c5 + c6) in
        splice (len + len2) (add_limb (skipn (len + len2) res) c7) res
  end.
Definition lb_ksqr (a : list Z) : list Z := ksqr (length a) a.

(** Hacl_Bignum.c:1035-1133 bn_add_mod_n_u32 (Hacl_Bignum4096_32.c:167-266). *)
Definition lb_add_mod (n a b : list Z) : list Z :=
  let '(c0, res) := lb_add a b in
  let '(c1, tmp) := lb_sub res n in
  sel_loop (u32 (c0 - c1)) res tmp.

(** Comparison loop, as in Hacl_Bignum4096_32.c:720-733 and 1857-1870. *)
Fixpoint lt_loop (acc : Z) (a b : list Z) : Z :=
  match a, b with
  | x :: a', y :: b' =>
      let beq := eq_mask x y in
      let blt := not32 (gte_mask x y) in
      lt_loop (Z.lor (Z.land beq acc)
                     (Z.land (not32 beq)
                             (Z.lor (Z.land blt (W32 - 1)) (Z.land (not32 blt) 0)))) a' b'
  | _, _ => acc
  end.
Definition lb_lt (a b : list Z) : Z := lt_loop 0 a b.

(** Hacl_Bignum.c:44-55 bn_get_top_index_u32. *)
Fixpoint top_loop (priv : Z) (i : Z) (b : list Z) : Z :=
  match b with
  | [] => priv
  | x :: b' =>
      let mask := eq_mask x 0 in
      top_loop (Z.lor (Z.land mask priv) (Z.land (not32 mask) i)) (i + 1) b'
  end.
Definition top_index (b : list Z) : Z := top_loop 0 0 b.

(** Hacl_Bignum.c:1435-1458 mod_inv_uint32. *)
Definition inv_step (beta : Z) (uv : Z * Z) : Z * Z :=
  let '(us, vs) := uv in
  let alpha := 2147483648 in
  let u_is_odd := u32 (0 - Z.land us 1) in
  let beta_if := Z.land beta u_is_odd in
  let ub := u32 (Z.shiftr (Z.lxor us beta_if) 1 + Z.land us beta_if) in
  let alpha_if := Z.land alpha u_is_odd in
  (ub, u32 (Z.shiftr vs 1 + alpha_if)).
Definition mod_inv_limb (n0 : Z) : Z := snd (Nat.iter 32 (inv_step n0) (1, 0)).

(** The bignum one and the modulus checks (Hacl_Bignum4096_32.c:709-735): all ones
    iff n is odd and 1 < n. *)
Definition lb_one (len : nat) : list Z := splice 0 [1] (zeros len).
Definition check_modulus (n : list Z) : Z :=
  Z.land (u32 (0 - Z.land (get n 0) 1)) (lb_lt (lb_one (length n)) n).

(** Hacl_Bignum4096_32.c:401-414 precompr2 (Hacl_Bignum.c:1517-1530). *)
Definition precomp_r2 (nBits : Z) (n : list Z) : list Z :=
  let len := length n in
  let i0 := Z.to_nat (nBits / 32) in
  let j := nBits mod 32 in
  let res := zeros len in
  let res := splice i0 [Z.lor (get res i0) (u32 (Z.shiftl 1 j))] res in
  Nat.iter (Z.to_nat (64 * Z.of_nat len - nBits)) (fun r => lb_add_mod n r r) res.

(** One round of the Montgomery reduction (Hacl_Bignum4096_32.c:421-467): carry and
    array. *)
Definition red_step (n : list Z) (mu : Z) (st : Z * list Z) (i : nat) : Z * list Z :=
  let '(c00, c) := st in
  let len := length n in
  let qj := u32 (mu * get c i) in
  let '(c1, w) := mul_row n qj 0 (slice i len c) in
  let c := splice i w c in
  let '(c00', r) := add_carry c00 c1 (get c (len + i)) in
  (c00', splice (len + i) [r] c).
Definition red_loop (n : list Z) (mu : Z) (c : list Z) : Z * list Z :=
  fold_left (red_step n mu) (seq 0 (length n)) (0, c).

(** Hacl_Bignum4096_32.c:416-526 reduction, Hacl_Bignum.c:1532-1641
    bn_mont_reduction_u32. *)
Definition reduction (n : list Z) (mu : Z) (c : list Z) : list Z :=
  let '(c0, c') := red_loop n mu c in
  let res := skipn (length n) c' in
  let '(c1, tmp) := lb_sub res n in
  sel_loop (u32 (c0 - c1)) res tmp.

(** Hacl_Bignum4096_32.c:528-597 areduction. *)
Definition areduction (n : list Z) (mu : Z) (c : list Z) : list Z :=
  let '(c0, c') := red_loop n mu c in
  let res := skipn (length n) c' in
  let '(_, tmp) := lb_sub res n in
  sel_loop (u32 (0 - c0)) tmp res.

(** Hacl_Bignum4096_32.c:599-614 amont_mul, amont_sqr. *)
Definition amont_mul (n : list Z) (mu : Z) (aM bM : list Z) : list Z :=
  areduction n mu (lb_kmul aM bM).
Definition amont_sqr (n : list Z) (mu : Z) (aM : list Z) : list Z :=
  areduction n mu (lb_ksqr aM).

(** Hacl_Bignum4096_32.c:616-696 bn_slow_precomp: the argument has twice as many
    limbs as the modulus. *)
Definition slow_precomp (n : list Z) (mu : Z) (r2 a : list Z) : list Z :=
  reduction n mu (lb_kmul (areduction n mu a) r2).

(** A Montgomery context, Hacl_Bignum4096_32.c:1467-1496 mont_ctx_init. *)
Record mont_ctx := { mc_n : list Z; mc_mu : Z; mc_r2 : list Z }.
Definition mont_ctx_init (n : list Z) : mont_ctx :=
  {| mc_n := n; mc_mu := mod_inv_limb (get n 0);
     mc_r2 := precomp_r2 (32 * top_index n) n |}.

(** Hacl_Bignum4096_32.c:1520-1529 mod_precomp. *)
Definition mod_precomp (k : mont_ctx) (a : list Z) : list Z :=
  slow_precomp (mc_n k) (mc_mu k) (mc_r2 k) a.

(** Hacl_Bignum4096_32.c:709-750 mod: success flag and result. *)
Definition lb_mod (n a : list Z) : bool * list Z :=
  if check_modulus n =? W32 - 1 then
    (true, slow_precomp n (mod_inv_limb (get n 0)) (precomp_r2 (32 * top_index n) n) a)
  else (false, zeros (length n)).

(** Hacl_Bignum.c:1643-1704, called by Hacl_GenericField32.c:140-206 to_field,
    from_field and mul. *)
Definition to_mont (k : mont_ctx) (a : list Z) : list Z :=
  reduction (mc_n k) (mc_mu k) (lb_kmul a (mc_r2 k)).
Definition from_mont (k : mont_ctx) (aM : list Z) : list Z :=
  reduction (mc_n k) (mc_mu k) (aM ++ zeros (length (mc_n k))).
Definition mont_mul (k : mont_ctx) (aM bM : list Z) : list Z :=
  reduction (mc_n k) (mc_mu k) (lb_kmul aM bM).

(** Bit [i] of an exponent (Hacl_Bignum4096_32.c:865-868). *)
Definition exp_bit (b : list Z) (i : Z) : Z :=
  Z.land (Z.shiftr (get b (Z.to_nat (i / 32))) (i mod 32)) 1.

(** The four bits from bit [i] (Hacl_Bignum4096_32.c:954-968); [bLen] is the number
    of limbs of the exponent. *)
Definition exp_window (bLen : Z) (b : list Z) (i : Z) : Z :=
  let i1 := i / 32 in
  let j := i mod 32 in
  let p1 := Z.shiftr (get b (Z.to_nat i1)) j in
  let ite := if (i1 + 1 <? bLen) && (0 <? j)
             then Z.lor p1 (u32 (Z.shiftl (get b (Z.to_nat (i1 + 1))) (32 - j)))
             else p1 in
  Z.land ite 15.

Definition exp_len (bBits : Z) : Z := if bBits =? 0 then 1 else (bBits - 1) / 32 + 1.

(** Table of the powers 0..15 (Hacl_Bignum4096_32.c:905-919). *)
Fixpoint pow_table (n : list Z) (mu : Z) (aM : list Z) (k : nat) (last : list Z)
  : list (list Z) :=
  match k with
  | O => [last]
  | S k' => last :: pow_table n mu aM k' (amont_mul n mu aM last)
  end.

(** Right to left binary method of exp_vartime_precomp
    (Hacl_Bignum4096_32.c:861-875). *)
Definition bin_step (n : list Z) (mu : Z) (b : list Z) (st : list Z * list Z) (i : nat)
  : list Z * list Z :=
  let '(resM, aM) := st in
  let resM := if exp_bit b (Z.of_nat i) =? 0 then resM else amont_mul n mu resM aM in
  (resM, amont_sqr n mu aM).

(** One window of the 4-bit fixed window method (Hacl_Bignum4096_32.c:941-977). *)
Definition win_step (sel_entry : list (list Z) -> Z -> list Z)
  (n : list Z) (mu : Z) (table : list (list Z)) (bBits : Z) (b : list Z)
  (resM : list Z) (i : nat) : list Z :=
  let resM := Nat.iter 4 (amont_sqr n mu) resM in
  let bk := bBits - bBits mod 4 in
  let bits := exp_window (exp_len bBits) b (bk - 4 * Z.of_nat i - 4) in
  amont_mul n mu resM (sel_entry table bits).

(** Table access by index (vartime) and by scanning (consttime,
    Hacl_Bignum4096_32.c:1156-1174). *)
Definition table_get (table : list (list Z)) (bits : Z) : list Z :=
  nth (Z.to_nat bits) table [].
Definition table_scan (table : list (list Z)) (bits : Z) : list Z :=
  fold_left (fun acc i => sel_loop (eq_mask bits (Z.of_nat i)) (nth i table []) acc)
            (seq 1 15) (nth 0 table []).

Definition win_exp (sel_entry : list (list Z) -> Z -> list Z)
  (n : list Z) (mu : Z) (r2 a : list Z) (bBits : Z) (b : list Z) : list Z :=
  let len := length n in
  let aM := reduction n mu (lb_kmul a r2) in
  let one := reduction n mu (r2 ++ zeros len) in
  let table := pow_table n mu aM 15 one in
  let resM := if bBits mod 4 =? 0 then one
              else sel_entry table (exp_window (exp_len bBits) b (bBits / 4 * 4)) in
  let resM := fold_left (win_step sel_entry n mu table bBits b)
                        (seq 0 (Z.to_nat (bBits / 4))) resM in
  reduction n mu (resM ++ zeros len).

(** Hacl_Bignum4096_32.c:839-987 exp_vartime_precomp. *)
Definition exp_vartime (n : list Z) (mu : Z) (r2 a : list Z) (bBits : Z) (b : list Z)
  : list Z :=
  if bBits <? 200 then
    let len := length n in
    let aM := reduction n mu (lb_kmul a r2) in
    let resM := reduction n mu (r2 ++ zeros len) in
    let '(resM, _) := fold_left (bin_step n mu b) (seq 0 (Z.to_nat bBits)) (resM, aM) in
    reduction n mu (resM ++ zeros len)
  else win_exp table_get n mu r2 a bBits b.

(** Conditional swap and Montgomery ladder of exp_consttime_precomp
    (Hacl_Bignum4096_32.c:1011-1047). *)
Fixpoint cswap (m : Z) (a b : list Z) : list Z * list Z :=
  match a, b with
  | x :: a', y :: b' =>
      let dummy := Z.land m (Z.lxor x y) in
      let '(ra, rb) := cswap m a' b' in
      (Z.lxor x dummy :: ra, Z.lxor y dummy :: rb)
  | _, _ => ([], [])
  end.
Definition ladder_step (n : list Z) (mu : Z) (bBits : Z) (b : list Z)
  (st : Z * (list Z * list Z)) (i : nat) : Z * (list Z * list Z) :=
  let '(sw, (resM, aM)) := st in
  let bit := exp_bit b (bBits - Z.of_nat i - 1) in
  let sw1 := Z.lxor bit sw in
  let '(resM, aM) := cswap (u32 (0 - sw1)) resM aM in
  let aM := amont_mul n mu aM resM in
  (bit, (amont_sqr n mu resM, aM)).

(** Hacl_Bignum4096_32.c:989-1189 exp_consttime_precomp. *)
Definition exp_consttime (n : list Z) (mu : Z) (r2 a : list Z) (bBits : Z) (b : list Z)
  : list Z :=
  if bBits <? 200 then
    let len := length n in
    let aM := reduction n mu (lb_kmul a r2) in
    let resM := reduction n mu (r2 ++ zeros len) in
    let '(sw, (resM, aM)) :=
      fold_left (ladder_step n mu bBits b) (seq 0 (Z.to_nat bBits)) (0, (resM, aM)) in
    let '(resM, _) := cswap (u32 (0 - sw)) resM aM in
    reduction n mu (resM ++ zeros len)
  else win_exp table_scan n mu r2 a bBits b.

(** Hacl_Bignum4096_32.c:1550-1593 mod_exp_vartime_precomp, mod_exp_consttime_precomp. *)
Definition mod_exp_vartime_precomp (k : mont_ctx) (a : list Z) (bBits : Z) (b : list Z) :=
  exp_vartime (mc_n k) (mc_mu k) (mc_r2 k) a bBits b.
Definition mod_exp_consttime_precomp (k : mont_ctx) (a : list Z) (bBits : Z) (b : list Z) :=
  exp_consttime (mc_n k) (mc_mu k) (mc_r2 k) a bBits b.

(** Hacl_Bignum4096_32.c:752-837 exp_check. *)
Definition exp_check (n a : list Z) (bBits : Z) (b : list Z) : Z :=
  let m0 := check_modulus n in
  let bLen := exp_len bBits in
  let m1 :=
    if bBits <? 32 * bLen then
      let b2 := zeros (Z.to_nat bLen) in
      let i0 := Z.to_nat (bBits / 32) in
      let b2 := splice i0 [Z.lor (get b2 i0) (u32 (Z.shiftl 1 (bBits mod 32)))] b2 in
      lb_lt (firstn (Z.to_nat bLen) b) b2
    else W32 - 1 in
  let m2 := lb_lt a n in
  Z.land m0 (Z.land m1 m2).

(** Hacl_Bignum4096_32.c:1245-1307 mod_exp_vartime, mod_exp_consttime: success flag
    and result. *)
Definition mod_exp (ct : bool) (n a : list Z) (bBits : Z) (b : list Z) : bool * list Z :=
  if exp_check n a bBits b =? W32 - 1 then
    let r2 := precomp_r2 (32 * top_index n) n in
    let mu := mod_inv_limb (get n 0) in
    (true, (if ct then exp_consttime else exp_vartime) n mu r2 a bBits b)
  else (false, zeros (length n)).
