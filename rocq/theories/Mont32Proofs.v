(** Modular addition, the inverse of the low limb, Montgomery reduction and the
    remainder functions of Limb32Model.v. *)
From Coq Require Import Znumtheory Zdiv Setoid Morphisms.
From Verif Require Import Base Limb32Model Limb32Spec Limb32Word Limb32Proofs Limb32Kara.
Open Scope Z_scope.

(** ** Congruences *)
Inductive cg (N a b : Z) : Prop := Cg (E : a mod N = b mod N).
#[export] Instance cg_equiv N : Equivalence (cg N).
Proof.
  split.
  - intros a. now constructor.
  - intros a b [E]. now constructor.
  - intros a b c [E] [F]. constructor. now rewrite E.
Qed.
#[export] Instance cg_add N : Proper (cg N ==> cg N ==> cg N) Z.add.
Proof. intros a b [E] c d [F]. constructor. now rewrite Zplus_mod, E, F, <- Zplus_mod. Qed.
#[export] Instance cg_mul N : Proper (cg N ==> cg N ==> cg N) Z.mul.
Proof. intros a b [E] c d [F]. constructor. now rewrite Zmult_mod, E, F, <- Zmult_mod. Qed.
Lemma eqm_of N a b k : a = b + N * k -> cg N a b.
Proof.
  intros ->. constructor. destruct (Z.eq_dec N 0) as [->|H]; [now rewrite Z.mul_0_l, Z.add_0_r|].
  rewrite (Z.mul_comm N k). now apply Z.mod_add.
Qed.
Lemma eqm_div N a b : 0 < N -> cg N a b -> (N | a - b).
Proof. intros HN [E]. apply Z.mod_divide; [lia|]. rewrite Zminus_mod, E, Z.sub_diag. apply Z.mod_0_l. lia. Qed.
Lemma div_eqm N a b : (N | a - b) -> cg N a b.
Proof. intros [k E]. apply eqm_of with k. lia. Qed.
Lemma odd_coprime N k : Z.odd N = true -> 0 <= k -> Z.gcd N (2 ^ k) = 1.
Proof.
  intros O K. apply Zgcd_1_rel_prime. apply rel_prime_sym. 
  assert (R2 : rel_prime 2 N).
  { apply rel_prime_sym, Zgcd_1_rel_prime. 
    assert (2 * (N / 2) + 1 = N) as <-.
    { pose proof (Zmod_odd N) as M. rewrite O in M. pose proof (Z.div_mod N 2). lia. }
    rewrite Z.gcd_comm, Z.add_comm, Z.mul_comm. rewrite Z.gcd_add_mult_diag_r. reflexivity. }
  apply rel_prime_sym. revert k K. apply natlike_ind.
  - rewrite Z.pow_0_r. apply rel_prime_sym, rel_prime_1.
  - intros k K IH. rewrite Z.pow_succ_r by trivial. apply rel_prime_mult; [now apply rel_prime_sym|trivial].
Qed.
Lemma eqm_cancel N R a b : 0 < N -> Z.gcd N R = 1 -> cg N (a * R) (b * R) -> cg N a b.
Proof.
  intros HN G E. apply div_eqm. apply eqm_div in E; [|trivial].
  rewrite <- Z.mul_sub_distr_r, Z.mul_comm in E. now apply Z.gauss in E.
Qed.
Lemma eqm_mod N a : cg N (a mod N) a.
Proof. constructor. apply Zmod_mod. Qed.
Lemma eqm_eq N a b : 0 <= a < N -> cg N a b -> a = b mod N.
Proof. intros H [E]. now rewrite Z.mod_small in E. Qed.
Lemma Wn_coprime N k : Z.odd N = true -> Z.gcd N (Wn k) = 1.
Proof. intros O. rewrite Wn_pow2. apply odd_coprime; [trivial|lia]. Qed.

(** ** Addition modulo n *)
Lemma cond_sub_spec len n c0 res T : limbs len n -> limbs len res -> bit c0 ->
  T = lval res + Wn len * c0 -> 0 <= T < 2 * lval n ->
  let d := lb_sub res n in
  let out := sel_loop (u32 (c0 - fst d)) res (snd d) in
  limbs len out /\ lval out = T mod lval n.
Proof.
  intros Hn Hres Hc ET BT d out.
  pose proof (lb_sub_spec len res n Hres Hn) as (C1 & Ht & Et). fold d in C1, Ht, Et.
  pose proof (limbs_bound _ _ Hn) as Bn. pose proof (limbs_bound _ _ Hres) as Br.
  pose proof (limbs_bound _ _ Ht) as Bt.
  assert (E : T - lval n = lval (snd d) + Wn len * (c0 - fst d)) by lia.
  unfold out. destruct (Z.lt_ge_cases T (lval n)) as [L|L].
  - assert (c0 = 0) as -> by (destruct Hc as [-> | ->]; lia).
    assert (F1 : fst d = 1) by (destruct C1 as [C1|C1]; rewrite C1 in *; lia).
    rewrite F1. change (u32 (0 - 1)) with (W32 - 1). rewrite (sel_loop_ones len) by trivial.
    split; [trivial|]. rewrite Z.mod_small by lia. lia.
  - assert (c0 - fst d = 0) as D0.
    { destruct Hc as [-> | ->], C1 as [C1|C1]; rewrite C1 in *; lia. }
    rewrite D0 in E |- *. change (u32 0) with 0. rewrite (sel_loop_zero len) by trivial.
    split; [trivial|]. apply eqm_eq; [lia|]. apply eqm_of with (-1). lia.
Qed.
Lemma lb_add_mod_spec len n a b : limbs len n -> limbs len a -> limbs len b ->
  lval a < lval n -> lval b < lval n ->
  limbs len (lb_add_mod n a b) /\ lval (lb_add_mod n a b) = (lval a + lval b) mod lval n.
Proof.
  intros Hn Ha Hb La Lb. pose proof (lb_add_spec len a b Ha Hb) as (C & R & E).
  pose proof (limbs_bound _ _ Ha). pose proof (limbs_bound _ _ Hb).
  pose proof (cond_sub_spec len n _ _ (lval a + lval b) Hn R C E) as G. cbv zeta in G.
  unfold lb_add_mod. destruct (lb_add a b) as [c0 res]. cbn [fst snd] in *.
  destruct (lb_sub res n) as [c1 tmp]. apply G. lia.
Qed.

(** ** The inverse of the lowest limb *)
Lemma div2_lxor_land k : forall x y, 0 <= x < 2 ^ Z.of_nat k -> 0 <= y < 2 ^ Z.of_nat k ->
  x + y = Z.lxor x y + 2 * Z.land x y.
Proof.
  induction k as [|k IH]; intros x y Hx Hy.
  - change (2 ^ Z.of_nat 0) with 1 in *. assert (x = 0) by lia. assert (y = 0) by lia. now subst.
  - rewrite Nat2Z.inj_succ, Z.pow_succ_r in Hx, Hy by lia.
    rewrite (Z.div2_odd (Z.lxor x y)), (Z.div2_odd (Z.land x y)).
    rewrite !Z.div2_spec, Z.shiftr_lxor, Z.shiftr_land, <- !Z.div2_spec.
    rewrite <- !Z.bit0_odd, Z.lxor_spec, Z.land_spec, !Z.bit0_odd.
    rewrite (Z.div2_odd x) at 1. rewrite (Z.div2_odd y) at 1.
    specialize (IH (Z.div2 x) (Z.div2 y)).
    assert (P1 : 0 <= Z.div2 x < 2 ^ Z.of_nat k).
    { rewrite Z.div2_div. split; [apply Z.div_pos; lia|apply Z.div_lt_upper_bound; lia]. }
    assert (P2 : 0 <= Z.div2 y < 2 ^ Z.of_nat k).
    { rewrite Z.div2_div. split; [apply Z.div_pos; lia|apply Z.div_lt_upper_bound; lia]. }
    specialize (IH P1 P2).
    destruct (Z.odd x), (Z.odd y); cbn [Z.b2z xorb andb]; lia.
Qed.
Lemma avg_spec x y : limb x -> limb y -> Z.even (x + y) = true ->
  Z.shiftr (Z.lxor x y) 1 + Z.land x y = (x + y) / 2.
Proof.
  intros Hx Hy E. pose proof (div2_lxor_land 32 x y Hx Hy) as D.
  rewrite Z.shiftr_div_pow2 by lia. change (2 ^ 1) with 2.
  replace (x + y) with (Z.lxor x y + Z.land x y * 2) by lia. now rewrite Z.div_add by lia.
Qed.
Lemma land_one_odd u : Z.land u 1 = Z.b2z (Z.odd u).
Proof.
  change 1 with (Z.ones 1). rewrite Z.land_ones by lia. change (2 ^ 1) with 2.
  rewrite Zmod_odd. now destruct (Z.odd u).
Qed.

Definition inv_ok (beta : Z) (i : nat) (uv : Z * Z) : Prop :=
  0 <= fst uv <= beta /\ limb (snd uv) /\
  2 ^ (32 - Z.of_nat i) + snd uv * beta = fst uv * 2 ^ 32.
Lemma inv_step_ok beta i uv : limb beta -> Z.odd beta = true -> (i < 32)%nat ->
  inv_ok beta i uv -> inv_ok beta (S i) (inv_step beta uv).
Proof.
  intros Hb Ob Hi. destruct uv as [u v]. unfold inv_ok, inv_step. cbn [fst snd].
  intros (Hu & Hv & E).
  assert (P : 2 ^ (32 - Z.of_nat i) = 2 * 2 ^ (32 - Z.of_nat (S i))).
  { rewrite <- Z.pow_succ_r by lia. f_equal. lia. }
  rewrite P in E. set (p := 2 ^ (32 - Z.of_nat (S i))) in *.
  assert (Ev : Z.even v = true).
  { assert (Z.even (v * beta) = true) as M.
    { replace (v * beta) with (2 * (u * 2 ^ 31 - p)) by lia. now rewrite Z.even_mul. }
    rewrite Z.even_mul in M. rewrite <- (Z.negb_odd beta), Ob, orb_false_r in M. trivial. }
  apply Z.even_spec in Ev. destruct Ev as [v' Ev]. subst v.
  assert (Sv : Z.shiftr (2 * v') 1 = v').
  { rewrite Z.shiftr_div_pow2 by lia. change (2 ^ 1) with 2. rewrite (Z.mul_comm 2 v'), Z.div_mul; lia. }
  assert (Lu : limb u) by (unfold limb in *; lia).
  rewrite land_one_odd, Sv. destruct (Z.odd u) eqn:Ou; cbn [Z.b2z].
  - change (u32 (0 - 1)) with (W32 - 1).
    rewrite (Z.land_comm beta), (ones_land beta Hb).
    rewrite (Z.land_comm _ (W32 - 1)), ones_land by (split; [lia|reflexivity]).
    rewrite avg_spec; trivial.
    2:{ rewrite Z.even_add, <- !Z.negb_odd, Ou, Ob. reflexivity. }
    assert (Z.even (u + beta) = true) as Es by (rewrite Z.even_add, <- !Z.negb_odd, Ou, Ob; reflexivity).
    apply Z.even_spec in Es. destruct Es as [w Es].
    assert (Dw : (u + beta) / 2 = w) by (rewrite Es, Z.mul_comm, Z.div_mul; lia). rewrite Dw.
    unfold limb in *. change (2 ^ 32) with 4294967296 in *.
    rewrite !u32_id by (unfold limb; change (2 ^ 32) with 4294967296; lia).
    split; [lia|]. split; [lia|]. lia.
  - change (u32 (0 - 0)) with 0. rewrite !Z.land_0_r, Z.lxor_0_r, Z.add_0_r, Z.add_0_r.
    assert (Z.even u = true) as Es by (now rewrite <- Z.negb_odd, Ou).
    apply Z.even_spec in Es. destruct Es as [w Es]. subst u.
    assert (Sw : Z.shiftr (2 * w) 1 = w).
    { rewrite Z.shiftr_div_pow2 by lia. change (2 ^ 1) with 2. rewrite (Z.mul_comm 2 w), Z.div_mul; lia. }
    rewrite Sw. unfold limb in *. change (2 ^ 32) with 4294967296 in *.
    rewrite !u32_id by (unfold limb; change (2 ^ 32) with 4294967296; lia).
    split; [lia|]. split; lia.
Qed.
Lemma mod_inv_limb_spec n0 : limb n0 -> Z.odd n0 = true ->
  limb (mod_inv_limb n0) /\ exists k, 1 + n0 * mod_inv_limb n0 = W32 * k.
Proof.
  intros H O.
  assert (I : forall i, (i <= 32)%nat -> inv_ok n0 i (Nat.iter i (inv_step n0) (1, 0))).
  { induction i as [|i IH]; intros Hi.
    - unfold inv_ok. cbn [Nat.iter nat_rect fst snd]. split.
      + split; [lia|]. destruct H. assert (n0 <> 0) by (intros ->; discriminate O). lia.
      + split; [split; [lia|reflexivity]|]. reflexivity.
    - change (Nat.iter (S i) (inv_step n0) (1, 0)) with (inv_step n0 (Nat.iter i (inv_step n0) (1, 0))).
      apply inv_step_ok; trivial; try lia. apply IH. lia. }
  specialize (I 32%nat (le_n _)). unfold mod_inv_limb.
  destruct (Nat.iter 32 (inv_step n0) (1, 0)) as [u v]. destruct I as (_ & L & E). cbn [fst snd] in *.
  split; [trivial|]. exists u. rewrite <- (Z.mul_comm u). change W32 with (2 ^ 32). 
  change (2 ^ (32 - Z.of_nat 32)) with 1 in E. lia.
Qed.

Global Opaque mod_inv_limb.

(** ** The highest non-zero limb *)
Lemma top_loop_spec b : forall priv i, Forall limb b -> limb priv -> 0 <= i -> i + Z.of_nat (length b) < 2 ^ 32 ->
  (lval b = 0 -> top_loop priv i b = priv) /\
  (0 < lval b -> exists t, (t < length b)%nat /\ top_loop priv i b = i + Z.of_nat t /\
                           Wn t <= lval b < Wn (S t)).
Proof.
  induction b as [|x b IH]; intros priv i F Hp Hi Hlen. { cbn [lval top_loop]. split; [trivial|lia]. }
  inversion_clear F as [|? ? Hx Fb]. cbn [top_loop length] in *. rewrite lval_cons.
  assert (Li : limb i) by (unfold limb; lia).
  assert (Z0 : limb 0) by (split; [lia|reflexivity]).
  set (priv' := Z.lor _ _).
  assert (Ep : priv' = if x =? 0 then priv else i).
  { unfold priv'. rewrite eq_mask_spec by trivial. destruct (x =? 0).
    - rewrite not32_ones, ones_land, Z.land_0_l, Z.lor_0_r by trivial. reflexivity.
    - rewrite not32_0, ones_land, Z.land_0_l, Z.lor_0_l by trivial. reflexivity. }
  assert (Lp : limb priv') by (rewrite Ep; destruct (x =? 0); trivial).
  destruct (IH priv' (i + 1) Fb Lp ltac:(lia) ltac:(lia)) as [I1 I2].
  pose proof (lval_bound _ Fb) as B. rewrite limb_W in Hx. pose proof W32_pos as WP.
  split.
  - intros E. assert (0 <= W32 * lval b) by (apply Z.mul_nonneg_nonneg; lia).
    assert (x = 0) by lia. assert (W32 * lval b = 0) as M by lia. apply Z.mul_eq_0 in M.
    rewrite I1, Ep by lia. subst x. reflexivity.
  - intros E. destruct (Z.eq_dec (lval b) 0) as [E0|N0].
    + exists 0%nat. rewrite I1, Ep by trivial. split; [lia|].
      rewrite Wn_S, Wn_0. destruct (Z.eqb_spec x 0); lia.
    + destruct I2 as (t & T1 & T2 & T3); [lia|]. exists (S t). split; [lia|]. split; [lia|].
      rewrite (Wn_S (S t)), (Wn_S t) in *.
      assert (W32 * Wn t <= W32 * lval b) by (apply Z.mul_le_mono_nonneg_l; lia).
      assert (W32 * (lval b + 1) <= W32 * (W32 * Wn t)) by (apply Z.mul_le_mono_nonneg_l; lia). lia.
Qed.
Lemma top_index_spec len n : limbs len n -> Z.of_nat len < 2 ^ 32 -> Z.odd (lval n) = true -> 1 < lval n ->
  exists t, (t < len)%nat /\ top_index n = Z.of_nat t /\ Wn t < lval n.
Proof.
  intros [L F] HL O H1. unfold top_index.
  destruct (top_loop_spec n 0 0 F) as [_ T]; try lia. { split; [lia|reflexivity]. }
  destruct T as (t & T1 & T2 & T3); [lia|]. exists t. split; [lia|]. split; [lia|].
  destruct t as [|t]. { rewrite Wn_0 in *. lia. }
  assert (lval n <> Wn (S t)); [|lia]. intros E. rewrite E, Wn_S in O.
  change W32 with (2 * 2 ^ 31) in O. rewrite !Z.odd_mul in O. discriminate O.
Qed.

Lemma precomp_r2_spec len n : limbs len n -> Z.of_nat len < 2 ^ 32 -> Z.odd (lval n) = true -> 1 < lval n ->
  limbs len (precomp_r2 (32 * top_index n) n) /\
  lval (precomp_r2 (32 * top_index n) n) = (Wn len * Wn len) mod lval n.
Proof.
  intros Hn HL O H1. destruct (top_index_spec len n Hn HL O H1) as (t & T1 & T2 & T3).
  rewrite T2. unfold precomp_r2. destruct Hn as [Ln Fn]. rewrite Ln.
  replace (32 * Z.of_nat t / 32) with (Z.of_nat t) by (rewrite Z.mul_comm, Z.div_mul; lia).
  replace ((32 * Z.of_nat t) mod 32) with 0 by (rewrite Z.mul_comm, Z.mod_mul; lia).
  rewrite Nat2Z.id. change (u32 (Z.shiftl 1 0)) with 1.
  assert (G0 : get (zeros len) t = 0) by (unfold get, zeros; apply nth_repeat).
  rewrite G0. change (Z.lor 0 1) with 1.
  assert (L1 : limb 1) by (split; [lia|reflexivity]).
  assert (HZ : length (zeros len) = len) by apply repeat_length.
  set (r0 := splice t [1] (zeros len)).
  assert (R0 : limbs len r0) by (apply limbs_splice; [apply limbs_zeros|now constructor|cbn; lia]).
  assert (V0 : lval r0 = Wn t).
  { unfold r0. rewrite lval_splice by (rewrite HZ; cbn; lia). rewrite lval_zeros.
    cbn [length]. rewrite slice_1 by lia. rewrite G0. cbn [lval]. ring. }
  assert (I : forall k, limbs len (Nat.iter k (fun r => lb_add_mod n r r) r0) /\
              lval (Nat.iter k (fun r => lb_add_mod n r r) r0) = (2 ^ Z.of_nat k * Wn t) mod lval n).
  { induction k as [|k [K1 K2]].
    - cbn [Nat.iter nat_rect]. split; [trivial|]. rewrite V0. change (2 ^ Z.of_nat 0) with 1.
      rewrite Z.mul_1_l, Z.mod_small; [trivial|]. pose proof (Wn_pos t). lia.
    - change (Nat.iter (S k) (fun r => lb_add_mod n r r) r0)
        with (lb_add_mod n (Nat.iter k (fun r => lb_add_mod n r r) r0) (Nat.iter k (fun r => lb_add_mod n r r) r0)).
      remember (Nat.iter k (fun r => lb_add_mod n r r) r0) as r.
      assert (Lr : lval r < lval n) by (rewrite K2; apply Z.mod_pos_bound; lia).
      destruct (lb_add_mod_spec len n r r (conj Ln Fn) K1 K1 Lr Lr) as [A1 A2].
      split; [trivial|]. rewrite A2, K2. rewrite <- Zplus_mod. f_equal.
      rewrite Nat2Z.inj_succ, Z.pow_succ_r by lia. ring. }
  set (k := Z.to_nat (64 * Z.of_nat len - 32 * Z.of_nat t)).
  destruct (I k) as [I1 I2]. split; [trivial|]. rewrite I2. f_equal.
  rewrite !Wn_pow2, <- !Z.pow_add_r by lia. f_equal. unfold k. rewrite Z2Nat.id by lia. lia.
Qed.

(** ** Montgomery reduction *)
(** What a modulus and its low-limb inverse must satisfy. *)
Definition modulus (len : nat) (n : list Z) (mu : Z) : Prop :=
  limbs len n /\ limb mu /\ Z.odd (lval n) = true /\ 1 < lval n /\
  exists k, 1 + lval n * mu = W32 * k.
Lemma modulus_len len n mu : modulus len n mu -> (0 < len)%nat.
Proof.
  intros (Hn & _ & _ & H1 & _). pose proof (limbs_bound _ _ Hn) as B. destruct len; [|lia]. rewrite Wn_0 in B. lia.
Qed.

Lemma get_div len c i : limbs len c -> (i < len)%nat -> (Wn i | lval c) ->
  exists q, lval c = Wn i * (get c i + W32 * q).
Proof.
  intros [L F] Hi [k K]. exists (lval (skipn (S i) c)).
  rewrite (lval_split (S i)) by lia. rewrite firstn_S_get, lval_app, firstn_length, Nat.min_l by lia.
  cbn [lval].
  assert (Z0 : lval (firstn i c) = 0).
  { pose proof (lval_split i c ltac:(lia)) as S. rewrite K in S.
    pose proof (lval_bound _ (Forall_firstn _ i _ F)) as B. rewrite firstn_length, Nat.min_l in B by lia.
    assert (lval (firstn i c) = Wn i * (k - lval (skipn i c))) as E by lia.
    remember (k - lval (skipn i c)) as d. pose proof (Wn_pos i).
    assert (Wn i * d < Wn i * 1) as U by lia. apply Z.mul_lt_mono_pos_l in U; [|trivial].
    assert (Wn i * (-1) < Wn i * d) as V by lia. apply Z.mul_lt_mono_pos_l in V; [|trivial].
    assert (d = 0) as D0 by lia. rewrite E, D0. ring. }
  rewrite Z0, Wn_S. ring.
Qed.

Definition red_inv (len : nat) (N C : Z) (i : nat) (st : Z * list Z) : Prop :=
  bit (fst st) /\ limbs (len + len) (snd st) /\ (Wn i | lval (snd st)) /\
  exists Q, 0 <= Q < Wn i /\ lval (snd st) + Wn (len + i) * fst st = C + N * Q.

Lemma red_step_inv len n mu C i st : modulus len n mu -> (i < len)%nat ->
  red_inv len (lval n) C i st -> red_inv len (lval n) C (S i) (red_step n mu st i).
Proof.
  intros (Hn & Hmu & On & N1 & (km & Ekm)) Hi (Hb & Hc & Hdiv & (Q & HQ & EQ)).
  destruct st as [c00 c]. cbn [fst snd] in *. unfold red_step.
  assert (Ln : length n = len) by apply Hn. rewrite Ln.
  set (qj := u32 (mu * get c i)). assert (Hq : limb qj) by apply u32_limb.
  assert (Hs : limbs len (slice i len c)) by (apply limbs_slice with (len + len)%nat; [trivial|lia]).
  assert (Z0 : limb 0) by (split; [lia|reflexivity]).
  pose proof (mul_row_spec n qj 0 (slice i len c) Hq Z0) as M.
  destruct Hs as [Ls Fs]. specialize (M ltac:(lia) (proj2 Hn) Fs). rewrite Ln in M.
  destruct M as (M1 & M2 & M3).
  destruct (mul_row n qj 0 (slice i len c)) as [c1 w]. cbn [fst snd] in *.
  assert (Lw : length w = len) by apply M2. assert (Lc : length c = (len + len)%nat) by apply Hc.
  set (cc := splice i w c).
  assert (Hcc : limbs (len + len) cc) by (apply limbs_splice; [trivial|apply M2|lia]).
  assert (Vcc : lval cc = lval c + Wn i * (lval n * qj - Wn len * c1)).
  { unfold cc. rewrite lval_splice by lia. rewrite Lw.
    replace (lval w) with (lval n * qj + 0 + lval (slice i len c) - Wn len * c1) by lia. ring. }
  pose proof (get_limb _ _ (len + i) Hcc) as Hg.
  pose proof (add_carry_spec c00 c1 (get cc (len + i)) Hb M1 Hg) as (A1 & A2 & A3).
  destruct (add_carry c00 c1 (get cc (len + i))) as [c00' r]. cbn [fst snd] in *.
  set (c2 := splice (len + i) [r] cc).
  assert (Lcc : length cc = (len + len)%nat) by apply Hcc.
  assert (Hc2 : limbs (len + len) c2) by (apply limbs_splice; [trivial|now constructor|cbn; lia]).
  assert (Vc2 : lval c2 = lval cc + Wn (len + i) * (r - get cc (len + i))).
  { unfold c2. rewrite lval_splice by (cbn; lia). cbn [length]. rewrite slice_1 by lia. cbn [lval]. ring. }
  assert (Tot : lval c2 + Wn (len + S i) * c00' = C + lval n * (Q + Wn i * qj)).
  { rewrite Vc2, Vcc. replace r with (c1 + get cc (len + i) + c00 - W32 * c00') by lia.
    replace (lval c) with (C + lval n * Q - Wn (len + i) * c00) by lia.
    rewrite Nat.add_succ_r, Wn_S, !Wn_add. ring. }
  unfold red_inv. cbn [fst snd]. split; [trivial|]. split; [trivial|]. split.
  - destruct (get_div (len + len) c i Hc ltac:(lia) Hdiv) as [q Eq].
    assert (exists k, get c i + lval n * qj = W32 * k) as [k Ek].
    { exists (km * get c i - lval n * (mu * get c i / W32)).
      unfold qj, u32. rewrite Z.mod_eq by (pose proof W32_pos; lia).
      replace (get c i + lval n * (mu * get c i - W32 * (mu * get c i / W32)))
        with ((1 + lval n * mu) * get c i - W32 * (lval n * (mu * get c i / W32))) by ring.
      rewrite Ekm. ring. }
    destruct len as [|len']; [lia|].
    exists (k + q - Wn len' * c1 + Wn len' * (r - get cc (S len' + i))).
    rewrite Vc2, Vcc, Eq. rewrite !Wn_S. cbn [Nat.add]. rewrite !Wn_S, Wn_add.
    replace (lval n * qj) with (W32 * k - get c i) by lia. ring.
  - exists (Q + Wn i * qj). rewrite limb_W in Hq. pose proof (Wn_pos i). rewrite Wn_S. split; [|trivial].
    split; [apply Z.add_nonneg_nonneg; [lia|apply Z.mul_nonneg_nonneg; lia]|].
    assert (Wn i * (qj + 1) <= Wn i * W32) by (apply Z.mul_le_mono_nonneg_l; lia). lia.
Qed.
Lemma red_loop_inv len n mu c : modulus len n mu -> limbs (len + len) c ->
  red_inv len (lval n) (lval c) len (red_loop n mu c).
Proof.
  intros Hm Hc. unfold red_loop. assert (Ln : length n = len) by apply Hm. rewrite Ln.
  assert (I : forall i, (i <= len)%nat ->
     red_inv len (lval n) (lval c) i (fold_left (red_step n mu) (seq 0 i) (0, c))).
  { induction i as [|i IH]; intros Hi.
    - cbn [seq fold_left]. unfold red_inv. cbn [fst snd]. split; [now left|]. split; [trivial|].
      split; [rewrite Wn_0; apply Z.divide_1_l|]. exists 0. rewrite Wn_0. split; [lia|ring].
    - rewrite seq_S, fold_left_app. cbn [fold_left Nat.add]. apply red_step_inv; trivial. apply IH. lia. }
  apply I. lia.
Qed.
(** The value shared by both reductions: T R = C + N Q with 0 <= Q < R. *)
Lemma red_loop_spec len n mu c : modulus len n mu -> limbs (len + len) c ->
  let st := red_loop n mu c in
  let s := skipn len (snd st) in
  bit (fst st) /\ limbs len s /\
  exists Q, 0 <= Q < Wn len /\ (lval s + Wn len * fst st) * Wn len = lval c + lval n * Q.
Proof.
  intros Hm Hc st s. pose proof (red_loop_inv len n mu c Hm Hc) as (Hb & Hl & Hd & (Q & HQ & EQ)).
  fold st in Hb, Hl, Hd, EQ. split; [trivial|].
  assert (Hs : limbs len s) by (replace len with (len + len - len)%nat at 1 by lia; now apply limbs_skipn).
  split; [trivial|]. exists Q. split; [trivial|]. rewrite <- EQ.
  destruct Hl as [L F]. pose proof (lval_split len (snd st) ltac:(lia)) as S. fold s in S.
  pose proof (lval_bound _ (Forall_firstn _ len _ F)) as B. rewrite firstn_length, Nat.min_l in B by lia.
  destruct Hd as [k K]. rewrite K in S. pose proof (Wn_pos len).
  assert (lval (firstn len (snd st)) = Wn len * (k - lval s)) as E by lia.
  remember (k - lval s) as d.
  assert (Wn len * d < Wn len * 1) as U by lia. apply Z.mul_lt_mono_pos_l in U; [|trivial].
  assert (Wn len * (-1) < Wn len * d) as V by lia. apply Z.mul_lt_mono_pos_l in V; [|trivial].
  assert (k = lval s) by lia. rewrite K, Wn_add. subst k. ring.
Qed.

Lemma reduction_spec len n mu c : modulus len n mu -> limbs (len + len) c ->
  lval c < lval n * Wn len ->
  limbs len (reduction n mu c) /\ lval (reduction n mu c) < lval n /\
  cg (lval n) (lval (reduction n mu c) * Wn len) (lval c).
Proof.
  intros Hm Hc Hlt. pose proof (red_loop_spec len n mu c Hm Hc) as R. cbv zeta in R.
  destruct Hm as (Hn & _ & On & N1 & _). assert (Ln : length n = len) by apply Hn.
  unfold reduction. rewrite Ln. destruct (red_loop n mu c) as [c0 c']. cbn [fst snd] in R.
  destruct R as (Hb & Hs & (Q & HQ & E)). set (s := skipn len c') in *.
  set (T := lval s + Wn len * c0) in *.
  pose proof (limbs_bound _ _ Hc) as BC. pose proof (limbs_bound _ _ Hs) as Bs. pose proof (Wn_pos len) as WP.
  assert (BT : 0 <= T < 2 * lval n).
  { split. { unfold T. apply Z.add_nonneg_nonneg; [lia|]. apply Z.mul_nonneg_nonneg; [lia|]. destruct Hb; lia. }
    assert (lval n * Q < lval n * Wn len) by (apply Z.mul_lt_mono_pos_l; lia).
    apply (Z.mul_lt_mono_pos_r (Wn len)); [trivial|]. lia. }
  pose proof (cond_sub_spec len n c0 s T Hn Hs Hb eq_refl BT) as G. cbv zeta in G.
  destruct (lb_sub s n) as [c1 tmp]. cbn [fst snd] in G. destruct G as [G1 G2].
  split; [trivial|]. rewrite G2. split; [apply Z.mod_pos_bound; lia|].
  rewrite (eqm_mod (lval n) T), E. apply eqm_of with Q. ring.
Qed.
Lemma areduction_spec len n mu c : modulus len n mu -> limbs (len + len) c ->
  limbs len (areduction n mu c) /\
  cg (lval n) (lval (areduction n mu c) * Wn len) (lval c).
Proof.
  intros Hm Hc. pose proof (red_loop_spec len n mu c Hm Hc) as R. cbv zeta in R.
  destruct Hm as (Hn & _ & On & N1 & _). assert (Ln : length n = len) by apply Hn.
  unfold areduction. rewrite Ln. destruct (red_loop n mu c) as [c0 c']. cbn [fst snd] in R.
  destruct R as (Hb & Hs & (Q & HQ & E)). set (s := skipn len c') in *.
  pose proof (limbs_bound _ _ Hc) as BC. rewrite Wn_add in BC.
  pose proof (limbs_bound _ _ Hs) as Bs. pose proof (Wn_pos len) as WP.
  pose proof (limbs_bound _ _ Hn) as Bn.
  pose proof (lb_sub_spec len s n Hs Hn) as (C1 & Ht & Et).
  destruct (lb_sub s n) as [c1 tmp]. cbn [fst snd] in *.
  destruct Hb as [-> | ->].
  - change (u32 (0 - 0)) with 0. rewrite (sel_loop_zero len) by trivial. split; [trivial|].
    rewrite Z.mul_0_r, Z.add_0_r in E. rewrite E. apply eqm_of with Q. ring.
  - change (u32 (0 - 1)) with (W32 - 1). rewrite (sel_loop_ones len) by trivial. split; [trivial|].
    assert (c1 = 1) as ->.
    { destruct C1 as [C1|C1]; [|trivial]. exfalso.
      assert (lval n * Q < lval n * Wn len) by (apply Z.mul_lt_mono_pos_l; lia).
      assert ((lval s + Wn len * 1) * Wn len < (lval n + Wn len) * Wn len) as X by lia.
      apply Z.mul_lt_mono_pos_r in X; [|trivial]. rewrite C1 in Et. pose proof (limbs_bound _ _ Ht). lia. }
    apply eqm_of with (Q - Wn len). replace (lval tmp) with (lval s + Wn len * 1 - lval n) by lia.
    rewrite Z.mul_sub_distr_r, E. ring.
Qed.

(** ** A Montgomery context, and reduction of a double length array *)
Record ctx_ok (len : nat) (N : Z) (k : mont_ctx) : Prop := {
  co_mod : modulus len (mc_n k) (mc_mu k);
  co_val : lval (mc_n k) = N;
  co_r2 : limbs len (mc_r2 k);
  co_r2v : lval (mc_r2 k) = (Wn len * Wn len) mod N
}.
Lemma lval_odd len n : limbs len n -> (0 < len)%nat -> Z.odd (get n 0) = Z.odd (lval n).
Proof.
  intros [L F] H. destruct n as [|x n]; [cbn in L; lia|]. rewrite lval_cons. unfold get. cbn [nth].
  rewrite Z.odd_add, Z.odd_mul. change (Z.odd W32) with false. now rewrite andb_false_l, xorb_false_r.
Qed.
Lemma modulus_mu len n : limbs len n -> Z.odd (lval n) = true -> 1 < lval n ->
  modulus len n (mod_inv_limb (get n 0)).
Proof.
  intros Hn O N1. pose proof (limbs_bound _ _ Hn) as B.
  assert (HL : (0 < len)%nat) by (destruct len; [rewrite Wn_0 in B; lia|lia]).
  pose proof (lval_odd _ _ Hn HL) as O0. rewrite O in O0.
  destruct (mod_inv_limb_spec (get n 0) (get_limb _ _ 0 Hn) O0) as [M1 [k M2]].
  split; [trivial|]. split; [trivial|]. split; [trivial|]. split; [trivial|].
  destruct n as [|x n]; [destruct Hn as [Ln _]; cbn in Ln; lia|]. unfold get in *. cbn [nth] in *.
  rewrite lval_cons. revert M2. generalize (mod_inv_limb x). intros mu M2. exists (k + lval n * mu).
  replace (1 + (x + W32 * lval n) * mu) with ((1 + x * mu) + W32 * (lval n * mu)) by ring.
  rewrite M2. ring.
Qed.
Lemma mont_ctx_init_ok len n : limbs len n -> Z.of_nat len < 2 ^ 32 -> Z.odd (lval n) = true -> 1 < lval n ->
  ctx_ok len (lval n) (mont_ctx_init n).
Proof.
  intros Hn HL O N1. destruct (precomp_r2_spec len n Hn HL O N1) as [R1 R2].
  constructor; cbn [mont_ctx_init mc_n mc_mu mc_r2]; trivial. now apply modulus_mu.
Qed.

Lemma mul_bound a b x y : 0 <= a -> 0 <= b -> a < x -> b <= y -> 0 < y -> a * b < x * y.
Proof.
  intros. destruct (Z.eq_dec b 0) as [->|]. { rewrite Z.mul_0_r. apply Z.mul_pos_pos; lia. }
  apply Z.lt_le_trans with (x * b). { apply Z.mul_lt_mono_pos_r; lia. } apply Z.mul_le_mono_nonneg_l; lia.
Qed.
Lemma mod_precomp_spec len N k a : ctx_ok len N k -> limbs (len + len) a ->
  limbs len (mod_precomp k a) /\ lval (mod_precomp k a) = lval a mod N.
Proof.
  intros [Hm Hv H2 V2] Ha. unfold mod_precomp, slow_precomp.
  destruct (areduction_spec len _ _ a Hm Ha) as [A1 A2].
  destruct (lb_kmul_spec len _ _ A1 H2) as [K1 K2].
  pose proof Hm as (Hn & _ & On & N1 & _). rewrite Hv in *.
  pose proof (limbs_bound _ _ A1) as BA. pose proof (Wn_pos len) as WP.
  assert (B2 : 0 <= lval (mc_r2 k) < N) by (rewrite V2; apply Z.mod_pos_bound; lia).
  destruct (reduction_spec len _ _ _ Hm K1) as (R1 & R2 & R3).
  { rewrite K2, Hv, (Z.mul_comm N). apply mul_bound; lia. }
  rewrite Hv, K2, V2 in *. split; [trivial|]. apply eqm_eq; [pose proof (limbs_bound _ _ R1); lia|].
  apply eqm_cancel with (Wn len); [lia|now apply Wn_coprime|].
  rewrite R3, (eqm_mod N (Wn len * Wn len)), Z.mul_assoc, A2. reflexivity.
Qed.

Lemma lb_one_spec len : (0 < len)%nat -> limbs len (lb_one len) /\ lval (lb_one len) = 1.
Proof.
  intros H. assert (L1 : limb 1) by (split; [lia|reflexivity]).
  assert (HZ : length (zeros len) = len) by apply repeat_length. unfold lb_one.
  split; [apply limbs_splice; [apply limbs_zeros|now constructor|cbn; lia]|].
  rewrite lval_splice by (rewrite HZ; cbn; lia). rewrite lval_zeros. cbn [length].
  rewrite slice_1 by lia. unfold get, zeros. rewrite nth_repeat, Wn_0. cbn [lval]. ring.
Qed.
Lemma check_modulus_spec len n : limbs len n -> (0 < len)%nat ->
  check_modulus n = if Z.odd (lval n) && (1 <? lval n) then W32 - 1 else 0.
Proof.
  intros Hn HL. unfold check_modulus. assert (Ln : length n = len) by apply Hn. rewrite Ln.
  destruct (lb_one_spec len HL) as [O1 O2]. rewrite (lb_lt_spec len) by trivial. rewrite O2.
  rewrite land_one_odd, (lval_odd len) by trivial.
  destruct (Z.odd (lval n)); cbn [Z.b2z andb].
  - change (u32 (0 - 1)) with (W32 - 1). destruct (1 <? lval n).
    + apply ones_land, limb_ones.
    + apply Z.land_0_r.
  - change (u32 (0 - 0)) with 0. apply Z.land_0_l.
Qed.
Lemma lb_mod_spec len n a : limbs len n -> (0 < len)%nat -> Z.of_nat len < 2 ^ 32 -> limbs (len + len) a ->
  limbs len (snd (lb_mod n a)) /\
  fst (lb_mod n a) = Z.odd (lval n) && (1 <? lval n) /\
  lval (snd (lb_mod n a)) = if fst (lb_mod n a) then lval a mod lval n else 0.
Proof.
  intros Hn HL HB Ha. unfold lb_mod. rewrite (check_modulus_spec len) by trivial.
  destruct (Z.odd (lval n) && (1 <? lval n)) eqn:E.
  - rewrite Z.eqb_refl. cbn [fst snd]. apply andb_true_iff in E. destruct E as [O N1]. apply Z.ltb_lt in N1.
    destruct (mod_precomp_spec len _ _ a (mont_ctx_init_ok len n Hn HB O N1) Ha) as [P1 P2].
    split; [exact P1|]. split; [reflexivity|exact P2].
  - change (0 =? W32 - 1) with false. cbn [fst snd]. assert (Ln : length n = len) by apply Hn. rewrite Ln.
    split; [apply limbs_zeros|]. split; [reflexivity|apply lval_zeros].
Qed.

(** ** Montgomery form *)
Section Ctx.
Context (len : nat) (N : Z) (k : mont_ctx) (OK : ctx_ok len N k).
Let R := Wn len.
Lemma ctx_N : 1 < N. Proof. destruct OK as [(_ & _ & _ & H & _) <- _ _]. exact H. Qed.
Lemma ctx_cop : Z.gcd N R = 1.
Proof. destruct OK as [(_ & _ & H & _) <- _ _]. now apply Wn_coprime. Qed.
Lemma ctx_r2 : 0 <= lval (mc_r2 k) < N.
Proof. rewrite (co_r2v _ _ _ OK). apply Z.mod_pos_bound. pose proof ctx_N. lia. Qed.

(** [x] represents X: any array of the right size congruent to X R. *)
Definition mr (x : list Z) (X : Z) : Prop := limbs len x /\ cg N (lval x) (X * R).

Lemma to_mont_spec a : limbs len a -> mr (to_mont k a) (lval a) /\ lval (to_mont k a) < N.
Proof.
  intros Ha. pose proof OK as [Hm Hv H2 V2]. unfold to_mont.
  destruct (lb_kmul_spec len _ _ Ha H2) as [K1 K2]. pose proof ctx_r2 as B2. pose proof ctx_N as N1.
  pose proof (limbs_bound _ _ Ha) as BA. pose proof (Wn_pos len) as WP.
  destruct (reduction_spec len _ _ _ Hm K1) as (R1 & R2 & R3).
  { rewrite K2, Hv, (Z.mul_comm N). apply mul_bound; lia. }
  rewrite Hv, K2, V2 in *. split; [|trivial]. split; [trivial|].
  apply eqm_cancel with R; [lia|apply ctx_cop|]. unfold R in *.
  rewrite R3, (eqm_mod N (Wn len * Wn len)), Z.mul_assoc. reflexivity.
Qed.
Lemma ctx_one_spec : mr (reduction (mc_n k) (mc_mu k) (mc_r2 k ++ zeros len)) 1.
Proof.
  pose proof OK as [Hm Hv H2 V2]. pose proof ctx_r2 as B2. pose proof ctx_N as N1.
  pose proof (limbs_app len len _ _ H2 (limbs_zeros len)) as H.
  assert (E : lval (mc_r2 k ++ zeros len) = lval (mc_r2 k)) by (rewrite lval_app, lval_zeros; ring).
  pose proof (Wn_pos len) as WP.
  destruct (reduction_spec len _ _ _ Hm H) as (R1 & R2 & R3).
  { rewrite E, Hv. apply Z.lt_le_trans with N; [lia|]. rewrite <- (Z.mul_1_r N) at 1. apply Z.mul_le_mono_nonneg_l; lia. }
  rewrite Hv, E, V2 in *. split; [trivial|]. apply eqm_cancel with R; [lia|apply ctx_cop|]. unfold R in *.
  rewrite R3, (eqm_mod N (Wn len * Wn len)), Z.mul_1_l. reflexivity.
Qed.
Lemma from_mont_spec x X : mr x X ->
  limbs len (from_mont k x) /\ lval (from_mont k x) = X mod N.
Proof.
  intros [Hx E]. pose proof OK as [Hm Hv H2 V2]. pose proof ctx_N as N1. unfold from_mont.
  assert (Ln : length (mc_n k) = len) by apply Hm. rewrite Ln.
  pose proof (limbs_app len len _ _ Hx (limbs_zeros len)) as H.
  assert (Ev : lval (x ++ zeros len) = lval x) by (rewrite lval_app, lval_zeros; ring).
  pose proof (Wn_pos len) as WP. pose proof (limbs_bound _ _ Hx) as Bx.
  destruct (reduction_spec len _ _ _ Hm H) as (R1 & R2 & R3).
  { rewrite Ev, Hv. apply Z.lt_le_trans with (1 * Wn len); [lia|]. apply Z.mul_le_mono_nonneg_r; lia. }
  rewrite Hv, Ev in *. split; [trivial|]. apply eqm_eq; [pose proof (limbs_bound _ _ R1); lia|].
  apply eqm_cancel with R; [lia|apply ctx_cop|]. unfold R in *. now rewrite R3, E.
Qed.
Lemma mr_prod x X y Y r : mr x X -> mr y Y -> limbs len r ->
  cg N (lval r * R) (lval x * lval y) -> mr r (X * Y).
Proof.
  intros [Hx Ex] [Hy Ey] Hr E. split; [trivial|]. pose proof ctx_N.
  apply eqm_cancel with R; [lia|apply ctx_cop|]. rewrite E, Ex, Ey.
  replace (X * R * (Y * R)) with (X * Y * R * R) by ring. reflexivity.
Qed.
Lemma amont_mul_spec x X y Y : mr x X -> mr y Y -> mr (amont_mul (mc_n k) (mc_mu k) x y) (X * Y).
Proof.
  intros Hx Hy. unfold amont_mul. pose proof OK as [Hm Hv _ _].
  destruct (lb_kmul_spec len x y (proj1 Hx) (proj1 Hy)) as [K1 K2].
  destruct (areduction_spec len _ _ _ Hm K1) as [A1 A2]. rewrite Hv, K2 in A2.
  now apply mr_prod with x y.
Qed.
Lemma amont_sqr_spec x X : mr x X -> mr (amont_sqr (mc_n k) (mc_mu k) x) (X * X).
Proof.
  intros Hx. unfold amont_sqr. pose proof OK as [Hm Hv _ _].
  destruct (lb_ksqr_spec len x (proj1 Hx)) as [K1 K2].
  destruct (areduction_spec len _ _ _ Hm K1) as [A1 A2]. rewrite Hv, K2 in A2.
  now apply mr_prod with x x.
Qed.
Lemma mont_mul_spec x X y Y : mr x X -> mr y Y -> lval x < N ->
  mr (mont_mul k x y) (X * Y) /\ lval (mont_mul k x y) < N.
Proof.
  intros Hx Hy Lx. unfold mont_mul. pose proof OK as [Hm Hv _ _]. pose proof ctx_N as N1.
  destruct (lb_kmul_spec len x y (proj1 Hx) (proj1 Hy)) as [K1 K2].
  pose proof (limbs_bound _ _ (proj1 Hx)). pose proof (limbs_bound _ _ (proj1 Hy)).
  destruct (reduction_spec len _ _ _ Hm K1) as (R1 & R2 & R3).
  { rewrite K2, Hv. apply mul_bound; lia. }
  rewrite Hv, K2 in *. split; [|trivial]. now apply mr_prod with x y.
Qed.
End Ctx.
