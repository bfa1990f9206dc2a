(** Blocks, padding, streaming and HMAC. *)
From Verif Require Import Base CodecModel CodecProofs Sha2Model Sha2Spec Sha2Proofs.
From Coq Require Import ZifyBool.
Open Scope Z_scope.

Local Opaque compress update_256 H0 K.
Ltac zlen := rewrite ?app_length, ?repeat_length, ?firstn_length, ?skipn_length in *.

(** ** Array access *)
Lemma slice_app a x y off n :
  off = Z.of_nat (length a) -> n = Z.of_nat (length x) -> slice off n (a ++ x ++ y) = Ok x.
Proof.
  intros -> ->. unfold slice.
  replace ((0 <=? _) && _ && _) with true by (rewrite !app_length; lia).
  rewrite !Nat2Z.id. rewrite skipn_app, skipn_all, Nat.sub_diag. cbn [skipn app].
  rewrite firstn_app, firstn_all, Nat.sub_diag. cbn [firstn]. rewrite app_nil_r. reflexivity.
Qed.

Lemma slice_app0 x y n : n = Z.of_nat (length x) -> slice 0 n (x ++ y) = Ok x.
Proof. intros H. exact (slice_app [] x y 0 n eq_refl H). Qed.

Lemma skipn_add_app {A} (a b c : list A) n : n = length b ->
  skipn (length a + n) (a ++ b ++ c) = c.
Proof.
  intros ->. rewrite app_assoc, <- app_length, skipn_app, skipn_all, Nat.sub_diag. reflexivity.
Qed.

Lemma blit_app a mid c src off :
  off = Z.of_nat (length a) -> length mid = length src ->
  blit off src (a ++ mid ++ c) = Ok (a ++ src ++ c).
Proof.
  intros -> E. unfold blit.
  replace ((0 <=? _) && _) with true by (rewrite !app_length; lia).
  rewrite Nat2Z.id. rewrite firstn_app, firstn_all, Nat.sub_diag. cbn [firstn].
  rewrite app_nil_r. rewrite skipn_add_app by (symmetry; exact E). reflexivity.
Qed.

Lemma blit_app0 mid c src : length mid = length src -> blit 0 src (mid ++ c) = Ok (src ++ c).
Proof. intros E. exact (blit_app [] mid c src 0 eq_refl E). Qed.

(** ** Blocks *)
Lemma absorb_state n h m : state8 h -> state8 (absorb n h m).
Proof.
  revert h m. induction n as [|n IH]; intros h m H; [exact H|]. cbn [absorb].
  apply IH. apply compress_state.
Qed.

Lemma absorb_app n k h a b :
  length a = (64 * n)%nat -> absorb (n + k) h (a ++ b) = absorb k (absorb n h a) b.
Proof.
  revert h a. induction n as [|n IH]; intros h a L.
  - destruct a; [reflexivity|cbn in L; lia].
  - cbn [Nat.add absorb].
    replace (firstn 64 (a ++ b)) with (firstn 64 a)
      by (rewrite firstn_app; replace (64 - length a)%nat with 0%nat by lia;
          cbn [firstn]; rewrite app_nil_r; reflexivity).
    replace (skipn 64 (a ++ b)) with (skipn 64 a ++ b)
      by (rewrite skipn_app; replace (64 - length a)%nat with 0%nat by lia; reflexivity).
    apply IH. rewrite skipn_length. lia.
Qed.

Lemma absorb_pre n h a b : length a = (64 * n)%nat -> absorb n h (a ++ b) = absorb n h a.
Proof.
  intros L. pose proof (absorb_app n 0 h a b L) as E. rewrite Nat.add_0_r in E. exact E.
Qed.

Lemma is_bytes_firstn n b : is_bytes b -> is_bytes (firstn n b).
Proof. intros H. rewrite <- (firstn_skipn n b) in H. apply Forall_app in H. tauto. Qed.
Lemma is_bytes_skipn n b : is_bytes b -> is_bytes (skipn n b).
Proof. intros H. rewrite <- (firstn_skipn n b) in H. apply Forall_app in H. tauto. Qed.

Lemma update_multi_ok n s b :
  state8 s -> is_bytes b -> (64 * n <= length b)%nat -> update_multi n s b = Ok (absorb n s b).
Proof.
  revert s b. induction n as [|n IH]; intros s b Hs Hb L; [reflexivity|].
  cbn [update_multi absorb]. unfold slice.
  replace ((0 <=? 0) && (0 <=? 64) && (0 + 64 <=? Z.of_nat (length b))) with true by lia.
  cbn [bind]. change (Z.to_nat 64) with 64%nat. change (Z.to_nat 0) with 0%nat.
  change (skipn 0 b) with b.
  rewrite update_256_ok;
    [|exact Hs|apply is_bytes_firstn; exact Hb|rewrite firstn_length; lia].
  apply IH; [apply compress_state|apply is_bytes_skipn; exact Hb|rewrite skipn_length; lia].
Qed.

Lemma update_multi_256_ok n s b k :
  k = Z.of_nat n -> state8 s -> is_bytes b -> (64 * n <= length b)%nat ->
  update_multi_256 s b k = Ok (absorb n s b).
Proof. intros ->. unfold update_multi_256. rewrite Nat2Z.id. apply update_multi_ok. Qed.

(** ** Padding *)
Lemma big_endian_bytes n v : is_bytes (big_endian n v).
Proof.
  induction n as [|n IH]; [constructor|]. cbn [big_endian]. constructor; [|exact IH].
  apply Z.mod_pos_bound. lia.
Qed.
Lemma big_endian_length n v : length (big_endian n v) = n.
Proof. induction n as [|n IH]; [reflexivity|]. cbn. rewrite IH. reflexivity. Qed.

Lemma be_bytes_spec n v : be_bytes n v = big_endian n v.
Proof.
  revert v. induction n as [|n IH]; intros v; [reflexivity|].
  assert (S1 : forall n v, big_endian (S n) v = big_endian n (v / 256) ++ [v mod 256]).
  { clear. induction n as [|n IH]; intros v.
    - cbn [big_endian app]. rewrite Z.div_1_r. reflexivity.
    - change (big_endian (S (S n)) v)
        with ((v / 256 ^ Z.of_nat (S n)) mod 256 :: big_endian (S n) v).
      rewrite IH. cbn [big_endian app]. f_equal. f_equal.
      rewrite Nat2Z.inj_succ, Z.pow_succ_r by lia. rewrite Z.div_div by lia. reflexivity. }
  rewrite S1. cbn [be_bytes]. rewrite IH. reflexivity.
Qed.

Lemma zeros_256_ok len :
  zeros_256 (Z.of_nat len) = Z.of_nat ((119 - len mod 64) mod 64).
Proof.
  unfold zeros_256. pose proof (Nat.mod_upper_bound len 64 ltac:(lia)).
  rewrite u32_small.
  - rewrite Nat2Z.inj_mod, Nat2Z.inj_sub by lia. rewrite Nat2Z.inj_mod.
    change (Z.of_nat 64) with 64. change (Z.of_nat 119) with 119. f_equal. lia.
  - pose proof (Z.mod_pos_bound (Z.of_nat len) 64 ltac:(lia)). lia.
Qed.

Definition zs (len : nat) : nat := ((119 - len mod 64) mod 64)%nat.
Lemma zs_spec len : (zs len < 64)%nat /\ exists k, (len + 9 + zs len = 64 * k)%nat.
Proof.
  unfold zs. split; [apply Nat.mod_upper_bound; lia|].
  pose proof (Nat.mod_upper_bound len 64 ltac:(lia)).
  pose proof (Nat.div_mod len 64 ltac:(lia)).
  pose proof (Nat.div_mod (119 - len mod 64) 64 ltac:(lia)).
  exists (len / 64 + 2 - (119 - len mod 64) / 64)%nat.
  assert ((119 - len mod 64) / 64 <= 1)%nat.
  { apply Nat.lt_succ_r. apply Nat.div_lt_upper_bound; lia. }
  lia.
Qed.

Lemma padding_length len : length (padding len) = (9 + zs len)%nat.
Proof.
  unfold padding. cbn [length]. rewrite app_length, repeat_length, big_endian_length.
  unfold zs. lia.
Qed.
Lemma repeat0_bytes n : is_bytes (repeat 0 n).
Proof. apply Forall_forall. intros x Hx. apply repeat_spec in Hx. subst. unfold is_byte. lia. Qed.
Lemma padding_bytes len : is_bytes (padding len).
Proof.
  unfold padding. apply Forall_cons; [unfold is_byte; lia|].
  apply Forall_app. split; [apply repeat0_bytes|apply big_endian_bytes].
Qed.

Lemma repeat_split {A} (x : A) n k : (k <= n)%nat -> repeat x n = repeat x k ++ repeat x (n - k).
Proof. intros H. rewrite <- repeat_app. f_equal. lia. Qed.

Lemma pad_256_ok len rest :
  Z.of_nat len < 2 ^ 61 -> (length rest + 9 + zs len <= 128)%nat ->
  pad_256 (Z.of_nat len) (Z.of_nat (length rest)) (rest ++ repeat 0 (128 - length rest))
  = Ok (rest ++ padding len ++ repeat 0 (128 - length rest - (9 + zs len))).
Proof.
  intros HL H. unfold pad_256. rewrite zeros_256_ok. fold (zs len).
  set (R := (128 - length rest)%nat) in *.
  rewrite (repeat_split 0 R 1) by lia.
  rewrite blit_app by (reflexivity || (rewrite repeat_length; reflexivity)). cbn [bind].
  rewrite (repeat_split 0 (R - 1) (zs len)) by lia.
  rewrite (app_assoc rest).
  rewrite blit_app; [|rewrite app_length; cbn [length]; lia|rewrite !repeat_length, Nat2Z.id; reflexivity].
  cbn [bind]. rewrite Nat2Z.id.
  rewrite (repeat_split 0 (R - 1 - zs len) 8) by lia.
  rewrite (app_assoc (rest ++ [0x80])).
  rewrite blit_app.
  - rewrite be_bytes_spec. unfold padding. fold (zs len).
    rewrite Z.shiftl_mul_pow2 by lia. rewrite u64_small by (change (2 ^ 61) with (2 ^ 64 / 8) in HL; lia).
    replace (Z.of_nat len * 2 ^ 3) with (8 * Z.of_nat len) by lia.
    replace (R - 1 - zs len - 8)%nat with (R - (9 + zs len))%nat by lia.
    rewrite <- !app_assoc. cbn [app]. rewrite <- app_assoc. reflexivity.
  - rewrite !app_length, repeat_length. cbn [length]. lia.
  - rewrite repeat_length, be_bytes_spec, big_endian_length. reflexivity.
Qed.

(** ** The last bytes *)
Lemma update_last_ok s (n : nat) x y total :
  state8 s -> is_bytes x -> is_bytes y ->
  total = (64 * n + length x)%nat ->
  Z.of_nat (length x) < 2 ^ 32 -> Z.of_nat total < 2 ^ 61 ->
  update_last_256 s (64 * Z.of_nat n) (x ++ y) (Z.of_nat (length x))
  = Ok (absorb ((length x + length (padding total)) / 64) s (x ++ padding total)).
Proof.
  intros Hs Hx Hy -> Lx Lt. unfold update_last_256.
  set (L := length x) in *.
  pose proof (Nat.div_mod L 64 ltac:(lia)) as DM.
  pose proof (Nat.mod_upper_bound L 64 ltac:(lia)) as MB.
  set (q := (L / 64)%nat) in *. set (r := (L mod 64)%nat) in *.
  assert (Eq : Z.of_nat L / 64 = Z.of_nat q).
  { unfold q. rewrite Nat2Z.inj_div. reflexivity. }
  rewrite Eq.
  assert (E1 : u32 (Z.of_nat q * 64) = Z.of_nat (64 * q)) by (rewrite u32_small; lia).
  rewrite E1.
  assert (E2 : u32 (Z.of_nat L - Z.of_nat (64 * q)) = Z.of_nat r) by (rewrite u32_small; lia).
  rewrite E2.
  assert (E3 : u64 (64 * Z.of_nat n + Z.of_nat L) = Z.of_nat (64 * n + L))
    by (rewrite u64_small by (change (2 ^ 61) with (2 ^ 64 / 8) in Lt; lia); lia).
  rewrite E3.
  rewrite (update_multi_256_ok q) by
    (try reflexivity; try exact Hs; try (apply Forall_app; split; assumption);
     rewrite app_length; fold L; lia).
  cbn [bind].
  set (x1 := firstn (64 * q) x). set (x2 := skipn (64 * q) x).
  assert (Ex : x = x1 ++ x2) by (symmetry; apply firstn_skipn).
  assert (L1 : length x1 = (64 * q)%nat) by (unfold x1; rewrite firstn_length; fold L; lia).
  assert (L2 : length x2 = r) by (unfold x2; rewrite skipn_length; fold L; lia).
  assert (B1 : is_bytes x1) by (apply is_bytes_firstn; exact Hx).
  assert (B2 : is_bytes x2) by (apply is_bytes_skipn; exact Hx).
  replace (x ++ y) with (x1 ++ x2 ++ y) by (rewrite Ex, <- app_assoc; reflexivity).
  rewrite (slice_app x1 x2 y) by lia. cbn [bind].
  rewrite (repeat_split 0 128 r) by lia.
  rewrite blit_app0 by (rewrite repeat_length; lia). cbn [bind].
  destruct (zs_spec (64 * n + L)) as [Z1 [k Z2]].
  assert (Rk : (r + 9 + zs (64 * n + L) <= 128)%nat) by lia.
  rewrite <- L2.
  rewrite pad_256_ok by (lia || (rewrite L2; exact Rk)). cbn [bind].
  rewrite zeros_256_ok. fold (zs (64 * n + L)). rewrite L2.
  assert (PL := padding_length (64 * n + L)).
  set (P := padding (64 * n + L)) in *. set (z := zs (64 * n + L)) in *.
  set (k2 := (k - n - q)%nat).
  assert (K2 : (r + 9 + z = 64 * k2)%nat) by (unfold k2; lia).
  rewrite (update_multi_256_ok k2).
  - f_equal.
    replace ((L + length P) / 64)%nat with (q + k2)%nat.
    2:{ rewrite PL. replace (L + (9 + z))%nat with ((q + k2) * 64)%nat by lia.
        rewrite Nat.div_mul by lia. reflexivity. }
    rewrite (app_assoc x2), absorb_pre by (rewrite app_length; lia).
    rewrite (absorb_pre q s x1 (x2 ++ y)) by exact L1.
    replace (x ++ P) with (x1 ++ x2 ++ P) by (rewrite Ex, <- app_assoc; reflexivity).
    symmetry. apply absorb_app. exact L1.
  - replace (Z.of_nat r + (1 + Z.of_nat z + 8)) with (Z.of_nat k2 * 64) by lia.
    apply Z.div_mul. lia.
  - apply absorb_state. exact Hs.
  - apply Forall_app. split; [exact B2|]. apply Forall_app. split; [apply padding_bytes|apply repeat0_bytes].
  - rewrite !app_length, repeat_length. lia.
Qed.

Lemma H0_state : state8 H0.
Proof.
  rewrite H0_code. split; [reflexivity|].
  repeat (apply Forall_cons; [unfold word; lia|]). apply Forall_nil.
Qed.

Lemma sha_finish_spec s : sha_finish s = flat_map (big_endian 4) s.
Proof.
  unfold sha_finish. induction s as [|x s IH]; [reflexivity|]. cbn [flat_map].
  rewrite IH, be_bytes_spec. reflexivity.
Qed.

(** Finishing after whole blocks [c] with the rest [x]. *)
Lemma finish_after n c x y :
  length c = (64 * n)%nat -> is_bytes c -> is_bytes x -> is_bytes y ->
  Z.of_nat (length x) < 2 ^ 32 -> Z.of_nat (length (c ++ x)) < 2 ^ 61 ->
  exists s, update_last_256 (absorb n H0 c) (64 * Z.of_nat n) (x ++ y) (Z.of_nat (length x)) = Ok s
            /\ sha_finish s = SHA256 (c ++ x) /\ state8 s.
Proof.
  intros Lc Hc Hx Hy L1 L2. rewrite app_length in L2.
  rewrite (update_last_ok _ n x y (length (c ++ x)));
    [|apply absorb_state; exact H0_state|exact Hx|exact Hy|rewrite app_length; lia|exact L1
     |rewrite app_length; exact L2].
  eexists. split; [reflexivity|].
  split; [|apply absorb_state, absorb_state; exact H0_state].
  rewrite sha_finish_spec. unfold SHA256. f_equal.
  rewrite <- app_assoc. rewrite <- absorb_app by exact Lc. f_equal.
  rewrite !app_length, Lc.
  replace (64 * n + (length x + length (padding (64 * n + length x))))%nat
    with (length x + length (padding (64 * n + length x)) + n * 64)%nat by lia.
  rewrite Nat.div_add by lia. lia.
Qed.

Lemma SHA256_length m : length (SHA256 m) = 32%nat.
Proof.
  unfold SHA256. set (s := absorb _ _ _).
  assert (Hs : state8 s) by (apply absorb_state; exact H0_state). destruct Hs as [L _].
  destruct s as [|h0 [|h1 [|h2 [|h3 [|h4 [|h5 [|h6 [|h7 [|]]]]]]]]]; cbn in L; try lia. reflexivity.
Qed.
Lemma SHA256_bytes m : is_bytes (SHA256 m).
Proof.
  unfold SHA256. apply Forall_flat_map. apply Forall_forall. intros x _. apply big_endian_bytes.
Qed.

(** ** One call *)
Lemma hash_256_ok m :
  is_bytes m -> Z.of_nat (length m) < 2 ^ 32 ->
  hash_256 m (Z.of_nat (length m)) = Ok (SHA256 m).
Proof.
  intros Hm L. unfold hash_256. set (n0 := (length m / 64)%nat).
  assert (Eq : Z.of_nat (length m) / 64 = Z.of_nat n0)
    by (unfold n0; rewrite Nat2Z.inj_div; reflexivity).
  rewrite Eq.
  pose proof (Nat.div_mod (length m) 64 ltac:(lia)) as DM.
  pose proof (Nat.mod_upper_bound (length m) 64 ltac:(lia)) as MB. fold n0 in DM.
  set (c := (Z.of_nat (length m) mod 64 =? 0) && (0 <? Z.of_nat n0)).
  set (n := if c then (n0 - 1)%nat else n0).
  assert (En : (if c then u32 (Z.of_nat n0 - 1) else Z.of_nat n0) = Z.of_nat n).
  { unfold n. destruct c eqn:E; [|reflexivity]. unfold c in E.
    rewrite u32_small; lia. }
  rewrite En.
  assert (Hn : (64 * n <= length m)%nat) by (unfold n; destruct c; lia).
  assert (E1 : u32 (Z.of_nat n * 64) = Z.of_nat (64 * n)) by (rewrite u32_small; lia).
  rewrite E1.
  assert (E2 : u32 (Z.of_nat (length m) - Z.of_nat (64 * n)) = Z.of_nat (length m - 64 * n))
    by (rewrite u32_small; lia).
  rewrite E2.
  set (x1 := firstn (64 * n) m). set (x2 := skipn (64 * n) m).
  assert (Ex : m = x1 ++ x2) by (symmetry; apply firstn_skipn).
  assert (L1 : length x1 = (64 * n)%nat) by (unfold x1; rewrite firstn_length; lia).
  assert (L2 : length x2 = (length m - 64 * n)%nat) by (unfold x2; rewrite skipn_length; lia).
  rewrite <- H0_code.
  rewrite (update_multi_256_ok n) by (try reflexivity; try exact H0_state; try exact Hm; lia).
  cbn [bind]. rewrite <- L2.
  replace (slice (Z.of_nat (64 * n)) (Z.of_nat (length x2)) m) with (Ok x2).
  2:{ symmetry. rewrite Ex. rewrite <- (app_nil_r (x1 ++ x2)), <- app_assoc.
      apply slice_app; [lia|reflexivity]. }
  cbn [bind].
  destruct (finish_after n x1 x2 [] L1) as (s & Es & Fs & _).
  { apply is_bytes_firstn; exact Hm. } { apply is_bytes_skipn; exact Hm. } { constructor. }
  { lia. } { rewrite <- Ex. lia. }
  rewrite app_nil_r in Es.
  replace (absorb n H0 m) with (absorb n H0 x1)
    by (symmetry; rewrite Ex; apply absorb_pre; exact L1).
  replace (Z.of_nat (64 * n)) with (64 * Z.of_nat n) by lia.
  rewrite Es. cbn [bind]. rewrite Fs, <- Ex. reflexivity.
Qed.

(** ** Streaming *)
Lemma buffered_spec L : 0 <= L ->
  (L = 0 /\ buffered L = 0) \/
  (0 < L /\ 1 <= buffered L <= 64 /\ exists k, 0 <= k /\ L = 64 * k + buffered L).
Proof.
  intros H. unfold buffered.
  pose proof (Z.mod_pos_bound L 64 ltac:(lia)). pose proof (Z.div_mod L 64 ltac:(lia)).
  pose proof (Z.div_pos L 64 H ltac:(lia)).
  destruct (Z.eqb_spec (L mod 64) 0), (Z.ltb_spec 0 L); cbn [andb].
  - right. split; [lia|]. split; [lia|]. exists (L / 64 - 1). lia.
  - left. lia.
  - right. split; [lia|]. split; [lia|]. exists (L / 64). lia.
  - lia.
Qed.

Lemma buffered_unique L k r : 0 <= k -> 1 <= r <= 64 -> L = 64 * k + r -> buffered L = r.
Proof.
  intros Hk Hr E. destruct (buffered_spec L ltac:(lia)) as [[A B]|(A & B & k2 & C & D)]; lia.
Qed.

(** What the state holds after the bytes [m]. *)
Definition holds (m : bytes) (s : sstate) : Prop :=
  exists n c t z,
    m = c ++ t /\ length c = (64 * n)%nat /\
    Z.of_nat (length t) = buffered (Z.of_nat (length m)) /\
    block_state s = absorb n H0 c /\ sbuf s = t ++ z /\ length (sbuf s) = 64%nat /\
    total_len s = Z.of_nat (length m) /\ is_bytes m /\ is_bytes z.

Lemma holds_nil buf : length buf = 64%nat -> is_bytes buf ->
  holds [] {| block_state := h256; sbuf := buf; total_len := 0 |}.
Proof.
  intros L B. exists 0%nat, [], [], buf. rewrite <- H0_code. repeat split; try assumption.
  constructor.
Qed.

Lemma fill_ok m s x y :
  holds m s -> is_bytes x -> Z.of_nat (length (m ++ x)) < 2 ^ 61 ->
  Z.of_nat (length x) <= 64 - buffered (Z.of_nat (length m)) ->
  exists s', stream_fill s (x ++ y) (Z.of_nat (length x)) = Ok s' /\ holds (m ++ x) s'.
Proof.
  intros (n & c & t & z & Em & Lc & Lt & Eb & Es & Ls & El & Hm & Hz) Hx Lm Lx.
  rewrite app_length in Lm.
  unfold stream_fill. rewrite slice_app0 by reflexivity. cbn [bind]. rewrite El, <- Lt.
  rewrite Es in *. rewrite app_length in Ls.
  rewrite <- (firstn_skipn (length x) z).
  rewrite blit_app by (reflexivity || (rewrite firstn_length; lia)). cbn [bind].
  eexists. split; [reflexivity|].
  exists n, c, (t ++ x), (skipn (length x) z). cbn [block_state sbuf total_len].
  split; [rewrite Em, app_assoc; reflexivity|]. split; [exact Lc|].
  split.
  { destruct x as [|x0 x'].
    - rewrite !app_nil_r. exact Lt.
    - assert (1 <= Z.of_nat (length (x0 :: x'))) by (cbn [length]; lia).
      set (x := x0 :: x') in *.
      symmetry. rewrite !app_length.
      apply (buffered_unique _ (Z.of_nat n)); rewrite ?Em, ?app_length; lia. }
  split; [exact Eb|]. split; [rewrite <- app_assoc; reflexivity|].
  split; [rewrite !app_length, skipn_length; lia|].
  split; [rewrite u64_small, app_length; change (2 ^ 61) with (2 ^ 64 / 8) in Lm; lia|].
  split; [apply Forall_app; split; assumption|apply is_bytes_skipn; exact Hz].
Qed.

Lemma blocks_ok m s x y :
  holds m s -> is_bytes x -> is_bytes y -> Z.of_nat (length (m ++ x)) < 2 ^ 61 ->
  Z.of_nat (length x) < 2 ^ 32 -> x <> [] ->
  (exists k, length m = (64 * k)%nat) ->
  exists s', stream_blocks s (x ++ y) (Z.of_nat (length x)) = Ok s' /\ holds (m ++ x) s'.
Proof.
  intros (n & c & t & z & Em & Lc & Lt & Eb & Es & Ls & El & Hm & Hz) Hx Hy Lm Lx Nx [k Lk].
  rewrite app_length in Lm. unfold stream_blocks. rewrite El, <- Lt.
  assert (Hct : is_bytes c /\ is_bytes t) by (rewrite Em in Hm; apply Forall_app in Hm; exact Hm).
  destruct Hct as [Hc Ht].
  assert (S1 : (if Z.of_nat (length t) =? 0 then Ok (block_state s)
                else update_multi_256 (block_state s) (sbuf s) 1) = Ok (absorb k H0 m)).
  { rewrite Eb, Es in *. rewrite app_length in Ls.
    destruct (buffered_spec (Z.of_nat (length m)) ltac:(lia)) as [[A B]|(A & B & k' & C & D)].
    - replace (Z.of_nat (length t) =? 0) with true by lia.
      assert (length c = 0%nat) by (rewrite Em, app_length in A; lia).
      replace k with 0%nat by lia. replace n with 0%nat by lia. reflexivity.
    - replace (Z.of_nat (length t) =? 0) with false by lia.
      assert (T64 : length t = 64%nat) by lia.
      rewrite (update_multi_256_ok 1).
      + f_equal. replace k with (n + 1)%nat by (rewrite Em, app_length in Lk; lia).
        rewrite Em. rewrite absorb_app by exact Lc. apply absorb_pre. lia.
      + reflexivity.
      + apply absorb_state. exact H0_state.
      + apply Forall_app. split; assumption.
      + rewrite app_length. lia. }
  rewrite S1. cbn [bind].
  assert (1 <= Z.of_nat (length x)) by (destruct x; [congruence|cbn [length]; lia]).
  destruct (buffered_spec (Z.of_nat (length x)) ltac:(lia)) as [[A B]|(A & B & q & C & D)]; [lia|].
  set (b := buffered (Z.of_nat (length x))) in *.
  assert (E1 : u32 (Z.of_nat (length x) - b) / 64 = q).
  { rewrite u32_small by lia. replace (Z.of_nat (length x) - b) with (q * 64) by lia.
    apply Z.div_mul. lia. }
  rewrite E1. rewrite (u32_small (q * 64)) by lia.
  rewrite (u32_small (Z.of_nat (length x) - q * 64)) by lia.
  replace (q * 64 / 64) with q by (symmetry; apply Z.div_mul; lia).
  set (qn := Z.to_nat q).
  rewrite (update_multi_256_ok qn);
    [|lia|apply absorb_state; exact H0_state|apply Forall_app; split; assumption
     |rewrite app_length; lia].
  cbn [bind].
  set (x1 := firstn (64 * qn) x). set (x2 := skipn (64 * qn) x).
  assert (Ex : x = x1 ++ x2) by (symmetry; apply firstn_skipn).
  assert (L1 : length x1 = (64 * qn)%nat) by (unfold x1; rewrite firstn_length; lia).
  assert (L2 : Z.of_nat (length x2) = b) by (unfold x2; rewrite skipn_length; lia).
  replace (x ++ y) with (x1 ++ x2 ++ y) by (rewrite Ex, <- app_assoc; reflexivity).
  rewrite slice_app by lia. cbn [bind].
  rewrite <- (firstn_skipn (length x2) (sbuf s)).
  rewrite blit_app0 by (rewrite firstn_length; lia). cbn [bind].
  eexists. split; [reflexivity|].
  exists (k + qn)%nat, (m ++ x1), x2, (skipn (length x2) (sbuf s)).
  cbn [block_state sbuf total_len].
  split; [rewrite Ex at 1; apply app_assoc|].
  split; [rewrite app_length; lia|].
  split.
  { rewrite L2. symmetry. apply (buffered_unique _ (Z.of_nat (k + qn))); rewrite ?app_length; lia. }
  split.
  { rewrite absorb_app by exact Lk. rewrite absorb_pre by exact L1. reflexivity. }
  split; [reflexivity|].
  split; [rewrite app_length, skipn_length; lia|].
  split; [rewrite u64_small, app_length; change (2 ^ 61) with (2 ^ 64 / 8) in Lm; lia|].
  split; [apply Forall_app; split; assumption|].
  apply is_bytes_skipn. rewrite Es. apply Forall_app. split; assumption.
Qed.

Lemma stream_update_ok m s x y :
  holds m s -> is_bytes x -> is_bytes y -> Z.of_nat (length (m ++ x)) < 2 ^ 61 ->
  Z.of_nat (length x) < 2 ^ 32 ->
  exists s', stream_update s (x ++ y) (Z.of_nat (length x)) = Ok s' /\ holds (m ++ x) s'.
Proof.
  intros H Hx Hy Lm Lx. unfold stream_update.
  assert (El : total_len s = Z.of_nat (length m))
    by (destruct H as (? & ? & ? & ? & _ & _ & _ & _ & _ & _ & E & _); exact E).
  rewrite El.
  destruct (buffered_spec (Z.of_nat (length m)) ltac:(lia)) as [[A B]|(A & B & k & C & D)].
  - rewrite B. rewrite u32_small by lia. rewrite Z.sub_0_r, Z.eqb_refl.
    destruct (Z.of_nat (length x) <=? 64) eqn:E.
    + apply fill_ok; try assumption. rewrite B. lia.
    + apply blocks_ok; try assumption.
      * destruct x; [cbn in E; lia|discriminate].
      * exists 0%nat. lia.
  - set (b := buffered (Z.of_nat (length m))) in *. rewrite u32_small by lia.
    destruct (Z.of_nat (length x) <=? 64 - b) eqn:E.
    + apply fill_ok; try assumption. fold b. lia.
    + replace (b =? 0) with false by lia.
      set (d := Z.to_nat (64 - b)) in *.
      set (x1 := firstn d x). set (x2 := skipn d x).
      assert (Ex : x = x1 ++ x2) by (symmetry; apply firstn_skipn).
      assert (L1 : length x1 = d) by (unfold x1; rewrite firstn_length; lia).
      assert (L2 : length x2 = (length x - d)%nat) by (unfold x2; rewrite skipn_length; lia).
      assert (B1 : is_bytes x1) by (apply is_bytes_firstn; exact Hx).
      assert (B2 : is_bytes x2) by (apply is_bytes_skipn; exact Hx).
      rewrite app_length in Lm.
      destruct (fill_ok m s x1 (x2 ++ y) H B1) as (s1 & E1 & H1).
      { rewrite app_length. lia. } { fold b. lia. }
      replace (64 - b) with (Z.of_nat (length x1)) by lia.
      assert (Exy : x ++ y = x1 ++ x2 ++ y)
        by (unfold x1, x2; rewrite app_assoc, firstn_skipn; reflexivity).
      rewrite Exy.
      rewrite E1. cbn [bind].
      replace (skipn d (x1 ++ x2 ++ y)) with (x2 ++ y)
        by (clearbody x1; subst d; rewrite <- L1, skipn_app, skipn_all, Nat.sub_diag; reflexivity).
      rewrite u32_small by lia.
      replace (Z.of_nat (length x) - Z.of_nat (length x1)) with (Z.of_nat (length x2)) by lia.
      destruct (blocks_ok (m ++ x1) s1 x2 y H1 B2 Hy) as (s2 & E2 & H2).
      { rewrite !app_length. lia. } { lia. } { destruct x2; [cbn in L2; lia|discriminate]. }
      { exists (Z.to_nat (k + 1)). rewrite app_length. lia. }
      exists s2. split; [exact E2|]. rewrite <- app_assoc, <- Ex in H2. exact H2.
Qed.

Lemma stream_finish_ok m s :
  holds m s -> Z.of_nat (length m) < 2 ^ 61 -> stream_finish s = Ok (SHA256 m).
Proof.
  intros (n & c & t & z & Em & Lc & Lt & Eb & Es & Ls & El & Hm & Hz) L. unfold stream_finish.
  rewrite El, <- Lt.
  assert (Hct : is_bytes c /\ is_bytes t) by (rewrite Em in Hm; apply Forall_app in Hm; exact Hm).
  destruct Hct as [Hc Ht].
  rewrite Es, app_length in Ls.
  change (if (Z.of_nat (length t) mod 64 =? 0) && (0 <? Z.of_nat (length t)) then 64
          else Z.of_nat (length t) mod 64) with (buffered (Z.of_nat (length t))).
  assert (Eb2 : buffered (Z.of_nat (length t)) = Z.of_nat (length t)).
  { destruct (Z.eq_dec (Z.of_nat (length t)) 0) as [E0|N0]; [rewrite E0; reflexivity|].
    apply (buffered_unique _ 0); lia. }
  rewrite Eb2, Z.sub_diag, Es, slice_app0 by reflexivity. cbn [bind].
  unfold update_multi_256. cbn [Z.to_nat update_multi bind].
  replace (u64 (Z.of_nat (length m) - Z.of_nat (length t))) with (64 * Z.of_nat n).
  2:{ rewrite u64_small; rewrite Em, app_length in *; change (2 ^ 61) with (2 ^ 64 / 8) in L; lia. }
  rewrite Eb.
  destruct (finish_after n c t [] Lc Hc Ht) as (s2 & E2 & F2 & _).
  { constructor. } { lia. } { rewrite <- Em. exact L. }
  rewrite app_nil_r in E2. rewrite E2. cbn [bind]. rewrite F2, <- Em. reflexivity.
Qed.

(** Any sequence of updates. *)
Lemma stream_chunks_ok chunks m s :
  holds m s -> Forall is_bytes chunks ->
  Forall (fun b => Z.of_nat (length b) < 2 ^ 32) chunks ->
  Z.of_nat (length (m ++ concat chunks)) < 2 ^ 61 ->
  exists s', foldM (fun s b => stream_update s b (Z.of_nat (length b))) chunks s = Ok s'
             /\ holds (m ++ concat chunks) s'.
Proof.
  revert m s. induction chunks as [|b chunks IH]; intros m s H HB HL L.
  - exists s. split; [reflexivity|]. cbn [concat]. rewrite app_nil_r. exact H.
  - inversion_clear HB as [|? ? Hb HB']. inversion_clear HL as [|? ? Lb HL'].
    cbn [concat] in *. rewrite !app_length in L.
    destruct (stream_update_ok m s b [] H Hb) as (s1 & E1 & H1).
    { constructor. } { rewrite app_length. lia. } { exact Lb. }
    rewrite app_nil_r in E1. cbn [foldM]. rewrite E1. cbn [bind].
    destruct (IH (m ++ b) s1 H1 HB' HL') as (s2 & E2 & H2).
    { rewrite !app_length. lia. }
    exists s2. split; [exact E2|]. rewrite app_assoc. exact H2.
Qed.

(** ** HMAC *)
Lemma xor_block_map c k : xor_block (repeat c (length k)) k = map (Z.lxor c) k.
Proof.
  induction k as [|x k IH]; [reflexivity|]. cbn [length repeat]. unfold xor_block in *.
  cbn [combine map]. rewrite IH. reflexivity.
Qed.

Lemma lxor_byte c x : 0 <= c < 256 -> 0 <= x < 256 -> 0 <= Z.lxor c x < 256.
Proof.
  intros Hc Hx. split; [apply Z.lxor_nonneg; lia|].
  destruct (Z.eq_dec (Z.lxor c x) 0) as [->|N]; [lia|].
  assert (N0 : 0 <= Z.lxor c x) by (apply Z.lxor_nonneg; lia).
  change 256 with (2 ^ 8). apply Z.log2_lt_pow2; [lia|].
  eapply Z.le_lt_trans; [apply Z.log2_lxor; lia|].
  assert (forall v, 0 <= v < 256 -> Z.log2 v < 8).
  { intros v Hv. destruct (Z.eq_dec v 0) as [->|]; [cbn; lia|].
    apply Z.log2_lt_pow2; cbn; lia. }
  apply Z.max_lub_lt; auto.
Qed.

Lemma map_xor_bytes c k : 0 <= c < 256 -> is_bytes k -> is_bytes (map (Z.lxor c) k).
Proof.
  intros Hc H. apply Forall_forall. intros y Hy. apply in_map_iff in Hy.
  destruct Hy as (x & <- & Hx). apply lxor_byte; [exact Hc|].
  exact (proj1 (Forall_forall _ _) H x Hx).
Qed.

Lemma hmac_key_length key : length (hmac_key key) = 64%nat.
Proof.
  unfold hmac_key. rewrite app_length, repeat_length.
  destruct (length key <=? 64)%nat eqn:E; [lia|rewrite SHA256_length; lia].
Qed.
Lemma hmac_key_bytes key : is_bytes key -> is_bytes (hmac_key key).
Proof.
  intros H. unfold hmac_key. apply Forall_app. split; [|apply repeat0_bytes].
  destruct (length key <=? 64)%nat; [exact H|apply SHA256_bytes].
Qed.

Lemma hmac_compute_ok key data :
  is_bytes key -> is_bytes data ->
  Z.of_nat (length key) < 2 ^ 32 -> Z.of_nat (length data) < 2 ^ 32 ->
  hmac_compute key (Z.of_nat (length key)) data (Z.of_nat (length data)) = Ok (HMAC256 key data).
Proof.
  intros Hk Hd Lk Ld. unfold hmac_compute.
  assert (KB : (if Z.of_nat (length key) <=? 64
                then do k <- slice 0 (Z.of_nat (length key)) key; blit 0 k (repeat 0 64)
                else do k <- hash_256 key (Z.of_nat (length key)); blit 0 k (repeat 0 64))
               = Ok (hmac_key key)).
  { unfold hmac_key. destruct (Nat.leb_spec (length key) 64) as [L|L].
    - replace (Z.of_nat (length key) <=? 64) with true by lia.
      rewrite <- (app_nil_r key) at 2. rewrite slice_app0 by reflexivity. cbn [bind].
      rewrite (repeat_split 0 64 (length key)) by exact L.
      rewrite blit_app0 by apply repeat_length. reflexivity.
    - replace (Z.of_nat (length key) <=? 64) with false by lia.
      rewrite hash_256_ok by assumption. cbn [bind].
      rewrite (repeat_split 0 64 (length (SHA256 key))) by (rewrite SHA256_length; lia).
      rewrite blit_app0 by apply repeat_length. reflexivity. }
  rewrite KB. cbn [bind]. unfold HMAC256.
  pose proof (hmac_key_length key) as L64. pose proof (hmac_key_bytes key Hk) as B64.
  set (k := hmac_key key) in *. clearbody k. clear KB.
  replace (repeat 54 64) with (repeat 54 (length k)) by (rewrite L64; reflexivity).
  replace (repeat 92 64) with (repeat 92 (length k)) by (rewrite L64; reflexivity).
  rewrite !xor_block_map.
  set (ip := map (Z.lxor 54) k). set (op := map (Z.lxor 92) k).
  assert (Lip : length ip = (64 * 1)%nat) by (unfold ip; rewrite map_length; exact L64).
  assert (Lop : length op = (64 * 1)%nat) by (unfold op; rewrite map_length; exact L64).
  assert (Bip : is_bytes ip) by (apply map_xor_bytes; [lia|exact B64]).
  assert (Bop : is_bytes op) by (apply map_xor_bytes; [lia|exact B64]).
  rewrite <- H0_code.
  assert (Inner : exists s1,
    (if Z.of_nat (length data) =? 0 then update_last_256 H0 0 ip 64
     else do s0 <- update_multi_256 H0 ip 1; update_last_256 s0 64 data (Z.of_nat (length data)))
    = Ok s1 /\ sha_finish s1 = SHA256 (ip ++ data)).
  { destruct (Z.eqb_spec (Z.of_nat (length data)) 0) as [E|E].
    - destruct data; [|cbn in E; lia]. rewrite app_nil_r.
      destruct (finish_after 0 [] ip []) as (s & E1 & E2 & _); try constructor; try assumption.
      { rewrite Lip. lia. } { rewrite app_length, Lip. cbn. lia. }
      exists s. rewrite app_nil_r, Lip in E1. split; [exact E1|exact E2].
    - rewrite (update_multi_256_ok 1);
        [|reflexivity|exact H0_state|exact Bip|lia]. cbn [bind].
      destruct (finish_after 1 ip data [] Lip Bip Hd) as (s & E1 & E2 & _).
      { constructor. } { exact Ld. } { rewrite app_length, Lip. lia. }
      exists s. rewrite app_nil_r in E1. split; [exact E1|exact E2]. }
  destruct Inner as (s1 & E1 & F1). rewrite E1. cbn [bind]. rewrite F1.
  set (inner := SHA256 (ip ++ data)).
  assert (Li : length inner = 32%nat) by apply SHA256_length.
  assert (Bi : is_bytes inner) by apply SHA256_bytes.
  rewrite <- (firstn_skipn 32 ip) at 1.
  rewrite blit_app0 by (rewrite firstn_length; lia). cbn [bind].
  rewrite (update_multi_256_ok 1);
    [|reflexivity|exact H0_state|exact Bop|lia]. cbn [bind].
  destruct (finish_after 1 op inner (skipn 32 ip) Lop Bop Bi) as (s & E2 & F2 & _).
  { apply is_bytes_skipn. exact Bip. } { lia. } { rewrite app_length. lia. }
  rewrite Li in E2. change (64 * Z.of_nat 1) with 64 in E2. change (Z.of_nat 32) with 32 in E2.
  rewrite E2. cbn [bind]. rewrite F2. reflexivity.
Qed.
