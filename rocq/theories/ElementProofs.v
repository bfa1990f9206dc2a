(** Proofs about elements as objects (ElementModel) against plain values (ElementSpec). *)
From Verif Require Import Base GroupModel GroupSpec GroupProofs CodecModel CodecProofs LookupModel LookupProofs
  HashSpec HashSpecProofs ElementModel ElementSpec.
From Verif Require HashedProofs.
Local Open Scope Z_scope.
Local Opaque to_hex_p to_hex_q to_bytes_p to_bytes_q W4096 W256 gen_table table_pow.

(** ** Positions *)
Lemma put_length {A} (l : list A) i x : length (put l i x) = length l.
Proof. revert i. induction l as [|y t IH]; intros [|i]; cbn; auto. Qed.
Lemma put_nth {A} (l : list A) i x j d :
  nth j (put l i x) d = if (i =? j)%nat && (i <? length l)%nat then x else nth j l d.
Proof.
  revert i j. induction l as [|y t IH]; intros [|i] [|j]; cbn [put nth length]; try reflexivity.
  - cbn [Nat.eqb]. rewrite andb_false_r. reflexivity.
  - rewrite IH. reflexivity.
Qed.
Lemma s_set_put s i x : (i < length s)%nat -> s_set s i x = put s i x.
Proof.
  revert i. induction s as [|y t IH]; intros i H; cbn in H; [lia|].
  destruct i; cbn; [reflexivity|]. f_equal. apply IH. lia.
Qed.
Lemma s_at_some s i x : s_at s i = Some x -> (i < length s)%nat.
Proof.
  unfold s_at. intros H. destruct (Nat.ltb_spec i (length s)); [assumption|].
  rewrite nth_overflow in H by assumption. discriminate H.
Qed.
Lemma obj_at_nth s i : obj_at s i = nth i (es_objs s) None.
Proof.
  unfold obj_at. destruct (nth_error (es_objs s) i) as [[o|]|] eqn:E.
  - symmetry. apply nth_error_nth. assumption.
  - symmetry. apply nth_error_nth. assumption.
  - apply nth_error_None in E. rewrite nth_overflow by assumption. reflexivity.
Qed.
Lemma nth_snoc {A} (l : list A) x j d : nth j (l ++ [x]) d = if (j =? length l)%nat then x else nth j l d.
Proof.
  destruct (Nat.eqb_spec j (length l)) as [->|N].
  - rewrite app_nth2, Nat.sub_diag by lia. reflexivity.
  - destruct (Nat.ltb_spec j (length l)); [apply app_nth1; assumption|].
    rewrite !nth_overflow; rewrite ?app_length; cbn; try lia. reflexivity.
Qed.

(** ** Limbs *)
Lemma s_size_eq k : s_size k = 2 ^ (64 * Z.of_nat (limb_count k)).
Proof. destruct k; reflexivity. Qed.
Lemma s_size_pos k : 0 < s_size k.
Proof. rewrite s_size_eq. apply Z.pow_pos_nonneg; lia. Qed.
Lemma size_p : s_size KP = W4096. Proof. reflexivity. Qed.
Lemma size_q : s_size KQ = W256. Proof. reflexivity. Qed.
Lemma limb_guard k l : (Z.of_nat l * 64 <? Z.log2 (s_size k)) = (l <? limb_count k)%nat.
Proof.
  rewrite s_size_eq, Z.log2_pow2 by lia.
  destruct (Z.ltb_spec (Z.of_nat l * 64) (64 * Z.of_nat (limb_count k))), (Nat.ltb_spec l (limb_count k)); lia.
Qed.
Lemma put_limb_eq v l w : put_limb v l w = s_limb v l w.
Proof.
  unfold put_limb, s_limb. set (B := 2 ^ (64 * Z.of_nat l)).
  assert (HB : 0 < B) by (apply Z.pow_pos_nonneg; lia).
  replace (2 ^ (64 * Z.of_nat (S l))) with (B * 2 ^ 64)
    by (unfold B; rewrite <- Z.pow_add_r by lia; f_equal; lia).
  rewrite <- Z.div_div by lia.
  pose proof (Z.div_mod v B ltac:(lia)) as E1.
  pose proof (Z.div_mod (v / B) (2 ^ 64) ltac:(lia)) as E2. nia.
Qed.
Lemma s_limb_range n v l w : (l < n)%nat -> 0 <= v < 2 ^ (64 * Z.of_nat n) -> 0 <= w < 2 ^ 64 ->
  0 <= s_limb v l w < 2 ^ (64 * Z.of_nat n).
Proof.
  intros Hl Hv Hw. unfold s_limb. set (B := 2 ^ (64 * Z.of_nat l)).
  assert (HB : 0 < B) by (apply Z.pow_pos_nonneg; lia).
  replace (2 ^ (64 * Z.of_nat (S l))) with (B * 2 ^ 64)
    by (unfold B; rewrite <- Z.pow_add_r by lia; f_equal; lia).
  set (C := B * 2 ^ 64). set (D := 2 ^ (64 * Z.of_nat (n - S l))).
  assert (HD : 0 < D) by (apply Z.pow_pos_nonneg; lia).
  assert (E : 2 ^ (64 * Z.of_nat n) = C * D)
    by (unfold C, B, D; rewrite <- !Z.pow_add_r by lia; f_equal; lia).
  rewrite E in *. assert (HC : 0 < C) by (unfold C; lia).
  pose proof (Z.mod_pos_bound v B HB).
  assert (0 <= v / C < D) by (split; [apply Z.div_pos; lia|apply Z.div_lt_upper_bound; lia]).
  assert (v mod B + w * B < C) by (unfold C; nia). nia.
Qed.

Local Opaque s_size.

(** ** The simulation *)
Section Sim.
Context (gp : params) (VP : valid_params gp).

Record orel1 (seen : list nat) (i : nat) (o : eobj) (x : sval) : Prop := {
  o_kind : eo_kind o = sv_kind x;
  o_data : eo_data o = sv_val x;
  o_fixed : eo_fixed o = sv_fixed x;
  o_range : 0 <= sv_val x < s_size (sv_kind x);
  o_q : sv_kind x = KQ -> sv_fixed x = false /\ eo_hex o = [];
  o_hex : eo_hex o = [] \/ (eo_hex o = to_hex_p (eo_data o) /\ In i seen) }.
Definition orel (seen : list nat) (i : nat) (o : option eobj) (x : option sval) : Prop :=
  match o, x with
  | None, None => True
  | Some o, Some x => orel1 seen i o x
  | _, _ => False
  end.
Record sim (s : estate) (ss : sstore) (seen : list nat) : Prop := {
  sim_len : length (es_objs s) = length ss;
  sim_at : forall i, orel seen i (obj_at s i) (s_at ss i);
  sim_seen : forall i, In i seen -> (i < length ss)%nat;
  sim_cache : cache_ok gp (es_cache s) }.

Lemma sim_init : sim einit [] [].
Proof.
  constructor; [reflexivity| |intros i []|apply cache_ok_nil].
  intros i. rewrite obj_at_nth. unfold s_at. destruct i; exact I.
Qed.

Lemma orel_seen seen seen' i o x : (forall k, In k seen -> k = i -> In k seen') -> orel seen i o x -> orel seen' i o x.
Proof.
  intros H. destruct o, x; cbn [orel]; auto. intros [A B C D E F]. constructor; auto.
  destruct F as [F|[F G]]; [left; assumption|right; split; [assumption|apply H; auto]].
Qed.

Lemma hex_ok x : 0 <= sv_val x < s_size (sv_kind x) ->
  sp_hex (s_bytes (sv_kind x)) (sv_val x)
  = match sv_kind x with KP => to_hex_p (sv_val x) | KQ => to_hex_q (sv_val x) end.
Proof. destruct (sv_kind x); [apply sp_hex_p|apply sp_hex_q]. Qed.

Lemma sim_add s ss seen o x : sim s ss seen -> orel seen (length ss) (Some o) (Some x) ->
  sim (fst (add_obj s o)) (fst (s_add ss x)) seen /\ snd (add_obj s o) = snd (s_add ss x).
Proof.
  intros [L A N C] H. unfold add_obj, s_add. cbn [fst snd]. split; [|rewrite L; reflexivity].
  constructor; cbn [es_objs es_cache es_freed].
  - rewrite !app_length. cbn. rewrite L. reflexivity.
  - intros i. rewrite obj_at_nth. cbn [es_objs]. unfold s_at. rewrite !nth_snoc, L.
    destruct (Nat.eqb_spec i (length ss)) as [->|N']; [exact H|].
    pose proof (A i) as B. rewrite obj_at_nth in B. exact B.
  - intros i Hi. apply N in Hi. rewrite app_length. lia.
  - exact C.
Qed.

(** Replace one entry; [seen] may change as long as other entries keep their mark. *)
Lemma sim_put s ss seen seen' i o x : sim s ss seen -> (i < length ss)%nat -> orel seen' i o x ->
  (forall k, k <> i -> In k seen -> In k seen') -> (forall k, In k seen' -> (k < length ss)%nat) ->
  sim (set_obj s i o) (s_set ss i x) seen'.
Proof.
  intros [L A N C] Hi H Hs Hn. rewrite s_set_put by assumption. constructor; cbn [set_obj es_objs es_cache].
  - rewrite !put_length. exact L.
  - intros j. rewrite obj_at_nth. cbn [set_obj es_objs]. unfold s_at. rewrite !put_nth, L.
    destruct (Nat.eqb_spec i j) as [->|N']; cbn [andb].
    + rewrite (proj2 (Nat.ltb_lt _ _) Hi). exact H.
    + pose proof (A j) as B. rewrite obj_at_nth in B.
      eapply orel_seen; [|exact B]. intros k Hk ->. apply Hs; auto.
  - intros k Hk. rewrite put_length. auto.
  - exact C.
Qed.
Lemma sim_release s ss seen f : sim s ss seen -> sim (release s f) ss seen.
Proof. intros [L A N C]. constructor; auto. Qed.

(** The same value stays at [i], with a new object. *)
Lemma sim_same s ss seen seen' i o x c : sim s ss seen -> s_at ss i = Some x ->
  orel seen' i (Some o) (Some x) ->
  (forall k, k <> i -> In k seen -> In k seen') -> (forall k, In k seen' -> (k < length ss)%nat) ->
  cache_ok gp c ->
  sim {| es_objs := put (es_objs s) i (Some o); es_cache := c; es_freed := es_freed s |} ss seen'.
Proof.
  intros [L A N C] Hx H Hs Hn Hc. constructor; cbn [es_objs es_cache].
  - rewrite put_length. exact L.
  - intros j. rewrite obj_at_nth. cbn [es_objs]. rewrite put_nth.
    pose proof (A j) as B. rewrite obj_at_nth in B.
    destruct (Nat.eqb_spec i j) as [<-|N']; cbn [andb].
    + rewrite L, (proj2 (Nat.ltb_lt _ _) (s_at_some _ _ _ Hx)), Hx. exact H.
    + eapply orel_seen; [|exact B]. intros k Hk ->. apply Hs; auto.
  - exact Hn.
  - exact Hc.
Qed.

Lemma orel_some seen i o x : orel seen i o (Some x) -> exists o', o = Some o' /\ orel seen i (Some o') (Some x).
Proof. destruct o as [o'|]; [|intros []]. intros H. exists o'. auto. Qed.
Lemma orel_none seen i o : orel seen i o None -> o = None.
Proof. destruct o as [o'|]; [intros []|reflexivity]. Qed.

Lemma new_ok k v u f : 0 <= v < s_size k ->
  eobj_new gp k v u f =
  if u || (v <=? s_modulus gp k)
  then Ok {| eo_kind := k; eo_data := v; eo_fixed := match k with KP => f | KQ => false end; eo_hex := [] |}
  else Throw OutOfRange.
Proof.
  intros H. unfold eobj_new, make_p, make_q. destruct k; cbn [Nat.ltb Nat.leb bind s_modulus];
    destruct u; cbn [negb andb orb bind]; try reflexivity.
  - destruct (Z.ltb_spec (gpP gp) v), (Z.leb_spec v (gpP gp)); cbn [bind]; try lia; reflexivity.
  - destruct (Z.ltb_spec (gpQ gp) v), (Z.leb_spec v (gpQ gp)); cbn [bind]; try lia; reflexivity.
Qed.

Lemma tohex_ok seen i o x : orel seen i (Some o) (Some x) ->
  fst (eobj_tohex o) = sp_hex (s_bytes (sv_kind x)) (sv_val x)
  /\ orel (i :: seen) i (Some (snd (eobj_tohex o))) (Some x).
Proof.
  intros [K D F R Q H]. rewrite hex_ok by assumption. unfold eobj_tohex. rewrite K.
  destruct (sv_kind x) eqn:KX.
  - destruct (eo_hex o) as [|c t] eqn:E; cbn [fst snd].
    + rewrite D. split; [reflexivity|]. cbn [orel].
      constructor; cbn [eo_kind eo_data eo_fixed eo_hex]; rewrite ?KX; auto; [discriminate|].
      right. split; [reflexivity|left; reflexivity].
    + destruct H as [H|[H J]]; [discriminate H|]. rewrite H, D. split; [reflexivity|].
      cbn [orel]. constructor; rewrite ?KX; auto; [discriminate|].
      right. rewrite E, H. split; [reflexivity|left; reflexivity].
  - cbn [fst snd]. rewrite D. split; [reflexivity|]. cbn [orel]. constructor; rewrite ?KX; auto.
    left. apply Q. reflexivity.
Qed.

Lemma pow_ok seen i o x c e : orel seen i (Some o) (Some x) -> sv_kind x = KP -> cache_ok gp c -> 0 <= e < W256 ->
  let '(r, o', c') := eobj_pow gp c o e in
  r = (sv_val x ^ e) mod gpP gp /\ cache_ok gp c'
  /\ orel (if sv_fixed x && negb (e =? 0) then i :: seen else seen) i (Some o') (Some x).
Proof.
  intros O KX Hc He. pose proof O as [K D F R Q H]. unfold eobj_pow. rewrite F.
  pose proof (P_pos gp VP). rewrite KX, size_p in R.
  destruct (Z.eqb_spec e 0) as [->|N].
  - rewrite andb_false_r. split; [|split; assumption]. rewrite Z.pow_0_r. symmetry. apply Z.mod_small. lia.
  - cbn [negb]. rewrite andb_true_r. destruct (sv_fixed x).
    + destruct (tohex_ok seen i o x O) as [T O'].
      destruct (eobj_tohex o) as [t o'] eqn:E. cbn [fst snd] in T, O'.
      rewrite hex_ok in T by (rewrite KX, size_p; assumption). rewrite KX in T. subst t.
      rewrite D.
      pose proof (cache_get_ok gp c (sv_val x) Hc R) as [G1 G2].
      destruct (cache_get gp c (to_hex_p (sv_val x)) (sv_val x)) as [tb c'']. cbn [fst snd] in G1, G2. subst tb.
      split; [|split; assumption].
      apply table_pow_correct; [lia|apply (vp_Podd _ VP)|assumption].
    + split; [|split; assumption]. rewrite D. apply pow_mod_p_p_correct; [exact VP|]. pose proof W256_lt_W512. lia.
Qed.

Lemma kind_same (o p : eobj) x y : eo_kind o = sv_kind x -> eo_kind p = sv_kind y ->
  same_kind o p = kind_eqb (sv_kind x) (sv_kind y).
Proof. intros A B. unfold same_kind, kind_eqb. rewrite A, B. reflexivity. Qed.

Ltac QQ := match goal with H : sv_kind ?x = KQ -> _, K : sv_kind ?x = KQ |- _ => apply H in K end.
Ltac at_ i A x E o :=
  let B := fresh "B" in pose proof (A i) as B;
  destruct (s_at _ i) as [x|] eqn:E;
  [apply orel_some in B as (o & -> & B) | apply orel_none in B; rewrite B].

Lemma in_filter_ne k i seen : In k (filter (fun k => negb (Nat.eqb k i)) seen) <-> In k seen /\ k <> i.
Proof.
  rewrite filter_In. split; intros [H1 H2]; split; auto.
  - intros ->. rewrite Nat.eqb_refl in H2. discriminate H2.
  - destruct (Nat.eqb_spec k i); [contradiction|reflexivity].
Qed.

Lemma step_ok s ss seen op : sim s ss seen -> op_typed op = true -> op_kept gp ss seen op = true ->
  snd (estep gp s op) = snd (s_step gp ss op)
  /\ sim (fst (estep gp s op)) (fst (s_step gp ss op)) (taken ss seen op).
Proof.
  intros S T K. pose proof S as [L A N C].
  destruct op as [k v u f|i|i|i j|i|i b|i|i l w|i j|i j|i j|i]; cbn [estep s_step taken].
  - (* new *)
    cbn [op_typed] in T. apply andb_prop in T as [T1 T2]. apply Z.leb_le in T1. apply Z.ltb_lt in T2.
    rewrite new_ok by lia. destruct (u || (v <=? s_modulus gp k)); cbn [add_result fst snd]; [|auto].
    match goal with |- context [add_obj s ?o] => match goal with |- context [s_add ss ?x] =>
      pose proof (sim_add s ss seen o x S) as H end end.
    destruct H as [H1 H2]; [|split; [exact H2|exact H1]].
    cbn [orel]. constructor; cbn [eo_kind eo_data eo_fixed eo_hex sv_kind sv_val sv_fixed]; auto. destruct k; [discriminate|auto].
  - (* copy *)
    at_ i A x E o; [|auto].
    match goal with |- context [add_obj s ?o] => pose proof (sim_add s ss seen o x S) as H end.
    destruct H as [H1 H2]; [|split; [exact H2|exact H1]].
    destruct B as [B1 B2 B3 B4 B5 _]. cbn [orel]. constructor; cbn [eobj_copy eo_kind eo_data eo_fixed eo_hex sv_kind sv_val sv_fixed]; auto; intros Hk; split; auto; QQ; tauto.
  - (* clone *)
    cbn [op_kept] in K.
    at_ i A x E o; [|auto].
    destruct B as [B1 B2 B3 B4 B5 _]. unfold eobj_clone. rewrite B1.
    assert (EC : match sv_kind x with KP => eobj_new gp KP (eo_data o) true (eo_fixed o)
                 | KQ => eobj_new gp KQ (eo_data o) false false end
                 = Ok {| eo_kind := sv_kind x; eo_data := sv_val x; eo_fixed := sv_fixed x; eo_hex := [] |}).
    { destruct x as [k v fx]. cbn [sv_kind sv_val sv_fixed] in *. rewrite B2, B3. destruct k; rewrite new_ok by assumption.
      - reflexivity.
      - cbn [orb s_modulus]. rewrite K, (proj1 (B5 eq_refl)). reflexivity. }
    rewrite EC. cbn [add_result].
    match goal with |- context [add_obj s ?o] => pose proof (sim_add s ss seen o x S) as H end.
    destruct H as [H1 H2]; [|split; [exact H2|exact H1]].
    cbn [orel]. constructor; cbn [eobj_copy eo_kind eo_data eo_fixed eo_hex sv_kind sv_val sv_fixed]; auto; intros Hk; split; auto; QQ; tauto.
  - (* assign *)
    at_ i A x E o; [|auto]. at_ j A y E' p; [|auto].
    destruct B as [B1 B2 B3 B4 B5 B6]. destruct B0 as [D1 D2 D3 D4 D5 D6].
    rewrite (kind_same o p x y B1 D1). destruct (kind_eqb (sv_kind x) (sv_kind y)); [|auto].
    cbn [fst snd]. split; [reflexivity|]. apply sim_release.
    apply (sim_put s ss seen); auto.
    + apply (s_at_some _ _ _ E).
    + cbn [orel]. constructor; cbn [eobj_copy eo_kind eo_data eo_fixed eo_hex sv_kind sv_val sv_fixed]; auto; intros Hk; split; auto; QQ; tauto.
    + intros k Nk Hk. apply in_filter_ne. auto.
    + intros k Hk. apply in_filter_ne in Hk as [Hk _]. auto.
  - (* toHex *)
    at_ i A x E o; [|auto].
    destruct (tohex_ok _ _ _ _ B) as [T1 T2]. destruct (eobj_tohex o) as [t o'] eqn:EH. cbn [fst snd] in *.
    split; [rewrite T1; reflexivity|].
    apply (sim_same s ss seen (i :: seen) i o' x (es_cache s)); auto.
    + intros k _ Hk. right. assumption.
    + intros k [<-|Hk]; [apply (s_at_some _ _ _ E)|auto].
  - (* setIsFixedBase *)
    at_ i A x E o; [|auto]. destruct B as [B1 B2 B3 B4 B5 B6]. destruct x as [k v fx].
    cbn [sv_kind sv_val sv_fixed] in *. rewrite B1. destruct k; [|auto]. cbn [fst snd]. split; [reflexivity|].
    apply (sim_put s ss seen); auto; [apply (s_at_some _ _ _ E)|].
    cbn [orel]. constructor; cbn [eobj_fix eo_kind eo_data eo_fixed eo_hex sv_kind sv_val sv_fixed]; auto.
    discriminate.
  - (* isFixedBase *)
    at_ i A x E o; [|auto]. destruct B as [B1 B2 B3 B4 B5 B6]. destruct x as [k v fx].
    cbn [sv_kind sv_val sv_fixed] in *. rewrite B1. destruct k; cbn [fst snd]; rewrite ?B3; auto.
  - (* write *)
    cbn [op_kept op_typed] in K, T. at_ i A x E o; [|auto].
    destruct B as [B1 B2 B3 B4 B5 B6]. rewrite limb_guard, B1.
    destruct (Nat.ltb_spec l (limb_count (sv_kind x))) as [Hl|]; [|auto].
    cbn [fst snd]. split; [reflexivity|].
    apply andb_prop in T as [T1 T2]. apply Z.leb_le in T1. apply Z.ltb_lt in T2.
    apply (sim_put s ss seen); auto; [apply (s_at_some _ _ _ E)|].
    assert (HR : 0 <= s_limb (sv_val x) l w < s_size (sv_kind x)).
    { rewrite s_size_eq in *. apply s_limb_range; auto. }
    cbn [orel]. constructor; cbn [eobj_write eo_kind eo_data eo_fixed eo_hex sv_kind sv_val sv_fixed]; auto.
    + rewrite B2. apply put_limb_eq.
    + left. destruct B6 as [B6|[B6 B7]]; [assumption|].
      destruct x as [k v fx]. cbn [sv_kind sv_val sv_fixed] in *. destruct k; [exfalso|].
      * apply negb_true_iff in K. assert (existsb (Nat.eqb i) seen = true) as X.
        { apply existsb_exists. exists i. split; [assumption|apply Nat.eqb_refl]. }
        rewrite X in K. discriminate K.
      * apply B5. reflexivity.
  - (* less *)
    at_ i A x E o; [|auto]. at_ j A y E' p; [|auto].
    destruct B as [B1 B2 _ _ _ _]. destruct B0 as [D1 D2 _ _ _ _].
    rewrite (kind_same o p x y B1 D1). destruct (kind_eqb (sv_kind x) (sv_kind y)); [|auto].
    cbn [fst snd]. rewrite B2, D2. split; [reflexivity|]. apply sim_release. assumption.
  - (* equal *)
    at_ i A x E o; [|auto]. at_ j A y E' p; [|auto].
    destruct B as [B1 B2 _ _ _ _]. destruct B0 as [D1 D2 _ _ _ _].
    rewrite (kind_same o p x y B1 D1). destruct (kind_eqb (sv_kind x) (sv_kind y)); [|auto].
    cbn [fst snd]. rewrite B2, D2. split; [reflexivity|assumption].
  - (* pow *)
    at_ i A x E o; [|auto]. at_ j A y E' p; [|destruct x as [[] v [|]]; auto].
    pose proof B as [B1 B2 B3 B4 B5 B6]. pose proof B0 as [D1 D2 D3 D4 D5 D6].
    rewrite B1, D1. destruct y as [ky e fy]. cbn [sv_kind sv_val sv_fixed] in *.
    destruct (sv_kind x) eqn:KX; [|destruct x as [kx vx fx]; cbn in KX; subst kx; auto].
    destruct ky; [destruct x as [kx vx [|]]; cbn in KX; subst kx; auto|].
    rewrite size_q in D4. rewrite D2.
    pose proof (pow_ok seen i o x (es_cache s) e B KX C D4) as PW.
    destruct (eobj_pow gp (es_cache s) o e) as [[r o'] c']. destruct PW as (P1 & P2 & P3).
    assert (HT : match x with {| sv_kind := KP; sv_fixed := true |} => if e =? 0 then seen else i :: seen | _ => seen end
                 = if sv_fixed x && negb (e =? 0) then i :: seen else seen).
    { destruct x as [kx vx [|]]; cbn in KX; subst kx; cbn [sv_fixed andb]; [|reflexivity].
      destruct (e =? 0); reflexivity. }
    rewrite HT. set (seen' := if sv_fixed x && negb (e =? 0) then i :: seen else seen) in *.
    assert (HS : sim {| es_objs := put (es_objs s) i (Some o'); es_cache := c'; es_freed := es_freed s |} ss seen').
    { apply (sim_same s ss seen seen' i o' x c'); auto.
      - intros k _ Hk. unfold seen'. destruct (sv_fixed x && negb (e =? 0)); [right|]; assumption.
      - intros k Hk. unfold seen' in Hk. destruct (sv_fixed x && negb (e =? 0)); [|auto].
        destruct Hk as [<-|Hk]; [apply (s_at_some _ _ _ E)|auto]. }
    assert (HR : 0 <= r < s_size KP).
    { pose proof (P_pos gp VP). pose proof (vp_Phi _ VP). rewrite size_p, P1.
      pose proof (Z.mod_pos_bound (sv_val x ^ e) (gpP gp) ltac:(lia)). lia. }
    rewrite new_ok by exact HR. cbn [orb add_result].
    assert (HX : match x with {| sv_kind := KP; sv_val := b |} =>
                   s_add ss {| sv_kind := KP; sv_val := (b ^ e) mod gpP gp; sv_fixed := false |} | _ => (ss, RMisuse) end
                 = s_add ss {| sv_kind := KP; sv_val := r; sv_fixed := false |}).
    { rewrite P1. destruct x as [kx vx fx]; cbn in KX; subst kx. reflexivity. }
    rewrite HX.
    match goal with |- context [add_obj ?s' ?o] => match goal with |- context [s_add ss ?x'] =>
      pose proof (sim_add s' ss seen' o x' HS) as H end end.
    destruct H as [H1 H2]; [|split; [exact H2|exact H1]].
    cbn [orel]. constructor; cbn [eo_kind eo_data eo_fixed eo_hex sv_kind sv_val sv_fixed]; auto; discriminate.
  - (* destroy *)
    at_ i A x E o; [|auto]. cbn [fst snd]. split; [reflexivity|]. apply sim_release.
    apply (sim_put s ss seen); auto; [apply (s_at_some _ _ _ E)|exact I].
Qed.


Lemma runs_ok ops : forall s ss seen, sim s ss seen -> disciplined_from gp ss seen ops = true ->
  snd (eruns gp s ops) = s_runs gp ss ops.
Proof.
  induction ops as [|op t IH]; intros s ss seen S D; [reflexivity|].
  cbn [disciplined_from] in D. apply andb_prop in D as [D D3]. apply andb_prop in D as [D1 D2].
  destruct (step_ok s ss seen op S D1 D2) as [R S']. cbn [eruns s_runs].
  destruct (estep gp s op) as [s1 r]. destruct (s_step gp ss op) as [ss1 r']. cbn [fst snd] in *. subst r'.
  pose proof (IH s1 ss1 _ S' D3) as J. destruct (eruns gp s1 t) as [s2 rs]. cbn [snd] in *. rewrite J. reflexivity.
Qed.
End Sim.

(** ** Memory left behind *)
Lemma image_length n v : length (image n v) = (8 * n)%nat.
Proof. unfold image. rewrite map_length, seq_length. reflexivity. Qed.
Lemma mem_value_app a b : mem_value (a ++ b) = mem_value a + 256 ^ Z.of_nat (length a) * mem_value b.
Proof.
  induction a as [|x a IH]; cbn [app mem_value fold_right length].
  - cbn [Z.of_nat]. rewrite Z.pow_0_r, Z.mul_1_l, Z.add_0_l. reflexivity.
  - fold (mem_value (a ++ b)). fold (mem_value a). rewrite IH, Nat2Z.inj_succ, Z.pow_succ_r by lia. ring.
Qed.
Lemma mem_value_zeros n : mem_value (repeat 0 n) = 0.
Proof. induction n as [|n IH]; [reflexivity|]. cbn [repeat mem_value fold_right]. fold (mem_value (repeat 0 n)). lia. Qed.
Lemma pow8 i : 2 ^ (8 * Z.of_nat i) = 256 ^ Z.of_nat i.
Proof. rewrite Z.pow_mul_r by lia. reflexivity. Qed.
Lemma mem_value_digits v k : forall n, mem_value (map (fun i => (v / 2 ^ (8 * Z.of_nat i)) mod 256) (seq k n))
  = (v / 256 ^ Z.of_nat k) mod 256 ^ Z.of_nat n.
Proof.
  intros n. revert k. induction n as [|n IH]; intros k.
  - cbn. rewrite Z.mod_1_r. reflexivity.
  - cbn [seq map mem_value fold_right]. fold (mem_value (map (fun i => (v / 2 ^ (8 * Z.of_nat i)) mod 256) (seq (S k) n))).
    rewrite IH, pow8, !Nat2Z.inj_succ, !Z.pow_succ_r by lia.
    assert (0 < 256 ^ Z.of_nat k) by (apply Z.pow_pos_nonneg; lia).
    assert (0 < 256 ^ Z.of_nat n) by (apply Z.pow_pos_nonneg; lia).
    rewrite (Z.mul_comm 256 (256 ^ Z.of_nat k)), <- Z.div_div by lia.
    rewrite Z.rem_mul_r by lia. reflexivity.
Qed.
Lemma image_value n v : 0 <= v < 2 ^ (64 * Z.of_nat n) -> mem_value (image n v) = v.
Proof.
  intros H. unfold image. rewrite mem_value_digits. cbn [Z.of_nat]. rewrite Z.pow_0_r, Z.div_1_r, <- pow8.
  apply Z.mod_small. replace (8 * Z.of_nat (8 * n)) with (64 * Z.of_nat n) by lia. exact H.
Qed.
Lemma seq_split k n m : (k <= n)%nat -> skipn k (seq m n) = seq (m + k) (n - k).
Proof.
  revert n m. induction k as [|k IH]; intros n m H.
  - rewrite Nat.add_0_r, Nat.sub_0_r. reflexivity.
  - destruct n; [lia|]. cbn [seq skipn]. rewrite IH by lia. f_equal; lia.
Qed.
(** Zeroing the first [n] bytes of an array of [n] limbs clears the low 8n bits only. *)
Lemma memzero_value n v : 0 <= v < 2 ^ (64 * Z.of_nat n) ->
  mem_value (memzero n (image n v)) = v - v mod 2 ^ (8 * Z.of_nat n).
Proof.
  intros H. unfold memzero. rewrite image_length. replace (Nat.min n (8 * n)) with n by lia.
  rewrite mem_value_app, mem_value_zeros, repeat_length. unfold image. rewrite skipn_map, seq_split by lia.
  rewrite mem_value_digits, pow8. cbn [Nat.add].
  assert (0 < 256 ^ Z.of_nat n) by (apply Z.pow_pos_nonneg; lia).
  rewrite Z.mod_small.
  - pose proof (Z.div_mod v (256 ^ Z.of_nat n) ltac:(lia)). lia.
  - split; [apply Z.div_pos; lia|]. apply Z.div_lt_upper_bound; [lia|].
    rewrite <- Z.pow_add_r by lia. rewrite <- Nat2Z.inj_add. replace (n + (8 * n - n))%nat with (8 * n)%nat by lia.
    rewrite <- pow8. replace (8 * Z.of_nat (8 * n)) with (64 * Z.of_nat n) by lia. lia.
Qed.
Lemma memzero_bytes n v i : (i < 8 * n)%nat ->
  nth i (memzero n (image n v)) 0 = if (i <? n)%nat then 0 else (v / 2 ^ (8 * Z.of_nat i)) mod 256.
Proof.
  intros H. unfold memzero. rewrite image_length. replace (Nat.min n (8 * n)) with n by lia.
  destruct (Nat.ltb_spec i n).
  - rewrite app_nth1 by (rewrite repeat_length; lia). apply nth_repeat.
  - rewrite app_nth2 by (rewrite repeat_length; lia). rewrite repeat_length. unfold image.
    rewrite skipn_map, seq_split by lia.
    set (f := fun j => (v / 2 ^ (8 * Z.of_nat j)) mod 256).
    rewrite (nth_indep (map f _) 0 (f 0%nat)) by (rewrite map_length, seq_length; lia).
    rewrite map_nth, seq_nth by lia. change ((v / 2 ^ (8 * Z.of_nat i)) mod 256) with (f i). f_equal. lia.
Qed.

(** ** Threads *)
Section Threads.
Context (v : Z) (Hv : to_hex_p v <> []).
Definition pc_ok (hex : bytes) (p : tpc) : Prop :=
  match p with
  | TDone r => r = to_hex_p v
  | TRead => hex = to_hex_p v
  | _ => True
  end.
Definition tinv (s : tstate) : Prop :=
  (th_hex s = [] \/ th_hex s = to_hex_p v) /\ forall i p, nth_error (th_pcs s) i = Some p -> pc_ok (th_hex s) p.

Lemma put_error {A} (l : list A) i x j y : nth_error (put l i x) j = Some y ->
  (i = j /\ y = x) \/ (i <> j /\ nth_error l j = Some y).
Proof.
  revert i j. induction l as [|z t IH]; intros [|i] [|j]; cbn; intros H; try discriminate H; auto.
  - left. injection H as <-. auto.
  - destruct (IH _ _ H) as [[-> ->]|[N E]]; [left; auto|right; split; [congruence|assumption]].
Qed.
Lemma tinv_init hex n : hex = [] \/ hex = to_hex_p v -> tinv (tinit hex n).
Proof.
  intros H. split; [exact H|]. cbn. intros i p E. apply nth_error_In, repeat_spec in E. subst p. exact I.
Qed.
Lemma tinv_step s i s' : tinv s -> tstep v s i = Some s' -> tinv s'.
Proof.
  intros [H P] E. unfold tstep in E. destruct (nth_error (th_pcs s) i) as [p|] eqn:EP; [|discriminate E].
  pose proof (P i p EP) as Pi. destruct p; try discriminate E; injection E as <-; split; cbn [th_hex th_pcs].
  - exact H.
  - intros j q J. apply put_error in J as [[-> ->]|[_ J]]; [|apply (P j q J)].
    destruct (th_hex s) eqn:EH; [exact I|]. destruct H as [H|H]; [discriminate H|exact H].
  - right. reflexivity.
  - intros j q J. apply put_error in J as [[-> ->]|[_ J]]; [reflexivity|].
    pose proof (P j q J) as Q. destruct q; cbn in *; auto.
  - exact H.
  - intros j q J. apply put_error in J as [[-> ->]|[_ J]]; [exact Pi|apply (P j q J)].
Qed.
Lemma tinv_runs sched : forall s s', tinv s -> truns v s sched = Some s' -> tinv s'.
Proof.
  induction sched as [|i t IH]; intros s s' I E; cbn in E; [injection E as <-; assumption|].
  destruct (tstep v s i) as [s1|] eqn:E1; [|discriminate E]. apply (IH s1 s'); [|assumption].
  apply (tinv_step s i); assumption.
Qed.
(** Once the text is there nobody writes it. *)
Definition tquiet (s : tstate) : Prop :=
  th_hex s <> [] /\ forall i p, nth_error (th_pcs s) i = Some p -> writes_text p = false.
Lemma tquiet_step s i s' : tquiet s -> tstep v s i = Some s' -> tquiet s' /\ th_hex s' = th_hex s.
Proof.
  intros [H P] E. unfold tstep in E. destruct (nth_error (th_pcs s) i) as [p|] eqn:EP; [|discriminate E].
  pose proof (P i p EP) as Pi. destruct p; try discriminate E; try discriminate Pi; injection E as <-; (split; [split|]); cbn [th_hex th_pcs]; auto.
  - intros j q J. apply put_error in J as [[-> ->]|[_ J]]; [|apply (P j q J)].
    destruct (th_hex s) eqn:EH; [contradiction|reflexivity].
  - intros j q J. apply put_error in J as [[-> ->]|[_ J]]; [reflexivity|apply (P j q J)].
Qed.
Lemma tquiet_runs sched : forall s s', tquiet s -> truns v s sched = Some s' -> tquiet s' /\ th_hex s' = th_hex s.
Proof.
  induction sched as [|i t IH]; intros s s' I E; cbn in E; [injection E as <-; auto|].
  destruct (tstep v s i) as [s1|] eqn:E1; [|discriminate E].
  destruct (tquiet_step s i s1 I E1) as [I1 E2]. destruct (IH s1 s' I1 E) as [I2 E3]. split; [assumption|congruence].
Qed.
End Threads.

Lemma hexp_text v : to_hex_p v <> [].
Proof. rewrite to_hex_p_eq. apply bytes_to_hex_nonempty. Qed.

(** ** Numbers held by reachable objects fit their arrays *)
Section Range.
Context (gp : params) (VP : valid_params gp).
Definition fits (s : estate) : Prop :=
  forall i o, obj_at s i = Some o -> 0 <= eo_data o < s_size (eo_kind o).
Lemma fits_init : fits einit.
Proof. intros i o H. rewrite obj_at_nth in H. destruct i; discriminate H. Qed.
Lemma fits_add s o : fits s -> 0 <= eo_data o < s_size (eo_kind o) -> fits (fst (add_obj s o)).
Proof.
  intros F H i p E. rewrite obj_at_nth in E. cbn [add_obj fst es_objs] in E. rewrite nth_snoc in E.
  destruct (i =? length (es_objs s))%nat; [injection E as <-; exact H|].
  apply (F i p). rewrite obj_at_nth. exact E.
Qed.
Lemma fits_put s i o c f : fits s -> (forall p, o = Some p -> 0 <= eo_data p < s_size (eo_kind p)) ->
  fits {| es_objs := put (es_objs s) i o; es_cache := c; es_freed := f |}.
Proof.
  intros F H j p E. rewrite obj_at_nth in E. cbn [es_objs] in E. rewrite put_nth in E.
  destruct (((i =? j) && (i <? length (es_objs s)))%nat); [apply H; exact E|].
  apply (F j p). rewrite obj_at_nth. exact E.
Qed.
Lemma fits_new s k v u f : fits s -> 0 <= v < s_size k -> fits (fst (add_result s (eobj_new gp k v u f))).
Proof.
  intros F H. rewrite new_ok by assumption. destruct (u || (v <=? s_modulus gp k)); [|exact F].
  apply fits_add; assumption.
Qed.
Lemma tohex_data o : eo_data (snd (eobj_tohex o)) = eo_data o /\ eo_kind (snd (eobj_tohex o)) = eo_kind o.
Proof. unfold eobj_tohex. destruct (eo_kind o) eqn:K; [destruct (eo_hex o)|]; cbn; auto. Qed.
Lemma pow_range c o e : 0 <= e < W256 -> let '(r, o', c') := eobj_pow gp c o e in
  0 <= r < s_size KP /\ eo_data o' = eo_data o /\ eo_kind o' = eo_kind o.
Proof.
  intros He. pose proof (P_pos gp VP). pose proof (vp_Phi _ VP). unfold eobj_pow.
  destruct (Z.eqb_spec e 0); [rewrite size_p; repeat split; lia|].
  destruct (eo_fixed o).
  - destruct (tohex_data o) as [D K]. destruct (eobj_tohex o) as [t o']. cbn [snd] in D, K.
    destruct (cache_get gp c t (eo_data o)) as [tb c']. split; [|auto].
    Local Transparent table_pow. unfold table_pow, from_mont. Local Opaque table_pow.
    match goal with |- 0 <= ?x mod _ < _ => pose proof (Z.mod_pos_bound x (gpP gp) ltac:(lia)) end. rewrite size_p. lia.
  - split; [|auto]. rewrite size_p.
    rewrite pow_mod_p_p_correct by (try exact VP; pose proof W256_lt_W512; lia).
    match goal with |- 0 <= ?x mod _ < _ => pose proof (Z.mod_pos_bound x (gpP gp) ltac:(lia)) end. lia.
Qed.
Lemma fits_step s op : fits s -> op_typed op = true -> fits (fst (estep gp s op)).
Proof.
  intros F T. destruct op as [k v u f|i|i|i j|i|i b|i|i l w|i j|i j|i j|i]; cbn [estep].
  - cbn [op_typed] in T. apply andb_prop in T as [T1 T2]. apply Z.leb_le in T1. apply Z.ltb_lt in T2.
    apply fits_new; auto.
  - destruct (obj_at s i) as [o|] eqn:E; [|exact F]. apply fits_add; [exact F|apply (F i o E)].
  - destruct (obj_at s i) as [o|] eqn:E; [|exact F]. unfold eobj_clone. pose proof (F i o E) as R.
    destruct (eo_kind o); apply fits_new; auto.
  - destruct (obj_at s i) as [o|] eqn:E; [|exact F]. destruct (obj_at s j) as [p|] eqn:E'; [|exact F].
    destruct (same_kind o p); [|exact F]. cbn [fst].
    apply (fits_put s i (Some (eobj_copy p)) (es_cache s)); [exact F|].
    intros q Q. injection Q as <-. apply (F j p E').
  - destruct (obj_at s i) as [o|] eqn:E; [|exact F]. destruct (tohex_data o) as [D K].
    destruct (eobj_tohex o) as [t o']. cbn [fst snd] in *. apply fits_put; [exact F|].
    intros q Q. injection Q as <-. rewrite D, K. apply (F i o E).
  - destruct (obj_at s i) as [o|] eqn:E; [|exact F]. destruct (eo_kind o) eqn:K; [|exact F]. cbn [fst].
    apply fits_put; [exact F|]. intros q Q. injection Q as <-. apply (F i o E).
  - destruct (obj_at s i) as [o|] eqn:E; [|exact F]. destruct (eo_kind o) eqn:K; exact F.
  - destruct (obj_at s i) as [o|] eqn:E; [|exact F].
    destruct (Nat.ltb_spec l (limb_count (eo_kind o))); [|exact F]. cbn [fst].
    apply fits_put; [exact F|]. intros q Q. injection Q as <-. cbn [eobj_write eo_kind eo_data].
    cbn [op_typed] in T. apply andb_prop in T as [T1 T2]. apply Z.leb_le in T1. apply Z.ltb_lt in T2.
    pose proof (F i o E) as R. rewrite s_size_eq in *. rewrite put_limb_eq. apply s_limb_range; auto.
  - destruct (obj_at s i) as [o|]; [|exact F]. destruct (obj_at s j) as [p|]; [|exact F].
    destruct (same_kind o p); exact F.
  - destruct (obj_at s i) as [o|]; [|exact F]. destruct (obj_at s j) as [p|]; [|exact F].
    destruct (same_kind o p); exact F.
  - destruct (obj_at s i) as [o|] eqn:E; [|exact F]. destruct (obj_at s j) as [p|] eqn:E'; [|exact F].
    destruct (eo_kind o) eqn:K; [|exact F]. destruct (eo_kind p) eqn:K'; [exact F|].
    pose proof (F j p E') as R. rewrite K', size_q in R.
    pose proof (pow_range (es_cache s) o (eo_data p) R) as PR.
    destruct (eobj_pow gp (es_cache s) o (eo_data p)) as [[r o'] c']. destruct PR as (P1 & P2 & P3).
    apply fits_new; [|exact P1]. apply fits_put; [exact F|]. intros q Q. injection Q as <-.
    rewrite P2, P3. apply (F i o E).
  - destruct (obj_at s i) as [o|] eqn:E; [|exact F]. cbn [fst].
    apply (fits_put s i None (es_cache s)); [exact F|]. intros q Q. discriminate Q.
Qed.
Lemma fits_runs ops : forall s, fits s -> forallb op_typed ops = true -> fits (fst (eruns gp s ops)).
Proof.
  induction ops as [|op t IH]; intros s F T; [exact F|]. cbn [forallb] in T. apply andb_prop in T as [T1 T2].
  cbn [eruns]. pose proof (fits_step s op F T1) as F1. destruct (estep gp s op) as [s1 r]. cbn [fst] in F1.
  pose proof (IH s1 F1 T2) as F2. destruct (eruns gp s1 t) as [s2 rs]. exact F2.
Qed.

(** A stale text stores the table of the new number under the old one's name. *)
Lemma poisoned x y :
  let '(t, c) := cache_get gp [] (to_hex_p x) y in
  fst (cache_get gp c (to_hex_p x) x) = gen_table (gpP gp) y.
Proof.
  unfold cache_get. cbn [cache_find]. rewrite HashedProofs.bytes_eqb_refl. reflexivity.
Qed.
End Range.
