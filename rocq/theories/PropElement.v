(** C76 - C78: group elements as objects. *)
From Coq Require Import String.
From Verif Require Import Base GroupModel GroupSpec GroupProofs CodecModel CodecProofs LookupModel LookupProofs
  HashSpec HashSpecProofs ElementModel ElementSpec ElementProofs TestParams.
From Verif Require Algebra SoundProofs HashedProofs.
Local Open Scope string_scope.
Local Open Scope list_scope.
Local Open Scope Z_scope.
Local Opaque to_hex_p to_hex_q W4096 W256 gen_table table_pow sp_hex.

(** * C76: elements are values *)
(** Whatever is done to whatever elements in whatever order, every answer is the one plain numbers
    would give.  Missing: histories that store into an ElementModP through get() after its text was
    asked for, and clone() of an exponent above Q; both fail below. *)
Local Notation length := List.length.
Theorem C76_elements_are_values_partial gp ops :
  valid_params gp -> disciplined gp ops = true -> eresults gp ops = s_results gp ops.
Proof. intros V D. exact (runs_ok gp V ops einit [] [] (sim_init gp) D). Qed.

Definition busy : list eop :=
  [ENew KP 3 false true; ENew KQ 5 false false; EWrite 0 1 1; EPow 0 1; EToHex 0; ECopy 0; EWrite 3 0 9;
   EAssign 0 3; EWrite 0 0 4; ELess 0 3; EToHex 0; EToHex 3; EClone 0; EEqual 4 0; EDestroy 0; EToHex 0; EIsFixed 4].
Example C76_case : disciplined test_params busy = true
  /\ s_results test_params busy
     = [RHandle 0; RHandle 1; RVoid; RHandle 2; RText (s2b "010000000000000003"); RHandle 3; RVoid;
        RVoid; RVoid; RBool true; RText (s2b "010000000000000004"); RText (s2b "010000000000000009"); RHandle 4;
        RBool true; RVoid; RMisuse; RBool true].
Proof. split; vm_compute; reflexivity. Qed.

(** The text survives a store into the element. *)
Theorem C76_stale_text_refuted :
  exists ops, forallb op_typed ops = true /\ eresults test_params ops <> s_results test_params ops.
Proof.
  exists [ENew KP 5 false false; EToHex 0; EWrite 0 0 7; EToHex 0; ENew KP 7 false false; EEqual 0 1; EToHex 1].
  split; [vm_compute; reflexivity|]. vm_compute. discriminate.
Qed.
(** Two elements that compare equal and spell different numbers. *)
Theorem C76_equal_elements_same_text_refuted :
  exists ops i j a b, forallb op_typed ops = true
    /\ snd (eruns test_params (fst (eruns test_params einit ops)) [EEqual i j; EToHex i; EToHex j])
       = [RBool true; RText a; RText b] /\ a <> b.
Proof.
  exists [ENew KP 5 false false; EToHex 0; EWrite 0 0 7; ENew KP 7 false false], 0%nat, 1%nat, (s2b "05"), (s2b "07").
  split; [vm_compute; reflexivity|]. split; [vm_compute; reflexivity|]. vm_compute. discriminate.
Qed.
Lemma eruns_step gp s op t s1 r : estep gp s op = (s1, r) ->
  eruns gp s (op :: t) = (fst (eruns gp s1 t), r :: snd (eruns gp s1 t)).
Proof. intros H. cbn [eruns]. rewrite H. destruct (eruns gp s1 t). reflexivity. Qed.
(** The stale text is also the name under which tables of powers are kept: after a store into one
    fixed base, every later element holding the old number is raised to powers of the new one. *)
Theorem C76_poisoned_powers gp x l w e :
  valid_params gp -> 0 <= x <= gpP gp -> (l < 64)%nat -> 0 <= w < 2 ^ 64 -> 0 < e <= gpQ gp ->
  skipn 5 (eresults gp [ENew KP x false true; EToHex 0; EWrite 0 l w; ENew KQ e false false; EPow 0 1;
                        ENew KP x false true; EPow 3 1; EToHex 4])
  = [RHandle 3; RHandle 4; RText (sp_hex 512 ((s_limb x l w ^ e) mod gpP gp))].
Proof.
  intros V Hx Hl Hw He. pose proof (P_pos gp V). pose proof (vp_Phi _ V). pose proof (vp_Qhi _ V).
  assert (Rx : 0 <= x < s_size KP) by (rewrite size_p; lia).
  assert (Re : 0 <= e < s_size KQ) by (rewrite size_q; lia).
  assert (Px : (x <=? gpP gp) = true) by (apply Z.leb_le; lia).
  assert (Pe : (e <=? gpQ gp) = true) by (apply Z.leb_le; lia).
  assert (Ne : (e =? 0) = false) by (apply Z.eqb_neq; lia).
  assert (Ll : (l <? 64)%nat = true) by (apply Nat.ltb_lt; exact Hl).
  set (y := s_limb x l w).
  assert (TP : forall b, table_pow (gpP gp) (gen_table (gpP gp) b) e = (b ^ e) mod gpP gp)
    by (intros b; apply table_pow_correct; [lia|apply (vp_Podd _ V)|lia]).
  assert (Rp : forall b, 0 <= (b ^ e) mod gpP gp < s_size KP)
    by (intros b; rewrite size_p; pose proof (Z.mod_pos_bound (b ^ e) (gpP gp) ltac:(lia)); lia).
  unfold eresults.
  erewrite eruns_step by (cbn [estep]; rewrite (new_ok gp KP x false true Rx); cbn [orb s_modulus]; rewrite Px; reflexivity).
  erewrite eruns_step by reflexivity. unfold set_obj, einit. cbn [es_objs es_cache es_freed app put eo_data eo_fixed].
  erewrite eruns_step by (cbn [estep set_obj put obj_at es_objs es_cache es_freed nth_error eo_kind eo_fixed limb_count]; rewrite Ll; reflexivity).
  unfold set_obj, eobj_write. cbn [es_objs es_cache es_freed put eo_kind eo_data eo_fixed eo_hex]. rewrite put_limb_eq. fold y.
  erewrite eruns_step by (cbn [estep]; rewrite (new_ok gp KQ e false false Re); cbn [orb s_modulus]; rewrite Pe; reflexivity).
  cbn [es_objs es_cache es_freed app].
  erewrite eruns_step.
  2:{ cbn [estep set_obj put obj_at es_objs es_freed nth_error eo_kind eo_data eo_fixed eo_hex es_cache app]. unfold eobj_pow. rewrite Ne. cbn [eo_fixed eobj_tohex eo_kind eo_hex].
      destruct (to_hex_p x) as [|c0 t0] eqn:EX; [exfalso; exact (hexp_text x EX)|]. rewrite <- EX.
      unfold cache_get. cbn [cache_find eo_data]. rewrite TP, (new_ok gp KP _ true false (Rp y)). reflexivity. }
  cbn [es_objs es_cache es_freed app put].
  erewrite eruns_step by (cbn [estep]; rewrite (new_ok gp KP x false true Rx); cbn [orb s_modulus]; rewrite Px; reflexivity).
  cbn [es_objs es_cache es_freed app].
  erewrite eruns_step.
  2:{ cbn [estep set_obj put obj_at es_objs es_freed nth_error eo_kind eo_data eo_fixed eo_hex es_cache app]. unfold eobj_pow. rewrite Ne. cbn [eo_fixed eobj_tohex eo_kind eo_hex eo_data].
      unfold cache_get. cbn [cache_find]. rewrite HashedProofs.bytes_eqb_refl.
      rewrite TP, (new_ok gp KP _ true false (Rp y)). reflexivity. }
  cbn [es_objs es_cache es_freed app put].
  erewrite eruns_step by reflexivity. cbn [eruns snd skipn]. rewrite (sp_hex_p ((y ^ e) mod gpP gp)) by exact (Rp y). reflexivity.
Qed.
Theorem C76_powers_refuted :
  exists ops, forallb op_typed ops = true
    /\ (exists x e, nth 5 ops (EDestroy 0) = ENew KP x false true /\ nth 3 ops (EDestroy 0) = ENew KQ e false false
        /\ nth 6 ops (EDestroy 0) = EPow 3 1
        /\ nth 7 (eresults test_params ops) RVoid <> RText (sp_hex 512 ((x ^ e) mod gpP test_params))).
Proof.
  exists [ENew KP 3 false true; EToHex 0; EWrite 0 0 5; ENew KQ 2 false false; EPow 0 1;
          ENew KP 3 false true; EPow 3 1; EToHex 4].
  split; [vm_compute; reflexivity|]. exists 3, 2. split; [reflexivity|]. split; [reflexivity|]. split; [reflexivity|].
  pose proof (C76_poisoned_powers test_params 3 0 5 2 test_params_valid) as H.
  assert (E : forall l : list eres, nth 7 l RVoid = nth 2 (skipn 5 l) RVoid).
  { intros l. do 5 (destruct l; [reflexivity|]). reflexivity. }
  rewrite E. specialize (H ltac:(split; vm_compute; discriminate) ltac:(lia) ltac:(lia)
    ltac:(split; [reflexivity|vm_compute; discriminate])).
  intros X. apply (f_equal (fun l => nth 2 l RVoid)) in H. cbv beta in H.
  pose proof (eq_trans (eq_sym X) H) as Y. clear X H E. revert Y. vm_compute. discriminate.
Qed.
(** clone() of an exponent that an unchecked constructor admitted. *)
Theorem C76_clone_refuted :
  exists ops, forallb op_typed ops = true /\ nth 1 (eresults test_params ops) RVoid = RThrow OutOfRange
    /\ nth 1 (s_results test_params ops) RVoid = RHandle 1.
Proof. exists [ENew KQ 65522 true false; EClone 0]. vm_compute. auto. Qed.

(** * C77: destroyed elements leave nothing behind *)
(** The destructors pass a number of limbs where a number of bytes is expected. *)
Theorem C77_erased_refuted :
  exists ops, forallb op_typed ops = true
    /\ exists f, In f (es_freed (fst (eruns test_params einit ops))) /\ ~ erased f.
Proof.
  exists [ENew KQ (2 ^ 40) true false; EDestroy 0]. split; [vm_compute; reflexivity|].
  eexists. split; [left; reflexivity|]. intros [H _].
  assert (X : 1 = 0); [|discriminate X]. apply H. vm_compute. tauto.
Qed.
(** Exactly what stays, after every history: an element releases its number with the low 32 bits
    (exponents) or 512 bits (group elements) cleared, and its text, if it was ever asked for, in full. *)
Theorem C77_left_behind_partial gp ops i o :
  valid_params gp -> forallb op_typed ops = true ->
  let s := fst (eruns gp einit ops) in
  obj_at s i = Some o ->
  exists f, es_freed (fst (estep gp s (EDestroy i))) = es_freed s ++ [f]
    /\ length (fr_data f) = s_bytes (eo_kind o)
    /\ mem_value (fr_data f) = eo_data o - eo_data o mod 2 ^ (match eo_kind o with KP => 512 | KQ => 32 end)
    /\ fr_hex f = eo_hex o.
Proof.
  intros V T s H. pose proof (fits_runs gp V ops einit fits_init T i o H) as R.
  cbn [estep]. rewrite H. cbn [fst release es_freed set_obj]. exists (eobj_release o).
  split; [reflexivity|]. unfold eobj_release. cbn [fr_data fr_hex]. split; [|split; [|reflexivity]].
  - unfold memzero. rewrite app_length, repeat_length, skipn_length, image_length. destruct (eo_kind o); reflexivity.
  - rewrite s_size_eq in R. rewrite memzero_value by exact R. destruct (eo_kind o); reflexivity.
Qed.
Example C77_case :
  map fr_data (es_freed (fst (eruns test_params einit [ENew KQ (2 ^ 200 + 77) true false; EDestroy 0])))
  = [repeat 0 25 ++ 1 :: repeat 0 6].
Proof. vm_compute. reflexivity. Qed.
(** A group element whose text was taken leaves all of it. *)
Theorem C77_text_stays gp v : valid_params gp -> 0 <= v <= gpP gp ->
  exists f, es_freed (fst (eruns gp einit [ENew KP v false false; EToHex 0; EDestroy 0])) = [f]
    /\ fr_hex f = sp_hex 512 v.
Proof.
  intros V H. pose proof (vp_Phi _ V).
  assert (Rx : 0 <= v < s_size KP) by (rewrite size_p; lia).
  assert (Px : (v <=? gpP gp) = true) by (apply Z.leb_le; lia).
  cbn [eruns estep]. rewrite (new_ok gp KP v false false Rx). cbn [orb s_modulus]. rewrite Px.
  cbn [add_result add_obj einit es_objs es_cache es_freed app length estep obj_at nth_error eobj_tohex eo_kind eo_hex eo_data eo_fixed set_obj put].
  eexists. split; [reflexivity|]. cbn [eobj_release fr_hex eo_hex]. symmetry. apply sp_hex_p. exact Rx.
Qed.
(** The secret key of a destroyed key can be found from what is left and the public key by trying
    2^32 continuations: exactly one of them fits, and it is the right one. *)
Theorem C77_secret_recoverable gp s :
  prime_params gp -> 0 <= s < gpQ gp ->
  exists f, es_freed (fst (eruns gp einit [ENew KQ s false false; EDestroy 0])) = [f]
    /\ exists d, 0 <= d < 2 ^ 32 /\ mem_value (fr_data f) + d = s
    /\ forall d', 0 <= d' < 2 ^ 32 -> mem_value (fr_data f) + d' < gpQ gp ->
         (gpG gp ^ (mem_value (fr_data f) + d')) mod gpP gp = (gpG gp ^ s) mod gpP gp -> d' = d.
Proof.
  intros PP H. pose proof (pp_valid _ PP) as V. pose proof (vp_Qhi _ V).
  assert (Rs : 0 <= s < s_size KQ) by (rewrite size_q; lia).
  assert (Ps : (s <=? gpQ gp) = true) by (apply Z.leb_le; lia).
  cbn [eruns estep]. rewrite (new_ok gp KQ s false false Rs). cbn [orb s_modulus]. rewrite Ps.
  cbn [add_result add_obj einit es_objs es_cache es_freed app length estep obj_at nth_error release set_obj put fst].
  eexists. split; [reflexivity|]. unfold eobj_release. cbn [fr_data eo_kind eo_data].
  rewrite s_size_eq in Rs. rewrite memzero_value by exact Rs.
  change (8 * Z.of_nat (limb_count KQ)) with 32.
  pose proof (Z.mod_pos_bound s (2 ^ 32) ltac:(lia)) as M.
  pose proof (Z.mod_le s (2 ^ 32) ltac:(lia) ltac:(lia)) as L.
  exists (s mod 2 ^ 32). split; [exact M|]. split; [lia|].
  intros d' Hd Hq E. rewrite <- !(Algebra.ex_nonneg gp V) in E by (try (apply Algebra.sub_G; exact V); lia).
  apply (SoundProofs.ex_G_inj gp PP) in E. set (m := s mod 2 ^ 32) in *.
  rewrite (Z.mod_small (s - m + d')), (Z.mod_small s) in E by lia. lia.
Qed.
Example C77_key_case :
  map (fun f => mem_value (fr_data f)) (es_freed (fst (eruns test_params einit [ENew KQ 65520 false false; EDestroy 0]))) = [0]
  /\ (gpG test_params ^ 3) mod gpP test_params <> (gpG test_params ^ 4) mod gpP test_params.
Proof. split; vm_compute; [reflexivity|discriminate]. Qed.

(** * C78: one element read by several threads *)
(** Two threads that ask one ElementModP for its text for the first time write the cached text at
    the same time: the text of the generator and of the election key is asked for by every power. *)
Theorem C78_concurrent_reads_refuted :
  exists v sched s, truns v (tinit [] 2) sched = Some s /\ races s.
Proof.
  exists 5, [0%nat; 1%nat]. eexists. split; [vm_compute; reflexivity|].
  exists 0%nat, 1%nat, TFill, TFill. repeat split; discriminate.
Qed.
(** Missing above: an element whose text was taken before the threads start has no race, for any
    number of threads and any schedule, and keeps its text. *)
Theorem C78_text_taken_before_partial v n sched s :
  truns v (tinit (to_hex_p v) n) sched = Some s -> ~ races s /\ th_hex s = to_hex_p v.
Proof.
  intros H. destruct (tquiet_runs v sched (tinit (to_hex_p v) n) s) as [[Q1 Q2] E]; [|exact H|].
  - split; [apply hexp_text|]. cbn. intros i p X. apply nth_error_In, repeat_spec in X. subst p. reflexivity.
  - split; [|exact E]. intros (i & j & p & q & _ & Hp & _ & W & _). rewrite (Q2 i p Hp) in W. discriminate W.
Qed.
(** Were the accesses atomic, every thread would get the right text in every schedule. *)
Theorem C78_atomic_reads_agree v n sched s i r :
  truns v (tinit [] n) sched = Some s -> nth_error (th_pcs s) i = Some (TDone r) -> r = to_hex_p v.
Proof.
  intros H E. pose proof (tinv_runs v sched (tinit [] n) s (tinv_init v [] n (or_introl eq_refl)) H) as [_ P].
  exact (P i _ E).
Qed.
Example C78_case : exists s, truns 255 (tinit [] 3) [0; 1; 1; 2; 0; 0; 1; 2]%nat = Some s
  /\ nth_error (th_pcs s) 0 = Some (TDone (s2b "FF")) /\ nth_error (th_pcs s) 2 = Some (TDone (s2b "FF")).
Proof. eexists. split; [vm_compute; reflexivity|]. vm_compute. auto. Qed.

Print Assumptions C76_elements_are_values_partial.
Print Assumptions C76_stale_text_refuted.
Print Assumptions C76_equal_elements_same_text_refuted.
Print Assumptions C76_poisoned_powers.
Print Assumptions C76_powers_refuted.
Print Assumptions C76_clone_refuted.
Print Assumptions C77_erased_refuted.
Print Assumptions C77_left_behind_partial.
Print Assumptions C77_text_stays.
Print Assumptions C77_secret_recoverable.
Print Assumptions C78_concurrent_reads_refuted.
Print Assumptions C78_text_taken_before_partial.
Print Assumptions C78_atomic_reads_agree.
