(** C43 (selector choice) and C53 (idle timeouts): theorems *)
From Verif Require Import SelMgrModel.
From stdpp Require Import prelude.
From Coq Require Import ZArith Lia.
Local Open Scope Z_scope.

(** ** the number of selectors *)
Lemma pow2_cases size : exists k, 0 <= k <= 6 /\ kgl_pow2 size 7 = 2 ^ k /\ (1 <= size -> 2 ^ k <= size) /\ (size < 1 -> k = 0) /\ (size < 2 ^ (k + 1) \/ k = 6).
Proof.
  unfold kgl_pow2. cbn [pow2_loop].
  change (Z.shiftl 1 0) with 1. change (Z.shiftl 1 (0 + 1)) with 2. change (Z.shiftl 1 (0 + 1 + 1)) with 4. change (Z.shiftl 1 (0 + 1 + 1 + 1)) with 8.
  change (Z.shiftl 1 (0 + 1 + 1 + 1 + 1)) with 16. change (Z.shiftl 1 (0 + 1 + 1 + 1 + 1 + 1)) with 32. change (Z.shiftl 1 (0 + 1 + 1 + 1 + 1 + 1 + 1)) with 64.
  change (1 ÷ 2) with 0. change (2 ÷ 2) with 1. change (4 ÷ 2) with 2. change (8 ÷ 2) with 4. change (16 ÷ 2) with 8. change (32 ÷ 2) with 16. change (64 ÷ 2) with 32.
  destruct (decide (size < 2)); [exists 0|destruct (decide (size < 4)); [exists 1|destruct (decide (size < 8)); [exists 2|destruct (decide (size < 16)); [exists 3|destruct (decide (size < 32)); [exists 4|destruct (decide (size < 64)); [exists 5|exists 6]]]]]];
  repeat case_decide; subst; cbn; split_and!; try lia; try (by left); try (by right); left; lia.
Qed.
(** the number of selectors is the largest power of two in 1..64 that is not above the request (1 for a request below 1) *)
Theorem C43_pow2 : forall size, exists k, 0 <= k <= 6 /\ kgl_pow2 size 7 = 2 ^ k /\
  (forall j, 0 <= j <= 6 -> 2 ^ j <= size -> j <= k) /\ (1 <= size -> 2 ^ k <= size) /\ (size < 1 -> k = 0).
Proof.
  intros size. destruct (pow2_cases size) as (k & H1 & H2 & H3 & H4 & H5). exists k. split_and!; try done; try lia.
  intros j Hj Hs. destruct H5 as [H5|H5]; [|lia]. destruct (decide (j <= k)) as [|Hn]; [done|]. exfalso.
  assert (2 ^ (k + 1) <= 2 ^ j) by (apply Z.pow_le_mono_r; lia). lia.
Qed.

(** ** what holds in every state of the manager *)
Definition wf (m : mgr) : Prop :=
  exists k, 0 <= k <= 6 /\ count m = 2 ^ k /\ hash m = 2 ^ k - 1 /\ Z.of_nat (length (sels m)) = 2 ^ k /\ 0 <= index m < 2 ^ 32.
Lemma pow64 k : 0 <= k <= 6 -> 1 <= 2 ^ k <= 64.
Proof. intros H. split; [assert (0 < 2 ^ k) by (apply Z.pow_pos_nonneg; lia); lia|]. change 64 with (2 ^ 6). apply Z.pow_le_mono_r; lia. Qed.
Lemma u32_range z : 0 <= u32 z < 2 ^ 32. Proof. apply Z.mod_pos_bound. lia. Qed.
Lemma u32_small z : 0 <= z < 2 ^ 32 -> u32 z = z. Proof. apply Z.mod_small. Qed.
Lemma i32_small z : - 2 ^ 31 <= z < 2 ^ 31 -> i32 z = z. Proof. intros. unfold i32. rewrite Z.mod_small; lia. Qed.
Lemma wf_init size : wf (mgr_init size).
Proof.
  unfold mgr_init. destruct (pow2_cases size) as (k & H1 & H2 & H3 & H4 & H5). rewrite H2. pose proof (pow64 k H1). exists k. unfold set_timeout. cbn [count hash sels index].
  rewrite u32_small by lia. rewrite fmap_length, replicate_length. split_and!; try done; lia.
Qed.
Lemma perfect_loop_range n h rd k i p ix : perfect_loop n h rd k i = Some (p, ix) -> 0 <= ix < 2 ^ 32.
Proof.
  revert k i. induction n as [|n IH]; intros k i; cbn [perfect_loop]; [done|]. case_decide; [|apply IH]. intros [= <- <-]. apply u32_range.
Qed.
Lemma wf_step m o m' : wf m -> mstep m o = Some m' -> wf m'.
Proof.
  intros (k & H1 & H2 & H3 & H4 & H5). destruct o as [c r|own n|rd]; cbn [mstep].
  - intros [= <-]. exists k. unfold set_timeout. cbn [count hash sels index]. rewrite fmap_length. done.
  - intros [= <-]. unfold grow. destruct (pow2_cases n) as (j & J1 & J2 & _). rewrite J2. pose proof (pow64 j J1).
    case_decide; [by exists k|]. destruct (_ || _); [by exists k|]. exists j. cbn [fst count hash sels index].
    rewrite u32_small by lia. rewrite app_length, replicate_length. split_and!; try done; lia.
  - unfold get_perfect. destruct (perfect_loop _ _ _ _ _) as [[p ix]|] eqn:E; [|done]. cbn. intros [= <-]. exists k. cbn [count hash sels index].
    apply perfect_loop_range in E. done.
Qed.
Lemma wf_run os : forall m m', wf m -> mrun m os = Some m' -> wf m'.
Proof.
  induction os as [|o os IH]; intros m m' H; cbn; [by intros [= <-]|]. destruct (mstep m o) eqn:E; [|done]. apply IH. by eapply wf_step.
Qed.

(** ** choice by index *)
Lemma land_mod i k : 0 <= k -> Z.land i (2 ^ k - 1) = i mod 2 ^ k.
Proof. intros Hk. replace (2 ^ k - 1) with (Z.ones k) by (rewrite Z.ones_equiv; lia). by apply Z.land_ones. Qed.
Lemma mod_mod_pow i k : 0 <= k <= 6 -> u32 i mod 2 ^ k = i mod 2 ^ k.
Proof. intros Hk. unfold u32. symmetry. apply Znumtheory.Zmod_div_mod; [apply Z.pow_pos_nonneg; lia|lia|]. exists (2 ^ (32 - k)). rewrite <- Z.pow_add_r by lia. f_equal. lia. Qed.
(** every int - also a negative one - selects an existing selector, namely index modulo the number of selectors *)
Theorem C43_by_index : forall size os m ix, mrun (mgr_init size) os = Some m ->
  by_index m ix = ix mod (count m) /\ exists s, sels m !! Z.to_nat (by_index m ix) = Some s.
Proof.
  intros size os m ix H. pose proof (wf_run _ _ _ (wf_init size) H) as (k & H1 & H2 & H3 & H4 & H5). pose proof (pow64 k H1).
  unfold by_index. rewrite H3, H2, land_mod, mod_mod_pow by lia. split; [done|]. pose proof (Z.mod_pos_bound ix (2 ^ k)).
  apply lookup_lt_is_Some_2. lia.
Qed.

(** ** the perfect selector *)
Definition nxt (n p : Z) : Z := (p + 1) mod n.
(** going round the ring of selectors some load is not above the next one by 64 or more *)
Lemma perfect_loop_some k h ld : 0 <= k <= 6 -> h = 2 ^ k - 1 -> (forall p, 0 <= p < 2 ^ k -> 0 <= ld p < 2 ^ 31 - 64) ->
  forall n c i, 0 <= i < 2 ^ 32 ->
    (exists j, (j < n)%nat /\ perfect_loop n h (λ _ p, ld p) c i = Some ((i + Z.of_nat j) mod 2 ^ k, u32 (i + Z.of_nat j + 1)) /\
       (ld ((i + Z.of_nat j) mod 2 ^ k) < ld ((i + Z.of_nat j + 1) mod 2 ^ k) + 64) /\
       forall j', (j' < j)%nat -> ld ((i + Z.of_nat j' + 1) mod 2 ^ k) + 64 <= ld ((i + Z.of_nat j') mod 2 ^ k)) \/
    (perfect_loop n h (λ _ p, ld p) c i = None /\ forall j', (j' < n)%nat -> ld ((i + Z.of_nat j' + 1) mod 2 ^ k) + 64 <= ld ((i + Z.of_nat j') mod 2 ^ k)).
Proof.
  intros Hk -> Hl. pose proof (pow64 k Hk). induction n as [|n IH]; intros c i Hi; cbn [perfect_loop]; [right; split; [done|lia]|].
  rewrite !land_mod by lia. rewrite mod_mod_pow by done.
  pose proof (Z.mod_pos_bound i (2 ^ k) ltac:(lia)). pose proof (Z.mod_pos_bound (i + 1) (2 ^ k) ltac:(lia)).
  pose proof (Hl (i mod 2 ^ k)). pose proof (Hl ((i + 1) mod 2 ^ k)). rewrite i32_small by lia.
  case_decide as Hd.
  - left. exists 0%nat. replace (i + Z.of_nat 0) with i by lia. split_and!; try done; lia.
  - assert (Em : forall z, (u32 (i + 1) + z) mod 2 ^ k = (i + 1 + z) mod 2 ^ k).
    { intros z. rewrite Z.add_mod, mod_mod_pow, <- Z.add_mod by lia. done. }
    assert (Eu : forall z, u32 (u32 (i + 1) + z) = u32 (i + 1 + z)) by (intros z; unfold u32; rewrite Zplus_mod_idemp_l; done).
    destruct (IH (S (S c)) (u32 (i + 1)) (u32_range _)) as [(j & J1 & J2 & J3 & J4)|(J2 & J4)]; [left; exists (S j)|right]; rewrite J2.
    + rewrite <- !Z.add_assoc in *. rewrite !Em in *. rewrite Eu. replace (Z.of_nat (S j)) with (1 + Z.of_nat j) by lia.
      replace (i + 1 + (Z.of_nat j + 1)) with (i + (1 + Z.of_nat j + 1)) in * by lia. rewrite <- !Z.add_assoc in *.
      split_and!; try done; try lia. intros [|j'] Hj'; [replace (i + Z.of_nat 0) with i by lia; lia|]. specialize (J4 j' ltac:(lia)). rewrite <- !Z.add_assoc, !Em in J4.
      replace (i + Z.of_nat (S j') + 1) with (i + 1 + (Z.of_nat j' + 1)) by lia. replace (i + Z.of_nat (S j')) with (i + 1 + Z.of_nat j') by lia. lia.
    + split; [done|]. intros [|j'] Hj'; [replace (i + Z.of_nat 0) with i by lia; lia|]. specialize (J4 j' ltac:(lia)). rewrite <- !Z.add_assoc, !Em in J4.
      replace (i + Z.of_nat (S j') + 1) with (i + 1 + (Z.of_nat j' + 1)) by lia. replace (i + Z.of_nat (S j')) with (i + 1 + Z.of_nat j') by lia. lia.
Qed.
(** with loads that do not change during the call the assertion is never reached; the selector returned is the first
    one, counting from the rotating index, whose load is below the load of its successor + 64 *)
Theorem C43_perfect : forall size os m ld, mrun (mgr_init size) os = Some m -> (forall p, 0 <= p < count m -> 0 <= ld p < 2 ^ 31 - 64) ->
  exists p m', get_perfect m (λ _ q, ld q) = Some (p, m') /\ 0 <= p < count m /\ ld p < ld (nxt (count m) p) + 64 /\
    sels m' = sels m /\ count m' = count m /\ by_index m' (index m') = nxt (count m) p /\
    (ld (index m mod count m) < ld (nxt (count m) (index m mod count m)) + 64 -> p = index m mod count m).
Proof.
  intros size os m ld H Hl. pose proof (wf_run _ _ _ (wf_init size) H) as (k & H1 & H2 & H3 & H4 & H5). pose proof (pow64 k H1). rewrite H2 in *.
  destruct (perfect_loop_some k (hash m) ld H1 H3 Hl (Z.to_nat (2 ^ k)) 0 (index m) H5) as [(j & J1 & J2 & J3 & J4)|(J2 & J4)].
  - unfold get_perfect. rewrite H2, J2. eexists _, _. split; [done|]. cbn [sels count index hash by_index]. unfold by_index, nxt. cbn [hash].
    pose proof (Z.mod_pos_bound (index m + Z.of_nat j) (2 ^ k)). rewrite !Zplus_mod_idemp_l. rewrite H3, land_mod, !mod_mod_pow by lia.
    split_and!; try done; try lia. intros Hb. destruct j as [|j]; [by rewrite Z.add_0_r|]. specialize (J4 0%nat ltac:(lia)). rewrite Z.add_0_r in J4. lia.
  - exfalso.
    assert (G : forall j, (j <= Z.to_nat (2 ^ k))%nat -> ld ((index m + Z.of_nat j) mod 2 ^ k) + 64 * Z.of_nat j <= ld (index m mod 2 ^ k)).
    { induction j as [|j IHj]; intros Hj; [change (Z.of_nat 0) with 0; rewrite Z.mul_0_r, !Z.add_0_r; done|]. specialize (IHj ltac:(lia)). specialize (J4 j ltac:(lia)).
      replace (index m + Z.of_nat (S j)) with (index m + Z.of_nat j + 1) by lia. lia. }
    specialize (G (Z.to_nat (2 ^ k)) ltac:(lia)). rewrite Z2Nat.id in G by lia. replace (index m + 2 ^ k) with (index m + 1 * 2 ^ k) in G by lia.
    rewrite Z_mod_plus in G by lia. lia.
Qed.
(** so with balanced loads the manager is a round robin: successive calls return successive selectors, also when the
    32-bit rotating index wraps *)
Theorem C43_round_robin : forall size os m ld, mrun (mgr_init size) os = Some m -> (forall p, 0 <= p < count m -> 0 <= ld p < 2 ^ 31 - 64) ->
  (forall p q, 0 <= p < count m -> 0 <= q < count m -> ld p < ld q + 64) ->
  exists m1 m2, get_perfect m (λ _ q, ld q) = Some (index m mod count m, m1) /\ get_perfect m1 (λ _ q, ld q) = Some (nxt (count m) (index m mod count m), m2).
Proof.
  intros size os m ld H Hl Hb. pose proof (wf_run _ _ _ (wf_init size) H) as (k & H1 & H2 & H3 & H4 & H5). pose proof (pow64 k H1).
  destruct (C43_perfect size os m ld H Hl) as (p & m' & E1 & P1 & P2 & P3 & P4 & P5 & P6).
  assert (Hm : forall z, 0 <= z mod count m < count m) by (intros z; apply Z.mod_pos_bound; lia).
  rewrite P6 in E1, P5 by (apply Hb; apply Hm). clear P6 P1 P2.
  assert (H' : mrun (mgr_init size) (os ++ [MPerfect (λ _ q, ld q)]) = Some m').
  { clear -H E1. revert H. generalize (mgr_init size). induction os as [|o os IH]; intros m0; cbn; [intros [= ->]; by rewrite E1|]. destruct (mstep m0 o); [|done]. apply IH. }
  destruct (C43_perfect size _ m' ld H') as (p2 & m2 & E2 & _ & _ & _ & _ & _ & Q6); [by rewrite P4|]. rewrite P4 in Q6.
  pose proof (C43_by_index _ _ _ (index m') H') as [B _]. rewrite P4 in B. rewrite B in P5.
  exists m', m2. split; [done|]. rewrite E2. rewrite <- P5. do 2 f_equal. apply Q6. apply Hb; [apply Hm|]. unfold nxt. apply Hm.
Qed.
Example demo_perfect : exists m m2, mrun (mgr_init 5) [] = Some m /\ count m = 4 /\ get_perfect m (λ _ p, if decide (p = 0) then 100 else 10) = Some (1, m2).
Proof. eexists (Mgr (replicate 4 sel_new) 4 3 0), (Mgr (replicate 4 sel_new) 4 3 2). split_and!; vm_compute; reflexivity. Qed.
(** limit: the loads are written by other threads while the loop reads them.  For every number of selectors there are
    reads with which the loop falls through to the assertion *)
Theorem C43_race_refuted : forall size os m, mrun (mgr_init size) os = Some m -> exists rd, (forall c p, 0 <= rd c p <= 64) /\ get_perfect m rd = None.
Proof.
  intros size os m H. exists (λ c _, if Nat.even c then 64 else 0). split; [intros c p; destruct (Nat.even c); lia|].
  unfold get_perfect. assert (G : forall n h c i, Nat.even c = true -> perfect_loop n h (λ c _, if Nat.even c then 64 else 0) c i = None); [|by rewrite G].
  induction n as [|n IH]; intros h c i Hc; cbn [perfect_loop]; [done|]. rewrite Hc. rewrite Nat.even_succ, <- Nat.negb_even, Hc. cbn [negb].
  rewrite decide_False by (vm_compute; done). apply IH. cbn. done.
Qed.

(** ** C53: idle timeouts *)
(** what the two settings mean, in seconds: no connect timeout = the read/write timeout, no read/write timeout = 60 s *)
Definition rw_sec (rw : Z) : Z := if decide (rw <= 0) then 60 else rw.
Definition conn_sec (conn rw : Z) : Z := if decide (conn <= 0) then rw_sec rw else conn.
Definition no_timeout_op (o : mop) : Prop := match o with MTimeout _ _ => False | _ => True end.
Definition no_grow (o : mop) : Prop := match o with MGrow _ _ => False | _ => True end.
Lemma sels_keep os : forall m m', Forall no_timeout_op os -> Forall no_grow os -> mrun m os = Some m' -> sels m' = sels m.
Proof.
  induction os as [|o os IH]; intros m m' H1 H2; cbn [mrun]; [by intros [= <-]|]. apply Forall_cons in H1 as [G1 H1], H2 as [G2 H2].
  destruct (mstep m o) as [m1|] eqn:E; [|done]. intros H. rewrite (IH _ _ H1 H2 H). destruct o as [| |rd]; try done. cbn [mstep] in E. unfold get_perfect in E.
  destruct (perfect_loop _ _ _ _ _) as [[p ix]|]; [|done]. cbn in E. by injection E as <-.
Qed.
Lemma clamp_sec s : s <= 2147483 -> - 2147483 <= s -> clamp (i32 (s * 1000)) = rw_sec s * 1000.
Proof. intros H1 H2. rewrite i32_small by lia. unfold clamp, rw_sec. repeat case_decide; lia. Qed.
(** the last selector_manager_set_timeout is in force on every selector, as long as the manager does not grow *)
Theorem C53_set_timeout_partial : forall size os m c r os2 m2, mrun (mgr_init size) os = Some m ->
  -2147483 <= c <= 2147483 -> -2147483 <= r <= 2147483 -> Forall no_timeout_op os2 -> Forall no_grow os2 -> mrun (set_timeout m c r) os2 = Some m2 ->
  forall s, s ∈ sels m2 -> t_conn s = conn_sec c r * 1000 /\ t_rw s = rw_sec r * 1000.
Proof.
  intros size os m c r os2 m2 _ Hc Hr H1 H2 H s Hs. rewrite (sels_keep _ _ _ H1 H2 H) in Hs. unfold set_timeout in Hs. cbn [sels] in Hs.
  apply elem_of_list_fmap in Hs as (s0 & -> & _). cbn [t_conn t_rw]. rewrite (clamp_sec r) by lia. split; [|done]. rewrite clamp_sec by (destruct (decide (c <= 0)); lia). unfold conn_sec. case_decide; [done|].
  unfold rw_sec. rewrite decide_False by lia. done.
Qed.
(** the initial setting is 60 seconds for both *)
Theorem C53_default : forall size os m, Forall no_timeout_op os -> mrun (mgr_init size) os = Some m -> forall s, s ∈ sels m -> t_conn s = 60000 /\ t_rw s = 60000.
Proof.
  intros size os m Ho H s Hs. assert (G : forall os m0 m, Forall no_timeout_op os -> mrun m0 os = Some m -> Forall (λ s, t_conn s = 60000 /\ t_rw s = 60000) (sels m0) -> Forall (λ s, t_conn s = 60000 /\ t_rw s = 60000) (sels m)).
  { clear. induction os as [|o os IH]; intros m0 m Ho; cbn [mrun]; [by intros [= <-]|]. apply Forall_cons in Ho as [Go Ho]. destruct (mstep m0 o) as [m1|] eqn:E; [|done]. intros H F.
    apply (IH _ _ Ho H). destruct o as [|own n|rd]; [done| |]; cbn [mstep] in E.
    - injection E as <-. unfold grow. case_decide; [done|]. destruct (_ || _); [done|]. cbn [fst sels]. apply Forall_app. split; [done|]. by apply Forall_replicate.
    - unfold get_perfect in E. destruct (perfect_loop _ _ _ _ _) as [[p ix]|]; [|done]. cbn in E. by injection E as <-. }
  assert (F : Forall (λ s, t_conn s = 60000 /\ t_rw s = 60000) (sels m)); [|by apply (proj1 (Forall_forall _ _) F)]. eapply G; [done|done|]. unfold mgr_init, set_timeout. cbn [sels].
  apply Forall_forall. intros x Hx. apply elem_of_list_fmap in Hx as (s0 & -> & _). done.
Qed.
(** limit: selectors added by selector_manager_grow have the 60 s default, whatever was set before *)
Theorem C53_grow_refuted : forall c r, 1 <= c <= 2147483 -> 1 <= r <= 2147483 ->
  exists m, mrun (mgr_init 1) [MTimeout c r; MGrow true 4] = Some m /\ (t_rw <$> sels m) = [r * 1000; 60000; 60000; 60000].
Proof.
  intros c r Hc Hr. set (m1 := set_timeout (mgr_init 1) c r).
  assert (C1 : count m1 = 1) by (vm_compute; reflexivity).
  assert (S1 : t_rw <$> sels m1 = [r * 1000]).
  { transitivity [clamp (i32 (r * 1000))]; [reflexivity|]. rewrite clamp_sec by lia. unfold rw_sec. rewrite decide_False by lia. done. }
  exists (fst (grow m1 true 4)). split; [reflexivity|]. unfold grow. change (kgl_pow2 4 7) with 4. rewrite C1. change (bool_decide (1 > 1)) with false. rewrite decide_False by lia.
  cbn [fst orb negb sels]. rewrite fmap_app, S1. reflexivity.
Qed.
(** limit: seconds * 1000 is computed in int: 2147484 seconds (24.9 days) or more wrap and become 60 s or another value *)
Theorem C53_overflow_refuted : exists m, mrun (mgr_init 1) [MTimeout 2147484 2147484] = Some m /\ (t_rw <$> sels m) = [60000].
Proof. exists (Mgr [Sel 60000 60000] 1 0 0). split; vm_compute; reflexivity. Qed.
Example demo_timeout : exists m, mrun (mgr_init 3) [MTimeout 0 7] = Some m /\ sels m = [Sel 7000 7000; Sel 7000 7000].
Proof. exists (Mgr [Sel 7000 7000; Sel 7000 7000] 2 1 0). split; vm_compute; reflexivity. Qed.

(** growing never loses a selector: the array is only extended, and only from one selector, by the thread of selector 0; then
    the number is the largest power of two (at most 64) not above the requested one *)
Theorem C43_grow : forall size os m own n m' b, mrun (mgr_init size) os = Some m -> grow m own n = (m', b) ->
  sels m `prefix_of` sels m' /\ Z.of_nat (length (sels m')) = count m' /\ count m <= count m' /\
  (b = false -> m' = m) /\
  (b = true <-> own = true /\ count m = 1 /\ 2 <= n) /\
  (b = true -> exists k, 0 <= k <= 6 /\ count m' = 2 ^ k /\ 2 ^ k <= n /\ forall j, 0 <= j <= 6 -> 2 ^ j <= n -> j <= k).
Proof.
  intros size os m own n m' b H Hg. pose proof (wf_run _ _ _ (wf_init size) H) as (k & H1 & H2 & H3 & H4 & H5). pose proof (pow64 k H1).
  destruct (C43_pow2 n) as (j & J1 & J2 & J3 & J4 & J5). unfold grow in Hg. rewrite J2 in Hg.
  assert (Hk : count m = 1 <-> k = 0). { rewrite H2. split; [|intros ->; done]. intros E. destruct (decide (k = 0)); [done|]. assert (2 ^ 1 <= 2 ^ k) by (apply Z.pow_le_mono_r; lia). lia. }
  assert (Hj : 2 <= n <-> 1 < 2 ^ j).
  { split; intros E.
    - specialize (J3 1 ltac:(lia) ltac:(lia)). assert (2 ^ 1 <= 2 ^ j) by (apply Z.pow_le_mono_r; lia). lia.
    - destruct (decide (1 <= n)); [specialize (J4 ltac:(lia))|rewrite J5 in E by lia; done]. destruct (decide (j = 0)) as [->|]; [done|]. assert (2 ^ 1 <= 2 ^ j) by (apply Z.pow_le_mono_r; lia). lia. }
  destruct (decide (2 ^ j <= count m)) as [Hd|Hd].
  { injection Hg as <- <-. split_and!; try done; try lia. }
  destruct (bool_decide (count m > 1) || negb own) eqn:Eo.
  { injection Hg as <- <-. split_and!; try done; try lia. split; [done|]. intros (-> & E & E2). rewrite orb_false_r in Eo. apply bool_decide_eq_true_1 in Eo. lia. }
  apply orb_false_iff in Eo as [Eo1 Eo2]. apply bool_decide_eq_false_1 in Eo1. apply negb_false_iff in Eo2 as ->.
  injection Hg as <- <-. cbn [sels count]. split; [by eexists|]. split; [|split; [lia|split; [done|split]]].
  - rewrite app_length, replicate_length. lia.
  - split; [|done]. intros _. split_and!; [done|lia|]. apply Hj. lia.
  - intros _. exists j. split_and!; try done; try lia.
Qed.
Example demo_grow : exists m, mrun (mgr_init 1) [MGrow true 5] = Some m /\ count m = 4.
Proof. eexists. split; [reflexivity|]. reflexivity. Qed.
