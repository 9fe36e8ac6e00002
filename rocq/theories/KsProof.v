From Verif Require Import KbufSpec.
From Coq Require Import ZifyBool ZifyNat.
Section ksp.
Context {B : Type}.
Implicit Types (s : ks B) (q : list B).

Lemma align1024_eq d : align1024 d = ((d + 1023) / 1024 * 1024)%Z.
Proof.
  unfold align1024. change (Z.lnot 1023) with (Z.lnot (Z.ones 10)). rewrite <- Z.ldiff_land, Z.ldiff_ones_r by lia.
  rewrite Z.shiftl_mul_pow2, Z.shiftr_div_pow2 by lia. reflexivity.
Qed.
Lemma align1024_ge d : (d <= align1024 d)%Z.
Proof. rewrite align1024_eq. pose proof (Z.mul_div_le (d+1023) 1024 ltac:(lia)). pose proof (Z.mod_pos_bound (d+1023) 1024 ltac:(lia)).
  rewrite (Z.div_mod (d + 1023) 1024) at 1 by lia || idtac. pose proof (Z.div_mod (d+1023) 1024 ltac:(lia)). lia. Qed.

Definition KR s q : Prop :=
  sused s = length q /\ take (sused s) (smem s) = Some <$> q /\ ssize s = Z.of_nat (length (smem s)) /\ (1 <= ssize s)%Z
  /\ sused s <= length (smem s).

Lemma realloc_ok s q new : KR s q -> (ssize s <= new)%Z -> exists s', ks_realloc s new = Some s' /\ KR s' q /\ ssize s' = new /\ sused s' = sused s.
Proof.
  intros (H1 & H2 & H3 & H4 & H5) Hle. unfold ks_realloc. rewrite !bool_decide_eq_true_2 by lia. cbn.
  eexists. split; [reflexivity|]. split_and!; try done. split_and!; cbn; try done.
  - rewrite take_app_le by (rewrite take_length; lia). by rewrite take_take, Nat.min_id.
  - rewrite app_length, take_length, replicate_length. lia.
  - lia.
  - rewrite app_length, take_length, replicate_length. lia.
Qed.
Lemma store_ks_ok s q bs : KR s q -> sused s + length bs <= length (smem s) ->
  exists s', ks_store s (sused s) bs = Some s' /\ KR (mkks (smem s') (ssize s') (sused s' + length bs)) (q ++ bs).
Proof.
  intros (H1 & H2 & H3 & H4 & H5) Hle. unfold ks_store. rewrite !bool_decide_eq_true_2 by lia. cbn.
  eexists. split; [reflexivity|]. cbn. split_and!; cbn; try done.
  - rewrite app_length. lia.
  - rewrite H2, fmap_app, (assoc_L (++)), take_app_alt; [done|]. rewrite app_length, !fmap_length. lia.
  - rewrite !app_length, take_length, drop_length, fmap_length. lia.
  - rewrite !app_length, take_length, drop_length, fmap_length. lia.
Qed.
Lemma guarantee_ok s q n : KR s q -> exists s', ks_guarantee s n = Some s' /\ KR s' q /\ sused s' + n <= length (smem s').
Proof.
  intros HK. pose proof HK as (H1 & H2 & H3 & H4 & H5). unfold ks_guarantee.
  destruct (bool_decide _) eqn:Eb.
  - apply bool_decide_eq_true in Eb. exists s. split_and!; try done. lia.
  - apply bool_decide_eq_false in Eb. pose proof (align1024_ge (Z.of_nat (sused s + n))).
    destruct (realloc_ok s q (align1024 (Z.of_nat (sused s + n))) HK ltac:(lia)) as (s' & E & HK' & Es & Eu).
    exists s'. split_and!; try done. destruct HK' as (_ & _ & ? & _). lia.
Qed.
Lemma ks_gwb_ok s q : KR s q -> exists s' len, ks_get_write_buffer 2 s = Some (s', sused s', len) /\ KR s' q
  /\ (0 < len)%Z /\ len = (Z.of_nat (length (smem s')) - Z.of_nat (length q))%Z.
Proof.
  intros HK. pose proof HK as (H1 & H2 & H3 & H4 & H5).
  assert (Hdirect: forall f s, KR s q -> (Z.of_nat (sused s) < ssize s)%Z ->
    ks_get_write_buffer (S f) s = Some (s, sused s, (ssize s - Z.of_nat (sused s))%Z)).
  { intros f s0 (_ & _ & _ & H4' & _) Hlt. cbn [ks_get_write_buffer]. by rewrite !bool_decide_eq_true_2 by lia. }
  destruct (decide (Z.of_nat (sused s) < ssize s)%Z) as [Hlt|Hlt].
  - rewrite Hdirect by done. eexists _, _. split; [reflexivity|]. split_and!; try done; [lia|]. rewrite H3, H1. done.
  - assert (E2: ks_get_write_buffer 2 s = (s ← ks_realloc s (align1024 (ssize s * 2)); ks_get_write_buffer 1 s)).
    { cbn [ks_get_write_buffer]. rewrite (bool_decide_eq_true_2 (0 < ssize s)%Z) by lia. cbn. by rewrite (bool_decide_eq_false_2 (0 < ssize s - _)%Z) by lia. }
    rewrite E2. pose proof (align1024_ge (ssize s * 2)).
    destruct (realloc_ok s q (align1024 (ssize s * 2)) HK ltac:(lia)) as (s' & E & HK' & Es & Eu).
    rewrite E. cbn [mbind option_bind]. rewrite Hdirect by (done || lia).
    destruct HK' as (H1' & H2' & H3' & H4' & H5'). eexists _, _. split; [reflexivity|]. split_and!; try done; lia.
Qed.
Lemma kexec_ok s q o : KR s q -> exists s' r q', kexec s o = Some (s', r) /\ KR s' q' /\ kstep q o r q'.
Proof.
  intros HK. destruct o as [bs|bs|h]; cbn [kexec].
  - unfold ks_write_str. destruct (guarantee_ok s q (length bs) HK) as (s1 & E & HK1 & Hr). rewrite E. cbn.
    destruct (store_ks_ok s1 q bs HK1 Hr) as (s2 & E2 & HK2). rewrite E2. cbn. eexists _, _, _. split_and!; done.
  - destruct (ks_gwb_ok s q HK) as (s1 & len & E & HK1 & Hl & El). rewrite E. cbn [mbind option_bind]. cbv zeta.
    assert (Hd: length (take (Z.to_nat len) bs) <= Z.to_nat len) by (rewrite take_length; lia).
    assert (H5: sused s1 <= length (smem s1)) by apply HK1.
    assert (H1: sused s1 = length q) by apply HK1.
    destruct (store_ks_ok s1 q (take (Z.to_nat len) bs) HK1 ltac:(lia)) as (s2 & E2 & HK2). rewrite E2. cbn [mbind option_bind].
    eexists _, _, _. split_and!; [reflexivity|exact HK2|]. cbn. split_and!.
    + rewrite take_length. lia.
    + intros Hn. rewrite take_length. destruct bs; [done|]. cbn. lia.
    + f_equal. rewrite take_length. destruct (decide (Z.to_nat len <= length bs)); [f_equal; lia|]. by rewrite !take_ge by lia.
  - pose proof HK as (H1 & H2 & H3 & H4 & H5). unfold ks_save_point. rewrite (bool_decide_eq_true_2 (0 < ssize s)%Z) by lia. cbn.
    destruct (decide (h `min` sused s = 0)) as [Eh|Eh].
    + assert (drop h q = q) as Eq. { destruct q; [by destruct h|]. cbn in H1. assert (h = 0) as -> by lia. done. }
      destruct (bool_decide _) eqn:Eb; cbn.
      * destruct (realloc_ok s q (ssize s * 2) HK ltac:(lia)) as (s' & E & HK' & _). rewrite E. cbn.
        eexists _, _, _. split_and!; done.
      * eexists _, _, _. split_and!; done.
    + rewrite !bool_decide_eq_true_2 by lia. cbn. eexists _, _, _. split; [reflexivity|]. split; [|reflexivity].
      split_and!; cbn; try done.
      * rewrite drop_length. lia.
      * rewrite take_app_le by (rewrite take_length, drop_length; lia). rewrite take_take, Nat.min_id.
        destruct (decide (h <= sused s)).
        -- rewrite Nat.min_l by lia. rewrite take_drop_commute, Nat.add_comm, Nat.sub_add by lia.
           by rewrite H2, fmap_drop.
        -- rewrite Nat.min_r, Nat.sub_diag by lia. rewrite (drop_ge q) by lia. done.
      * rewrite app_length, take_length, !drop_length. lia.
      * rewrite app_length, take_length, !drop_length. lia.
Qed.
Lemma kexec_all_ok os : forall s q, KR s q -> exists s' rs q', kexec_all s os = Some (s', rs) /\ KR s' q' /\ kspec q os rs q'.
Proof.
  induction os as [|o os IH]; intros s q HK; [by exists s, [], q|].
  destruct (kexec_ok s q o HK) as (s1 & r & q1 & E & HK1 & Hst).
  destruct (IH s1 q1 HK1) as (s2 & rs & q2 & E2 & HK2 & Hs). cbn. rewrite E. cbn. rewrite E2. cbn.
  eexists _, _, q2. split_and!; try done. exists q1. destruct HK1 as (H1 & _ & H3 & _ & H5). split_and!; try done. lia.
Qed.
Lemma kread_ok ns : forall s q p, sused s = length p -> take (length p + length q) (smem s) = Some <$> p ++ q ->
  ssize s = Z.of_nat (length p + length q) -> length p + length q <= length (smem s) ->
  kread s ns = Some (kread_spec q ns).
Proof.
  induction ns as [|n ns IH]; intros s q p Hu Ht Hs Hl; [done|].
  cbn [kread]. unfold ks_get_read_buffer. rewrite !bool_decide_eq_true_2 by lia. cbn [mbind option_bind guard_b].
  replace (mapM id (take (Z.to_nat (ssize s) - sused s) (drop (sused s) (smem s)))) with (Some q); cycle 1.
  { rewrite Hu, Hs, Nat2Z.id. replace (length p + length q - length p) with (length q) by lia.
    replace (take (length q) (drop (length p) (smem s))) with (Some <$> q).
    - clear. induction q; cbn; [done|]. by rewrite <- IHq.
    - rewrite take_drop_commute, Ht, fmap_app, drop_app_alt by (by rewrite fmap_length). done. }
  cbn [mbind option_bind]. unfold ks_read_success. cbn. rewrite (bool_decide_eq_true_2 (_ <= _)%Z) by lia. cbn.
  rewrite (IH _ (drop n q) (p ++ take n q)); cbn.
  - do 3 f_equal. apply eq_true_iff_eq. rewrite bool_decide_eq_true, negb_true_iff.
    pose proof (drop_length q n). destruct (drop n q); cbn in *; split; (done || lia).
  - rewrite app_length, take_length. lia.
  - rewrite <- (assoc_L (++)), take_drop. rewrite <- Ht. f_equal. rewrite app_length, take_length, drop_length. lia.
  - rewrite app_length, take_length, drop_length. lia.
  - rewrite app_length, take_length, drop_length. lia.
Qed.
Lemma ks_all_ok n os ns : 1 <= n -> exists s rs q, kexec_all (ks_init n) os = Some (s, rs) /\ kspec [] os rs q
  /\ kread (ks_switch_read s) ns = Some (kread_spec q ns).
Proof.
  intros Hn. destruct (kexec_all_ok os (ks_init n) []) as (s & rs & q & E & (H1 & H2 & H3 & H4 & H5) & Hs).
  { split_and!; cbn; try done; rewrite ?replicate_length; lia. }
  exists s, rs, q. split_and!; try done. apply (kread_ok ns _ q []); cbn; try done; [by rewrite <- H1|lia|lia].
Qed.
End ksp.
