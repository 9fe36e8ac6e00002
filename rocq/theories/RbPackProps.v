(** C82: the colour packed into the parent pointer.  Model: RbPackModel.v *)
From Verif Require Import RbPackModel.
Local Open Scope Z_scope.

(** * The word *)
Section word.
Context (W : Z) (HW : 3 <= W).
Lemma pow_W : 2 ^ W = 4 * 2 ^ (W - 2) /\ 2 <= 2 ^ (W - 2).
Proof.
  split; [change 4 with (2 ^ 2); rewrite <- Z.pow_add_r by lia; f_equal; lia|]. change 2 with (2 ^ 1) at 1. apply Z.pow_le_mono_r; lia.
Qed.
Lemma land_not k w : 0 <= k <= 2 -> 0 <= w < 2 ^ W -> Z.land w ((- 2 ^ k) mod 2 ^ W) = w - w mod 2 ^ k.
Proof.
  intros Hk Hw. assert (E : (- 2 ^ k) mod 2 ^ W = Z.land (- 2 ^ k) (Z.ones W)) by (rewrite Z.land_ones by lia; done).
  rewrite E. replace (- 2 ^ k) with (Z.lnot (Z.ones k)) by (rewrite Z.ones_equiv; unfold Z.lnot; lia).
  rewrite (Z.land_comm (Z.lnot _)), Z.land_assoc, Z.land_ones by lia. rewrite (Z.mod_small w) by done.
  rewrite <- Z.ldiff_land, Z.ldiff_ones_r by lia. rewrite Z.shiftl_mul_pow2, Z.shiftr_div_pow2 by lia.
  pose proof (Z.div_mod w (2 ^ k) ltac:(lia)). lia.
Qed.
Lemma land3 w : Z.land w 3 = w mod 4.
Proof. change 3 with (Z.ones 2). by rewrite Z.land_ones by lia. Qed.
Lemma land1 w : Z.land w 1 = w mod 2.
Proof. change 1 with (Z.ones 1). by rewrite Z.land_ones by lia. Qed.
Lemma lor_add k a r : 0 <= k -> 0 <= r < 2 ^ k -> a mod 2 ^ k = 0 -> Z.lor r a = a + r.
Proof.
  intros Hk Hr Ha. rewrite Z.lor_comm. symmetry. rewrite <- Z.lxor_lor.
  - apply Z.add_nocarry_lxor. rewrite <- (Z.mod_small r (2 ^ k)) by done. rewrite <- Z.land_ones by lia.
    rewrite (Z.land_comm r), Z.land_assoc, Z.land_ones, Ha by lia. apply Z.land_0_l.
  - rewrite <- (Z.mod_small r (2 ^ k)) by done. rewrite <- Z.land_ones by lia.
    rewrite (Z.land_comm r), Z.land_assoc, Z.land_ones, Ha by lia. apply Z.land_0_l.
Qed.
Lemma parent_eq w : 0 <= w < 2 ^ W -> rb_parent W w = w - w mod 4.
Proof. intros H. unfold rb_parent, not3. change (-4) with (- 2 ^ 2). by rewrite land_not by lia. Qed.
Lemma color_eq w : rb_color w = w mod 2.
Proof. apply land1. Qed.
Lemma set_red_eq w : 0 <= w < 2 ^ W -> rb_set_red W w = w - w mod 2.
Proof. intros H. unfold rb_set_red, not1. change (-2) with (- 2 ^ 1). by rewrite land_not by lia. Qed.
Lemma set_black_eq w : rb_set_black w = w - w mod 2 + 1.
Proof.
  unfold rb_set_black. assert (E : Z.lor w 1 = Z.lor 1 (w - w mod 2)).
  { pose proof (Z.mod_pos_bound w 2 ltac:(lia)).
    assert (E : w = Z.lor (w mod 2) (w - w mod 2)).
    { rewrite (lor_add 1); [lia|lia|done|]. change (2 ^ 1) with 2. rewrite Zminus_mod_idemp_r. by rewrite Z.sub_diag. }
    rewrite E at 1. rewrite <- Z.lor_assoc, (Z.lor_comm _ 1), Z.lor_assoc. f_equal.
    destruct (decide (w mod 2 = 0)) as [->|Hn]; [done|]. by replace (w mod 2) with 1 by lia. }
  rewrite E. rewrite (lor_add 1); [lia|lia|change (2 ^ 1) with 2; lia|]. change (2 ^ 1) with 2. rewrite Zminus_mod_idemp_r. by rewrite Z.sub_diag.
Qed.
Lemma set_color_eq w (c : bool) : 0 <= w < 2 ^ W -> rb_set_color W w (if c then 1 else 0) = w - w mod 2 + (if c then 1 else 0).
Proof.
  intros Hw. unfold rb_set_color. fold (rb_set_red W w). rewrite set_red_eq by done. rewrite Z.lor_comm.
  rewrite (lor_add 1); [done|lia|change (2 ^ 1) with 2; destruct c; lia|]. change (2 ^ 1) with 2. rewrite Zminus_mod_idemp_r. by rewrite Z.sub_diag.
Qed.
Lemma set_parent_eq w p : (4 | p) -> rb_set_parent w p = p + w mod 4.
Proof.
  intros Hp. unfold rb_set_parent. rewrite land3. rewrite (lor_add 2); [done|lia| |].
  - change (2 ^ 2) with 4. apply Z.mod_pos_bound. lia.
  - change (2 ^ 2) with 4. by apply Z.mod_divide.
Qed.
Lemma al_range p r : al W p -> 0 <= r < 4 -> 0 <= p + r < 2 ^ W.
Proof. intros [Hp [k Hk]] Hr. destruct pow_W as [E _]. rewrite E in *. lia. Qed.
Lemma al_mod p r : al W p -> 0 <= r < 4 -> (p + r) mod 4 = r /\ (p + r) mod 2 = r mod 2.
Proof.
  intros [_ [k ->]] Hr. split.
  - rewrite Z.add_comm, Z.mod_add by lia. by apply Z.mod_small.
  - replace (k * 4 + r) with (r + (k * 2) * 2) by lia. by rewrite Z.mod_add by lia.
Qed.

(** each setter changes the one part and leaves the other, whatever the word was *)
Theorem C82_word w p (c : bool) : 0 <= w < 2 ^ W -> al W p ->
  rb_parent W (rb_set_parent w p) = p /\ rb_color (rb_set_parent w p) = rb_color w /\
  rb_color (rb_set_color W w (if c then 1 else 0)) = (if c then 1 else 0) /\ rb_parent W (rb_set_color W w (if c then 1 else 0)) = rb_parent W w /\
  rb_color (rb_set_red W w) = 0 /\ rb_parent W (rb_set_red W w) = rb_parent W w /\
  rb_color (rb_set_black w) = 1 /\ rb_parent W (rb_set_black w) = rb_parent W w.
Proof.
  intros Hw Hp. pose proof (Z.mod_pos_bound w 4 ltac:(lia)) as H4. pose proof (Z.mod_pos_bound w 2 ltac:(lia)) as H2.
  destruct (al_mod p (w mod 4) Hp H4) as [M4 M2].
  assert (HP : forall r : Z, 0 <= r < 2 -> 0 <= w - w mod 2 + r < 2 ^ W /\ w - w mod 2 + r - (w - w mod 2 + r) mod 4 = w - w mod 4 /\ (w - w mod 2 + r) mod 2 = r).
  { intros r Hr. destruct pow_W as [E _]. pose proof (Z.div_mod w 4 ltac:(lia)) as D4. pose proof (Z.div_mod w 2 ltac:(lia)) as D2.
    assert (M : (w - w mod 2 + r) mod 2 = r).
    { replace (w - w mod 2 + r) with (r + (w / 2) * 2) by lia. rewrite Z.mod_add by lia. apply Z.mod_small; lia. }
    assert (Q : w / 2 = 2 * (w / 4) + (w / 2) mod 2).
    { pose proof (Z.div_mod (w / 2) 2 ltac:(lia)) as D. rewrite Z.div_div in D by lia. change (2 * 2) with 4 in D. lia. }
    pose proof (Z.mod_pos_bound (w / 2) 2 ltac:(lia)).
    assert (M' : (w - w mod 2 + r) mod 4 = 2 * ((w / 2) mod 2) + r).
    { replace (w - w mod 2 + r) with (2 * ((w / 2) mod 2) + r + (w / 4) * 4) by lia. rewrite Z.mod_add by lia. apply Z.mod_small; lia. }
    split_and!; [lia| |lia|done]; lia. }
  assert (HC : 0 <= (if c then 1 else 0) < 2) by (destruct c; lia).
  destruct (HP _ HC) as (A1 & A2 & A3). destruct (HP 0 ltac:(lia)) as (B1 & B2 & B3). destruct (HP 1 ltac:(lia)) as (C1 & C2 & C3).
  rewrite Z.add_0_r in B1, B2, B3.
  rewrite set_parent_eq by apply Hp. rewrite set_color_eq, set_red_eq, set_black_eq by done. rewrite !color_eq.
  rewrite !parent_eq by first [done|by apply al_range]. rewrite M4, M2. split_and!; try done; [lia|].
  pose proof (Z.div_mod w 4 ltac:(lia)) as D4. rewrite D4 at 2. rewrite Z.add_comm, Z.mul_comm. replace (w / 4 * 4) with (w / 4 * 2 * 2) by lia.
  by rewrite Z.mod_add by lia.
Qed.
(** an address that is not a multiple of 4 does not survive *)
Theorem C82_alignment p w : 0 <= p < 2 ^ W -> ~ (4 | p) -> rb_parent W (rb_set_parent w p) ≠ p /\ rb_parent W p ≠ p.
Proof.
  intros Hp Hn. assert (HX : forall v, 0 <= v -> rb_parent W v ≠ p).
  { intros v Hv E. unfold rb_parent in E. apply Hn. apply Z.mod_divide; [lia|]. rewrite <- land3, <- E, <- Z.land_assoc.
    assert (Z.land (not3 W) 3 = 0) as ->; [|apply Z.land_0_r]. rewrite land3. unfold not3. destruct pow_W as [-> Hq].
    rewrite (Z.mod_eq (-4)) by lia. set (x := -4 / (4 * 2 ^ (W - 2))).
    replace (-4 - 4 * 2 ^ (W - 2) * x) with ((-1 - 2 ^ (W - 2) * x) * 4) by lia. apply Z.mod_mul. lia. }
  split; apply HX; [|lia]. unfold rb_set_parent. apply Z.lor_nonneg. split; [|lia]. rewrite land3. by apply Z.mod_pos_bound.
Qed.

(** * Programs *)
Context {O : Type}.
Lemma enc_al (q : Z * bool) : al W (fst q) -> rb_parent W (enc q) = fst q /\ rb_color (enc q) = (if snd q then 1 else 0) /\ 0 <= enc q < 2 ^ W.
Proof.
  destruct q as [p b]. unfold enc. cbn. intros Hp. assert (Hb : 0 <= (if b then 1 else 0) < 4) by (destruct b; lia).
  destruct (al_mod p _ Hp Hb) as [M4 M2]. pose proof (al_range p _ Hp Hb) as HR. rewrite parent_eq, color_eq by done. rewrite M4, M2.
  split_and!; try lia. by destruct b.
Qed.
Lemma set_parent_enc p b p' : al W p -> al W p' -> rb_set_parent (enc (p, b)) p' = enc (p', b).
Proof.
  intros Hp Hp'. rewrite set_parent_eq by apply Hp'. unfold enc. cbn. f_equal. assert (Hb : 0 <= (if b then 1 else 0) < 4) by (destruct b; lia).
  by apply al_mod.
Qed.
Lemma clear_enc p b : al W p -> enc (p, b) - enc (p, b) mod 2 = p.
Proof.
  intros Hp. unfold enc. cbn. assert (Hb : 0 <= (if b then 1 else 0) < 4) by (destruct b; lia). destruct (al_mod p _ Hp Hb) as [_ ->]. destruct b; [change (1 mod 2) with 1|change (0 mod 2) with 0]; lia.
Qed.
Lemma pstep_fstep (s : fst_ O) t a s' r : same W s t -> fstep s a = Some (s', r) -> stores_al W [(a, r)] ->
  exists t', pstep W t a = Some (t', r) /\ same W s' t'.
Proof.
  intros (A & B & C) H Hal. destruct t as [ws o]. cbn in A, B. subst ws o.
  assert (HL : forall n p b, flds s !! n = Some (p, b) -> (enc <$> flds s) !! n = Some (enc (p, b))) by (intros n p b E; by rewrite lookup_fmap, E).
  assert (HS : forall n p b, al W p -> same W (fset s n p b) (pset (mkp (enc <$> flds s) (f_o s)) n (enc (p, b)))).
  { intros n p b Hp. split_and!; cbn; [by rewrite fmap_insert|done|]. intros m p' b' E.
    apply lookup_insert_Some in E as [[-> E]|[_ E]]; [by injection E as -> ->|by eapply C]. }
  assert (H0 : same W s (mkp (enc <$> flds s) (f_o s))) by done.
  destruct a as [n|n|n p|n c|n|n|n p|n m|n|f]; cbn [fstep pstep words] in H |- *; unfold mbind in *.
  - destruct (flds s !! n) as [[p b]|] eqn:E; [|done]. injection H as <- <-. rewrite (HL _ _ _ E). cbn.
    destruct (enc_al (p, b) (C _ _ _ E)) as (E1 & _ & _). rewrite E1. by eexists.
  - destruct (flds s !! n) as [[p b]|] eqn:E; [|done]. injection H as <- <-. rewrite (HL _ _ _ E). cbn.
    destruct (enc_al (p, b) (C _ _ _ E)) as (_ & E2 & _). rewrite E2. by eexists.
  - destruct (flds s !! n) as [[p' b]|] eqn:E; [|done]. injection H as <- <-. rewrite (HL _ _ _ E). cbn.
    assert (Hp : al W p) by (eapply Hal; [by apply elem_of_list_singleton|exists n; by left]).
    eexists. split; [done|]. rewrite set_parent_enc; [by apply HS|by eapply C|done].
  - destruct (flds s !! n) as [[p b]|] eqn:E; [|done]. injection H as <- <-. rewrite (HL _ _ _ E). cbn. pose proof (C _ _ _ E) as Hp.
    eexists. split; [done|]. rewrite set_color_eq by apply (enc_al (p, b) Hp). rewrite clear_enc by done. by apply HS.
  - destruct (flds s !! n) as [[p b]|] eqn:E; [|done]. injection H as <- <-. rewrite (HL _ _ _ E). cbn. pose proof (C _ _ _ E) as Hp.
    eexists. split; [done|]. rewrite set_red_eq by apply (enc_al (p, b) Hp). rewrite clear_enc by done. replace p with (enc (p, false)) at 2 by (unfold enc; cbn; lia). by apply HS.
  - destruct (flds s !! n) as [[p b]|] eqn:E; [|done]. injection H as <- <-. rewrite (HL _ _ _ E). cbn. pose proof (C _ _ _ E) as Hp.
    eexists. split; [done|]. rewrite set_black_eq, clear_enc by done. by apply HS.
  - injection H as <- <-. assert (Hp : al W p) by (eapply Hal; [by apply elem_of_list_singleton|exists n; by right]).
    eexists. split; [done|]. replace p with (enc (p, false)) at 2 by (unfold enc; cbn; lia). by apply HS.
  - destruct (flds s !! m) as [[p b]|] eqn:E; [|done]. injection H as <- <-. rewrite (HL _ _ _ E). cbn.
    eexists. split; [done|]. apply HS. by eapply C.
  - injection H as <- <-. eexists. split; [done|]. split_and!; cbn; [by rewrite fmap_delete|done|]. intros x p b Hx. apply lookup_delete_Some in Hx as [_ Hx]. by eapply C.
  - injection H as <- <-. eexists. split; [done|]. by split_and!.
Qed.
Lemma frun_prefix (g : prog O) : forall s tr s' tr', frun s g tr = Some (s', tr') -> exists l, tr' = tr ++ l.
Proof.
  induction g as [|a k IH]; intros s tr s' tr'; cbn; [intros [= <- <-]; exists []; by rewrite app_nil_r|].
  destruct (fstep s a) as [[s1 r]|]; [|done]. intros H. apply IH in H as [l ->]. exists ((a, r) :: l). by rewrite <- app_assoc.
Qed.
(** any program, with the same results of every access *)
Theorem C82_refines (g : prog O) : forall s t tr s' tr', same W s t -> frun s g tr = Some (s', tr') -> stores_al W tr' ->
  exists t', prun W t g tr = Some (t', tr') /\ same W s' t'.
Proof.
  induction g as [|a k IH]; intros s t tr s' tr' HS; cbn; [intros [= <- <-] _; by exists t|].
  destruct (fstep s a) as [[s1 r]|] eqn:E; [|done]. intros H Hal.
  destruct (frun_prefix _ _ _ _ _ H) as [l El].
  destruct (pstep_fstep s t a s1 r HS E) as (t1 & -> & HS1).
  - intros a' r' p Hin. apply elem_of_list_singleton in Hin as [= -> ->]. intros Hx. eapply Hal; [|exact Hx]. rewrite El, !elem_of_app. left. right. by apply elem_of_list_singleton.
  - by eapply IH.
Qed.
(** and an access to something that is not a node is one in both *)
Theorem C82_same_faults (g : prog O) : forall s t tr t' tr', same W s t -> prun W t g tr = Some (t', tr') -> stores_al W tr' ->
  exists s', frun s g tr = Some (s', tr').
Proof.
  assert (HP : forall (g : prog O) t tr t' tr', prun W t g tr = Some (t', tr') -> exists l, tr' = tr ++ l).
  { clear g. induction g as [|a k IH]; intros t tr t' tr'; cbn; [intros [= <- <-]; exists []; by rewrite app_nil_r|].
    destruct (pstep W t a) as [[t1 r]|]; [|done]. intros H. apply IH in H as [l ->]. exists ((a, r) :: l). by rewrite <- app_assoc. }
  induction g as [|a k IH]; intros s t tr t' tr' HS; cbn; [intros [= <- <-] _; by eexists|].
  destruct (pstep W t a) as [[t1 r]|] eqn:E; [|done]. intros H Hal. destruct (HP _ _ _ _ _ H) as [l El].
  assert (Hx : exists s1 r1, fstep s a = Some (s1, r1)).
  { destruct HS as (A & B & C). destruct a; cbn [pstep fstep] in E |- *; unfold mbind in *; rewrite ?A, ?lookup_fmap in E;
      try (by eexists _, _); match goal with |- context [flds s !! ?n] => destruct (flds s !! n) as [[? ?]|]; [by eexists _, _|done] end. }
  destruct Hx as (s1 & r1 & Es). rewrite Es.
  destruct (pstep_fstep s t a s1 r1 HS Es) as (t2 & E2 & HS1).
  - intros a' r' p Hin. apply elem_of_list_singleton in Hin as [= -> ->]. intros Hx. eapply (Hal a r); [|exact Hx]. rewrite El, !elem_of_app. left. right. by apply elem_of_list_singleton.
  - rewrite E in E2. injection E2 as <- <-. by eapply IH.
Qed.
End word.
(** 2-aligned nodes (malloc of 2-byte alignment, a packed struct) would lose their parent *)
Definition link_read (n p : Z) : prog unit := Acc (ALink n p) (λ _, Acc (AParent n) (λ _, Ret)).
Theorem C82_two_aligned_refuted : exists s', frun (mkf ∅ ()) (link_read 4096 8194) [] = Some (s', [(ALink 4096 8194, 0); (AParent 4096, 8194)]) /\
  exists t', prun 64 (mkp ∅ ()) (link_read 4096 8194) [] = Some (t', [(ALink 4096 8194, 0); (AParent 4096, 8192)]).
Proof. eexists. split; [vm_compute; reflexivity|]. eexists. vm_compute. reflexivity. Qed.

(** * Example: colour flip and the colour hand-over of rb_erase (krbtree.c:222-224, 296-297, 311) on three nodes *)
Definition pack_demo : prog unit :=
  Acc (ALink 4096 0) (λ _, Acc (ALink 8192 4096) (λ _, Acc (ALink 12288 4096) (λ _,
  Acc (ABlack 4096) (λ _, Acc (AColor 4096) (λ c, Acc (ASetColor 8192 (bool_decide (c = 1))) (λ _,
  Acc (ASetParent 12288 8192) (λ _, Acc (ARed 4096) (λ _, Acc (ACopy 4096 12288) (λ _, Acc (AParent 4096) (λ p,
  Acc (AColor p) (λ _, Acc (AFree 12288) (λ _, Ret)))))))))))).
Theorem C82_example : exists s' t' tr, frun (mkf ∅ ()) pack_demo [] = Some (s', tr) /\ stores_al 64 tr /\ same 64 (mkf ∅ ()) (mkp ∅ ()) /\
  prun 64 (mkp ∅ ()) pack_demo [] = Some (t', tr) /\ words t' !! 8192 = Some 4097 /\ flds s' !! 8192 = Some (4096, true) /\
  words t' !! 4096 = Some 8192.
Proof.
  eexists _, _, _. split; [vm_compute; reflexivity|]. split.
  { intros a r p Hin (n & Hn). rewrite !elem_of_cons in Hin. change (2 ^ 64) with 18446744073709551616.
    unfold al. change (2 ^ 64) with 18446744073709551616.
    repeat match goal with H : _ \/ _ |- _ => destruct H as [H|H] end; try (by apply elem_of_nil in Hin); simplify_eq;
      (split; [lia|by apply Z.mod_divide]). }
  split; [split_and!; [cbn; symmetry; apply fmap_empty|done|intros n p b H; cbn in H; by rewrite lookup_empty in H]|]. split; [vm_compute; reflexivity|]. by split_and!.
Qed.
