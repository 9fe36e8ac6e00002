(** C57: completions, sendfile, and the whole step. *)
From Verif Require Export UringProof3.
Local Open Scope Z_scope.

Lemma reap_good h s o d k v c : Inv h s -> Rdy s -> cq s = (SOp o d k, v) :: c -> good h (handle (set_cq s c) o d v).
Proof.
  intros HI HR Hc. pose proof (Inv_lean _ _ HI) as Hl. destruct (pop_ents s o d k v c Hl Hc) as (He & He0 & Hey).
  assert (KRes k o d v ∈ h) as Hkr by (eapply (v_cq _ _ (v_g _ _ HI)); rewrite Hc; left).
  pose proof (v_key _ _ HI (o, d)) as Hk. unfold PK in Hk. destruct (slots s !! (o, d)) as [sl|] eqn:Hsl; [|congruence].
  destruct Hk as (Hok & Hp & Hbn). cbn [fst snd] in *.
  assert (is_Some (slots s !! (o, d))) as Hso by by rewrite Hsl.
  assert (exists sl', slots s !! (o, other d) = Some sl') as [sl' Hsl'].
  { apply (v_live _ _ (v_g _ _ HI)). by apply (v_live _ _ (v_g _ _ HI) o d). }
  assert (busy sl = true /\ rdy sl = false /\ rdy2 sl = false) as (Hb & Hr & Hr2).
  { destruct Hok as [r0 c0 b H1|k0 b H1 H2 H3|k0 H1 H2 H3 H4|k0 b H1 H2 H3|k0 r0 H1 H2 H3|i xf b H1 H2 H3 H4 H5|i xf b H1 H2 H3 H4]; try done; congruence. }
  destruct (ready_handle h s o d sl sl' HI HR Hsl Hsl' Hb Hr2 Hr) as [Hro Hrx].
  set (r := if busy sl && busy sl' then _ else _) in Hro, Hrx.
  unfold handle. cbn [slots set_cq]. rewrite Hsl, Hsl'.
  assert ((if busy sl && busy sl' then if rdy2 sl || rdy2 sl' then set_cq s c else set_ready (set_cq s c) (ready (set_cq s c) ∖ {[o]})
           else set_ready (set_cq s c) (ready (set_cq s c) ∖ {[o]})) = set_ready (set_cq s c) r) as ->.
  { unfold r. destruct (busy sl && busy sl'), (rdy2 sl || rdy2 sl'); reflexivity. }
  rewrite Hb, Hr, Hr2. cbn [negb orb].
  change (poll (set_ready (set_cq s c) r)) with (poll s). 
  case_decide as Hpo.
  - (* poll model: the request is served from the READY list *)
    assert (exists b, sl = Slot true false false (User k) (rwbuf true b) /\ Made k (CRw o d b) ∈ h /\ k ∉ rets h) as (b & -> & Hm & Hkn).
    { destruct Hok as [r0 c0 b H1|k0 b H1 H2 H3|k0 H1 H2 H3 H4|k0 b H1 H2 H3|k0 r0 H1 H2 H3|i xf b H1 H2 H3 H4 H5|i xf b H1 H2 H3 H4]; try congruence.
      - cbn in *. rewrite bool_decide_true by done. exists b. assert (k0 = k) as -> by congruence. done.
      - by destruct H4.
      - destruct (v_sf _ _ HI i xf H2) as (_ & _ & _ & _ & _ & _ & P7 & _). destruct P7. by injection H3 as -> _.
      - destruct (v_sf _ _ HI i xf H2) as (_ & _ & _ & _ & _ & _ & _ & P8 & _). destruct P8. by injection H3 as -> _. }
    cbn [rdy2 cbk buf good]. set (sl1 := Slot true true false (User k) (rwbuf true b)).
    change (set_ready (set_slot (set_ready (set_cq s c) r) o d sl1) ({[o]} ∪ ready (set_ready (set_cq s c) r))) with (after s c ({[o]} ∪ r) o d sl1).
    pose proof (only_after s o d k v c ({[o]} ∪ r) sl1 Hl Hc Hso) as Hon. set (s' := after _ _ _ _ _ _) in *.
    assert (slots s' !! (o, d) = Some sl1) as Hs1 by (cbn; apply lookup_insert).
    split_and!.
    + eapply (Inv_same h s s' (o, d) (CRw o d b) k []); try done.
      * intros a Ha. rewrite Hc. by right.
      * by eexists.
      * intros k' c' H. by apply elem_of_nil in H.
      * left. split; [done|]. by exists sl1.
      * unfold PK. rewrite Hs1. cbn [rdy buf sl1]. split_and!; [|done|by destruct b]. apply (ok_rdy _ s'); [done|by inl|by rewrite app_nil_r].
    + eapply (rdy_after s s' o d ({[o]} ∪ r)); try done.
      * intros o1 Hne. rewrite elem_of_union, elem_of_singleton, Hro by done. naive_solver.
      * rewrite elem_of_union, elem_of_singleton. unfold fires at 1. rewrite Hs1. cbn. naive_solver.
    + split; intros k'; [intros v'|]; intros H; by apply elem_of_nil in H.
  - set (sl1 := Slot false false false (cbk sl) (buf sl)).
    change (set_slot (set_ready (set_cq s c) r) o d sl1) with (after s c r o d sl1).
    set (got := if decide _ then 0 else v).
    pose proof (only_after s o d k v c r sl1 Hl Hc Hso) as Hon. set (s' := after _ _ _ _ _ _) in *.
    assert (slots s' !! (o, d) = Some sl1) as Hs1 by (cbn; apply lookup_insert).
    assert (forall s2, slots s2 = slots s' -> only s (set_sfs s2 (sfs s)) (o, d) -> ready s2 = r -> Rdy s2) as HRd.
    { intros s2 E1 E2 E3. eapply (rdy_after s (set_sfs s2 (sfs s)) o d r); try done. rewrite (Hrx Hpo). unfold fires at 2. cbn. rewrite E1, Hs1. cbn. naive_solver. }
    assert (forall c0, Made k c0 ∈ h -> uses c0 = [(o, d)] -> k ∉ rets h -> cbk sl = User k -> retok (h ++ [Cb k got]) k got ->
      good h (Ok s' [Cb k got])) as Huser.
    { intros c0 Hm Hu Hkn Hcb Hok0. cbn [good]. split_and!.
      - eapply (Inv_same h s s' (o, d) c0 k); try done.
        + intros a Ha. rewrite Hc. by right.
        + by exists sl.
        + repeat constructor.
        + intros k' c' H. by mem H.
        + by right.
        + unfold PK. rewrite Hs1. cbn [rdy buf sl1]. split_and!; [by constructor|done|].
          intros H. destruct (Hbn H) as [k' Hk']. exists k'. by inl.
      - by apply HRd.
      - split; intros k'; [intros v'|]; intros H; mem H. by injection H as -> ->. }
    destruct Hok as [r0 c0 b H1|k0 b H1 H2 H3|k0 H1 H2 H3 H4|k0 b H1 H2 H3|k0 r0 H1 H2 H3|i xf b H1 H2 H3 H4 H5|i xf b H1 H2 H3 H4]; try congruence; cbn [cbk fst snd] in *.
    + assert (k0 = k) as -> by congruence. eapply (Huser _ H2); try done. right. exists (CRw o d b). split; [by inl|]. left. split.
      * rewrite quiet_app; [|repeat constructor|by intros []]. by rewrite <- (v_poll _ _ (v_g _ _ HI)).
      * exists v. split; [by inl|]. unfold got. rewrite bool_decide_false by done. cbn [buf]. destruct b; cbn [rwbuf].
        -- rewrite decide_False; [done|]. by intros [_ ?].
        -- destruct (decide (0 < v /\ BNull = BNull)) as [[Hv _]|Hv]; [lia|]. assert (~ 0 < v) by (intros ?; by apply Hv). lia.
    + assert (k0 = k) as -> by congruence. eapply (Huser _ H2); try done. right. exists (CPlain o d). split; [by inl|].
      unfold got. cbn [buf]. rewrite decide_False; [by inl|]. by intros [_ ?].
    + assert (f_call xf = k) as <- by congruence.
      assert (got = v) as -> by (unfold got; cbn [buf]; rewrite decide_False; [done|]; by intros [_ ?]).
      assert (exists s2 ob, sf_result s' i true v = Ok s2 ob /\ Inv (h ++ ob) s2 /\ only s (set_sfs s2 (sfs s)) (o, d)
        /\ slots s2 = slots s' /\ ready s2 = r /\ Vals h ob) as (s2 & ob & E & P1 & P2 & P3 & P4 & P5).
      { exact (sf_half_good h s i xf true o d v c r _ sl1 HI Hc H2 (eq_sym H3) H4 Hsl eq_refl eq_refl eq_refl eq_refl eq_refl eq_refl). }
      rewrite E. cbn [good]. split_and!; [done| |done]. by apply HRd.
    + assert (f_call xf = k) as <- by congruence.
      assert (exists s2 ob, sf_result s' i false got = Ok s2 ob /\ Inv (h ++ ob) s2 /\ only s (set_sfs s2 (sfs s)) (o, d)
        /\ slots s2 = slots s' /\ ready s2 = r /\ Vals h ob) as (s2 & ob & E & P1 & P2 & P3 & P4 & P5).
      { exact (sf_half_good h s i xf false o d v c r _ sl1 HI Hc H2 (eq_sym H3) H4 Hsl eq_refl eq_refl eq_refl eq_refl eq_refl eq_refl). }
      rewrite E. cbn [good]. split_and!; [done| |done]. by apply HRd.
Qed.

(** a call that returns at once and changes nothing *)
Lemma Inv_refused h s c o : Inv h s -> Made (next s) c ∈ o -> Forall quiet o -> (forall k' c', Made k' c' ∈ o -> k' = next s /\ c' = c) ->
  rets o = [next s] -> Inv (h ++ o) (set_next s (S (next s))).
Proof.
  intros HI Hm Hq Hmo Hr. pose proof HI as [Hk Hs Hc Hg].
  assert (next s ∉ rets h) as Hnr by (intros H; apply (v_ret _ _ Hg) in H; lia).
  assert (forall k, k ∉ rets h -> (k < next s)%nat -> k ∉ rets (h ++ o)) as Hmono.
  { intros k Hk1 Hk2. rewrite rets_app, Hr. intros [H|H%elem_of_list_singleton]%elem_of_app; [done|lia]. }
  assert (forall a, a ∈ h -> a ∈ h ++ o) as Hin by (intros a Ha; by inl).
  split.
  - intros y. eapply (PK_frame h s); [apply Hk|done|done|done|done| |].
    + intros k c1 Hk1 _ Hk2. apply Hmono; [done|]. by eapply (v_made _ _ Hg).
    + intros i xf Hi _. by exists xf.
  - intros i. eapply (PS_frame h s); [apply Hs|done|done|done|]. intros xf Hi. destruct (Hs i xf Hi) as (Ha & Hb & _).
    split_and!; try done. apply Hmono; [done|]. by eapply (v_made _ _ Hg).
  - intros k c1 [Hk1|Hk1]%elem_of_app Hk2.
    + assert (k ∉ rets h) as Hk3 by (intros H; apply Hk2; rewrite rets_app; by inl). specialize (Hc k c1 Hk1 Hk3). by destruct c1.
    + destruct (Hmo _ _ Hk1) as [-> _]. destruct Hk2. rewrite rets_app, Hr. apply elem_of_app. right. by apply elem_of_list_singleton.
  - eapply (G_step h s o _ c); try done.
    + intros k c' H. apply Hmo in H as [-> ->]. done.
    + cbn. lia.
    + right. exists (next s). split_and!; [done|done|cbn; lia].
    + apply Hg.
    + intros a b H. by left.
Qed.

Lemma sendfile_good N h s o f sub1 : Inv h s -> Rdy s -> live h o -> live h f -> o <> f -> ~ out h (o, W) -> ~ out h (f, R) -> ~ out h (f, W) ->
  Polled o ∉ h -> Polled f ∉ h -> (forall k, Made k (CRw o W false) ∉ h) -> good h (sendfile N s o f sub1 true true).
Proof.
  intros HI HR Hlo Hlf Hof Ho1 Ho2 Ho3 Hpo Hpf Hnw. pose proof (Inv_lean _ _ HI) as Hl.
  destruct (slot_of h s o W HI Hlo) as [so Hso]. destruct (slot_of h s f R HI Hlf) as [fr Hfr]. destruct (slot_of h s f W HI Hlf) as [fw Hfw].
  destruct (idle_slot h s o W so HI Ho1 Hso) as (r1 & c1 & b1 & -> & Hp1 & Hbn1 & He1 & Hf1).
  destruct (idle_slot h s f R fr HI Ho2 Hfr) as (r2 & c2 & b2 & -> & Hp2 & Hbn2 & He2 & Hf2).
  destruct (idle_slot h s f W fw HI Ho3 Hfw) as (r3 & c3 & b3 & -> & Hp3 & Hbn3 & He3 & Hf3).
  assert (o ∉ poll s) as Hpo' by (by rewrite (v_poll _ _ (v_g _ _ HI))).
  assert (f ∉ poll s) as Hpf' by (by rewrite (v_poll _ _ (v_g _ _ HI))).
  assert (r1 = false) as -> by (destruct r1; [destruct Hpo'; auto|done]).
  assert (r2 = false) as -> by (destruct r2; [destruct Hpf'; auto|done]).
  assert (r3 = false) as -> by (destruct r3; [destruct Hpf'; auto|done]).
  unfold sendfile. rewrite Hso, Hfr, Hfw. cbn [busy rdy rdy2 buf]. set (k := next s). set (m := Made k (CSf o f)).
  assert (k ∉ rets h) as Hkr by (intros H; apply (v_ret _ _ (v_g _ _ HI)) in H; unfold k in H; lia).
  destruct (get_seq N (set_next s (S k)) sub1) as [s1|] eqn:Hg1; cbn [negb].
  2:{ cbn [good]. split_and!.
      - eapply (Inv_refused h s (CSf o f)); try done.
        + apply elem_of_cons. by left.
        + repeat constructor.
        + intros k' c' H. mem H. by injection H.
      - done.
      - split; intros k'; [intros v'|]; intros H; mem H. injection H as -> ->. left. split; [done|]. inr. }
  destruct (get_seq_spec N (set_next s (S k)) sub1 s1 Hl Hg1) as (E1 & E2 & E3 & E4 & E5 & E6 & E7 & E8 & E9 & E10 & E11). cbn [slots poll ready sfs cq next nsf born set_next] in E1, E2, E3, E4, E5, E6, E7, E8.
  rewrite E7. set (i := nsf s).
  set (slr := Slot true false false (SfFile i) b2). set (slw := Slot false false false (User k) b3). set (slo := Slot true false false (SfSock i) b1).
  set (s3 := set_slot (set_slot (set_nsf s1 (S i)) f W slw) f R slr). set (s4 := put s3 (SOp f R k)).
  assert (forall y, ents s3 y = ents s y) as Hes3 by (intros y; exact (E10 y)).
  assert (ents s4 (f, R) = [k]) as He4.
  { unfold s4. rewrite ents_put; [by rewrite entof_eq|]. by rewrite Hes3. }
  assert (forall y, y <> (f, R) -> ents s4 y = ents s y) as Hes4.
  { intros y Hy. unfold s4. rewrite ents_put_ne by by apply entof_ne. by rewrite Hes3. }
  assert (lean s4) as Hl4.
  { intros y. destruct (decide (y = (f, R))) as [->|Hne]; [rewrite He4; cbn; lia|]. rewrite Hes4 by done. apply Hl. }
  assert (exists s5, get_seq N s4 true = Some s5) as [s5 Hg2].
  { unfold get_seq in Hg1 |- *. destruct (decide (length (sq s4) < N)%nat); [by eexists|]. destruct (decide (0 < N)%nat); [by eexists|].
    cbn in Hg1. destruct (decide (length (sq s) < N)%nat); [lia|]. by destruct sub1. }
  destruct (get_seq_spec N s4 true s5 Hl4 Hg2) as (F1 & F2 & F3 & F4 & F5 & F6 & F7 & F8 & F9 & F10 & F11).
  rewrite Hg2. rewrite F4.
  change (sfs s4) with (sfs s1). rewrite E4.
  set (xf := Sf o f true true 2 0 false k). set (s6 := set_sfs s5 (<[i:=xf]> (sfs s))). set (s' := put (set_slot s6 o W slo) (SOp o W k)).
  assert (slots s' = <[(o, W) := slo]> (<[(f, R) := slr]> (<[(f, W) := slw]> (slots s)))) as Hs'.
  { unfold s'. cbn. rewrite F1. cbn. by rewrite E1. }
  assert (poll s' = poll s) as Hpo2 by (unfold s'; cbn; by rewrite F2; cbn; rewrite E2).
  assert (ready s' = ready s) as Hre by (unfold s'; cbn; by rewrite F3; cbn; rewrite E3).
  assert (cq s' = cq s) as Hcq by (unfold s'; cbn; by rewrite F5; cbn; rewrite E5).
  assert (next s' = S k) as Hnx by (unfold s'; cbn; by rewrite F6; cbn; rewrite E6).
  assert (nsf s' = S i) as Hns by (unfold s'; cbn; by rewrite F7).
  assert (born s' = born s) as Hbo by (unfold s'; cbn; by rewrite F8; cbn; rewrite E8).
  assert (sfs s' = <[i := xf]> (sfs s)) as Hsf by done.
  assert (slots s' !! (o, W) = Some slo) as S1 by (rewrite Hs'; apply lookup_insert).
  assert (slots s' !! (f, R) = Some slr) as S2 by (rewrite Hs', lookup_insert_ne by done; apply lookup_insert).
  assert (slots s' !! (f, W) = Some slw) as S3.
  { rewrite Hs', lookup_insert_ne by congruence. rewrite lookup_insert_ne by done. apply lookup_insert. }
  assert (forall y, y <> (o, W) -> y <> (f, R) -> y <> (f, W) -> slots s' !! y = slots s !! y) as Sy.
  { intros y H1 H2 H3. rewrite Hs'. by rewrite !lookup_insert_ne. }
  assert (ents s' (o, W) = [k]) as Hes1.
  { unfold s'. rewrite ents_put; [by rewrite entof_eq|]. transitivity (ents s5 (o, W)); [done|]. by rewrite F10, Hes4. }
  assert (ents s' (f, R) = [k]) as Hes2.
  { unfold s'. rewrite ents_put_ne by (apply entof_ne; done). transitivity (ents s5 (f, R)); [done|]. by rewrite F10. }
  assert (forall y, y <> (o, W) -> y <> (f, R) -> ents s' y = ents s y) as Hesy.
  { intros y H1 H2. unfold s'. rewrite ents_put_ne by by apply entof_ne. transitivity (ents s5 y); [done|]. by rewrite F10, Hes4. }
  assert (SNull ∉ L s') as HL'.
  { unfold s'. apply SNull_put; [|done]. change (SNull ∉ L s5). apply F11. unfold s4. apply SNull_put; [|done]. change (SNull ∉ L s1). apply E11. apply (v_null _ _ (v_g _ _ HI)). }
  destruct (idle h s _ HI Ho1) as (_ & _ & I1). destruct (idle h s _ HI Ho2) as (_ & _ & I2). destruct (idle h s _ HI Ho3) as (_ & _ & I3).
  pose proof HI as [Hk Hs Hc Hg].
  assert (forall j xj, sfs s !! j = Some xj -> j <> i) as Hji.
  { intros j xj Hj ->. destruct (Hs i xj Hj) as (_ & _ & _ & _ & _ & _ & _ & _ & _ & _ & _ & P). unfold i in P. lia. }
  set (ob := [m; Pipe i]).
  assert (rets (h ++ ob) = rets h) as Hrr by (rewrite rets_app; cbn; by rewrite app_nil_r).
  assert (forall a, a ∈ h -> a ∈ h ++ ob) as Hin by (intros a Ha; by inl).
  cbn [good]. split_and!.
  - split.
    + intros y. destruct (decide (y = (o, W))) as [->|N1]; [|destruct (decide (y = (f, R))) as [->|N2]; [|destruct (decide (y = (f, W))) as [->|N3]]].
      * unfold PK. rewrite S1. cbn [rdy buf slo]. split_and!; [|done|].
        -- apply (ok_sock _ s' _ i xf); try done; [rewrite Hsf; apply lookup_insert|]. intros Hnull. destruct (Hbn1 Hnull) as [k' Hk']. by destruct (Hnw k').
        -- intros H. destruct (Hbn1 H) as [k' Hk']. exists k'. by apply Hin.
      * unfold PK. rewrite S2. cbn [rdy buf slr]. split_and!; [|done|].
        -- apply (ok_file _ s' _ i xf); try done; rewrite Hsf; apply lookup_insert.
        -- intros H. destruct (Hbn2 H) as [k' Hk']. exists k'. by apply Hin.
      * unfold PK. rewrite S3. cbn [rdy buf slw]. split_and!; [|done|].
        -- constructor. by rewrite Hesy.
        -- intros H. destruct (Hbn3 H) as [k' Hk']. exists k'. by apply Hin.
      * eapply (PK_frame h s); [apply Hk|by apply Sy|by apply Hesy|by rewrite Hpo2|done| |].
        -- intros. by rewrite Hrr.
        -- intros j xj Hj _. exists xj. rewrite Hsf, lookup_insert_ne; [done|]. intros <-. by eapply Hji.
    + intros j. destruct (decide (j = i)) as [->|Hne].
      * intros xj Hj. rewrite Hsf, lookup_insert in Hj. injection Hj as <-. unfold okfile, xf. cbn [f_call f_st f_file f_skip f_refs f_p0 f_p1 f_got].
        rewrite Hrr, Hpo2. split_and!; try done; try lia.
        -- unfold ob. inr.
        -- exists slw. done.
        -- exists slo. done.
        -- exists slr. done.
      * eapply (PS_frame h s); [apply Hs|by rewrite Hsf, lookup_insert_ne|unfold i in Hns; lia|done|].
        intros xj Hj. rewrite Hrr, Hpo2. destruct (Hs j xj Hj) as (_ & P & _). split_and!; try done.
        intros y Hy. apply Sy; intros ->; [by eapply I1|by eapply I2|by eapply I3].
    + intros k1 c [Hk1|Hk1]%elem_of_app Hk2; rewrite Hrr in Hk2.
      * specialize (Hc k1 c Hk1 Hk2).
        assert (forall y, busy_with s y (User k1) -> busy_with s' y (User k1)) as Hbw.
        { intros y (sl & Hsl & Hb & Hcb). exists sl. split; [|done]. rewrite Sy; [done| | |]; intros ->; rewrite Hsl in *;
            [injection Hso as ->|injection Hfr as ->|injection Hfw as ->]; done. }
        destruct c; cbn in *; [by apply Hbw..|]. destruct Hc as (j & xj & Hj & Q). exists j, xj. split; [|done].
        rewrite lookup_insert_ne; [done|]. intros <-. by eapply Hji.
      * mem Hk1. injection Hk1 as -> ->. cbn. exists i, xf. rewrite lookup_insert. done.
    + eapply (G_step h s ob s' (CSf o f)); try done.
      * repeat constructor.
      * intros k' c' H. mem H. injection H as -> ->. done.
      * rewrite Hnx. unfold k. lia.
      * by left.
      * intros y. destruct (decide (y = (o, W))) as [->|N1]; [rewrite S1, Hso; split; by eauto|].
        destruct (decide (y = (f, R))) as [->|N2]; [rewrite S2, Hfr; split; by eauto|].
        destruct (decide (y = (f, W))) as [->|N3]; [rewrite S3, Hfw; split; by eauto|]. by rewrite Sy.
      * intros a b H. left. by rewrite <- Hcq.
  - assert (forall o1 d1, fires s' o1 d1 = fires s o1 d1) as Hff.
    { intros o1 d1. unfold fires. destruct (decide ((o1, d1) = (o, W))) as [->|N1]; [by rewrite S1, Hso|].
      destruct (decide ((o1, d1) = (f, R))) as [->|N2]; [by rewrite S2, Hfr|].
      destruct (decide ((o1, d1) = (f, W))) as [->|N3]; [by rewrite S3, Hfw|]. by rewrite Sy. }
    intros o1. rewrite Hre, !Hff. apply HR.
  - split; intros k'; [intros v'|]; intros H; by mem H.
Qed.
