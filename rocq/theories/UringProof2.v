(** C57: the events on one side of an object. *)
From Verif Require Export UringProof.
Local Open Scope Z_scope.

Definition Vals (h o : list obs) : Prop :=
  (forall k v, Cb k v ∈ o -> retok (h ++ o) k v) /\ (forall k, Fail k ∈ o -> NoSqe k ∈ h ++ o).

Ltac inl := apply elem_of_app; left.
Ltac inr := apply elem_of_app; right; rewrite ?elem_of_cons, ?elem_of_nil; tauto.
Ltac mem H := repeat (apply elem_of_cons in H as [H|H]); [..|by apply elem_of_nil in H]; try discriminate H.

Lemma only_slot s o d sl : is_Some (slots s !! (o, d)) -> only s (set_slot s o d sl) (o, d).
Proof.
  intros H. split; try done; cbn.
  - intros y Hy. by rewrite lookup_insert_ne.
  - rewrite lookup_insert. split; eauto.
Qed.

(** the slot facts of a busy ready side *)
Lemma fires_cases h s o d : Inv h s -> fires s o d = true ->
  exists sl k, slots s !! (o, d) = Some sl /\ busy sl = true /\ cbk sl = User k /\ ents s (o, d) = [] /\ k ∉ rets h
  /\ (rdy sl = true -> o ∈ poll s)
  /\ ((exists b, sl = Slot true true false (User k) (rwbuf true b) /\ Made k (CRw o d b) ∈ h /\ o ∈ poll s)
      \/ (exists r, sl = Slot true r true (User k) BNone /\ Made k (CNext o d) ∈ h)).
Proof.
  intros [Hk _ _ _] Hf. specialize (Hk (o, d)). unfold PK in Hk. unfold fires in Hf.
  destruct (slots s !! (o, d)) as [sl|]; [|done]. destruct Hk as (Hok & Hp & _). cbn in Hp.
  destruct Hok as [r c b H1|k b H1 H2 H3|k H1 H2 H3 H4|k b H1 H2 H3|k r H1 H2 H3|i xf b H1 H2 H3 H4 H5|i xf b H1 H2 H3 H4]; cbn in Hf; try done.
  - eexists _, k. split_and!; try done. left. exists b. split_and!; try done. by apply Hp.
  - eexists _, k. split_and!; try done. right. by exists r.
Qed.

(** the call of side (o,d) returns: the side becomes idle *)
Lemma Inv_done h s o d sl sl' k c ob : Inv h s -> slots s !! (o, d) = Some sl -> busy sl = true -> cbk sl = User k ->
  ents s (o, d) = [] -> Made k c ∈ h -> uses c = [(o, d)] -> k ∉ rets h ->
  busy sl' = false -> rdy2 sl' = false -> rdy sl' = rdy sl -> buf sl' = buf sl ->
  Forall quiet ob -> (forall k' c', Made k' c' ∉ ob) -> rets ob = [k] -> Inv (h ++ ob) (set_slot s o d sl').
Proof.
  intros HI Hsl Hb Hc He Hm Hu Hk Hb' Hr2' Hr' Hbf Hq Hmo Hr. pose proof (v_key _ _ HI (o, d)) as Hx. unfold PK in Hx. rewrite Hsl in Hx.
  destruct Hx as (_ & Hp & Hbn).
  eapply (Inv_same h s _ (o, d) c k ob); try done.
  - apply only_slot. by rewrite Hsl.
  - by exists sl.
  - by right.
  - unfold PK. cbn. rewrite lookup_insert. destruct sl' as [b' r' r2' c' bf']. cbn in Hb', Hr2', Hr', Hbf. subst. split_and!.
    + by constructor.
    + done.
    + intros H. destruct (Hbn H) as [k' Hk']. exists k'. by inl.
Qed.

Lemma try_spec N h s o d att sub : Inv h s -> fires s o d = true ->
  exists s' ob, try_event N s o d att sub = Ok s' ob /\ Inv (h ++ ob) s' /\ only s s' (o, d) /\ ready s' = ready s
    /\ fires s' o d = false /\ Vals h ob.
Proof.
  intros HI Hf. destruct (fires_cases h s o d HI Hf) as (sl & k & Hsl & Hb & Hc & He & Hk & Hp & Hcase).
  assert (is_Some (slots s !! (o, d))) as Hso by (by rewrite Hsl).
  unfold try_event. rewrite Hsl. rewrite Hc.
  set (sl1 := Slot false (rdy sl) false (User k) (buf sl)).
  assert (forall c ob, Made k c ∈ h -> uses c = [(o, d)] -> Forall quiet ob -> (forall k' c', Made k' c' ∉ ob) -> rets ob = [k] ->
    Inv (h ++ ob) (set_slot s o d sl1)) as Hdone.
  { intros c ob Hm Hu Hq Hmo Hr. by eapply (Inv_done h s o d sl sl1 k c ob). }
  assert (fires (set_slot s o d sl1) o d = false) as Hf1 by (unfold fires; cbn; by rewrite lookup_insert).
  destruct Hcase as [(b & Esl & Hm & Hpo)|(r & Esl & Hm)].
  - subst sl. destruct b; cbn [buf rwbuf].
    + destruct att as [v|].
      * exists (set_slot s o d sl1), [Try k (Some v); Cb k v]. split_and!; try done.
        -- eapply Hdone; try done; [repeat constructor|]. intros k' c' H. by mem H.
        -- by apply only_slot.
        -- split.
           { intros k' v' H; mem H. injection H as -> ->. right. exists (CRw o d true). split; [by inl|]. right.
           split; [inl; by apply (v_poll _ _ (v_g _ _ HI))|]. inr. }
           intros k' H. by mem H.
      * set (sl2 := Slot false false false _ _).
        destruct (arm_spec N s o d k sl2 true sub (Inv_lean _ _ HI) He Hso eq_refl eq_refl) as (Q1 & Q2 & Q3 & Q4 & Q5 & Q6).
        destruct (arm N s o d k sl2 true sub) as [s' ob]. cbn [fst snd] in *. exists s', (Try k None :: ob). split_and!; try done.
        -- eapply (Inv_same h s s' (o, d) (CRw o d true) k); try done.
           ++ intros a. by rewrite Q3.
           ++ by eexists.
           ++ destruct Q6 as [(-> & _)|(-> & _)]; repeat constructor.
           ++ intros k' c' H. destruct Q6 as [(-> & _)|(-> & _)]; by mem H.
           ++ destruct Q6 as [(-> & Q6 & _)|(-> & _)]; [left|by right]. split; [done|]. by eexists.
           ++ unfold PK. destruct Q6 as [(-> & -> & Q7)|(-> & Q7 & b' & Hb' & ->)].
              ** cbn [rdy buf]. split_and!; [|done|done]. rewrite bool_decide_true by done.
                 pose proof (ok_fly_rw (h ++ [Try k None]) s' (o, d) k true Q7) as Hok. cbn [fst snd] in Hok.
                 rewrite bool_decide_true in Hok by (by rewrite (on_poll _ _ _ Q1)). apply Hok; [by inl|]. rewrite rets_app. cbn. by rewrite app_nil_r.
              ** cbn [rdy buf]. split_and!; [|done|done]. by constructor.
        -- unfold fires. by destruct Q6 as [(_ & -> & _)|(_ & _ & b' & _ & ->)].
        -- split.
           { intros k' v' H. destruct Q6 as [(-> & _)|(-> & _)]; mem H. injection H as -> ->. left. split; [done|]. inr. }
           intros k' H. destruct Q6 as [(-> & _)|(-> & _)]; by mem H.
    + exists (set_slot s o d sl1), [Cb k 0]. split_and!; try done.
      * eapply Hdone; try done; [repeat constructor|]. intros k' c' H. by mem H.
      * by apply only_slot.
      * split.
        { intros k' v' H; mem H. injection H as -> ->. right. exists (CRw o d false). split; [by inl|]. right.
        split; [inl; by apply (v_poll _ _ (v_g _ _ HI))|done]. }
        intros k' H. by mem H.
  - subst sl. cbn [buf]. exists (set_slot s o d sl1), [Cb k 0]. split_and!; try done.
    + eapply Hdone; try done; [repeat constructor|]. intros k' c' H. by mem H.
    + by apply only_slot.
    + split.
      { intros k' v' H; mem H. injection H as -> ->. right. exists (CNext o d). split; [by inl|done]. }
      intros k' H. by mem H.
Qed.

(** ** starting operations *)
Definition good (h : list obs) (r : res st (list obs)) : Prop :=
  match r with Disabled => True | Crash => False | Ok s' ob => Inv (h ++ ob) s' /\ Rdy s' /\ Vals h ob end.

Lemma fires_only s s' o d o1 d1 : only s s' (o, d) -> (o1, d1) <> (o, d) -> fires s' o1 d1 = fires s o1 d1.
Proof. intros H Hne. unfold fires. by rewrite (on_slots _ _ _ H). Qed.
Lemma rdy_keep s s' o d : Rdy s -> only s s' (o, d) -> ready s' = ready s -> fires s o d = false -> fires s' o d = false -> Rdy s'.
Proof.
  intros H Hon Hr H1 H2. assert (forall o1 d1, fires s' o1 d1 = fires s o1 d1) as Hf.
  { intros o1 d1. destruct (decide ((o1, d1) = (o, d))) as [[= -> ->]|Hne]; [congruence|by eapply fires_only]. }
  intros o1. rewrite Hr, !Hf. apply H.
Qed.
Lemma rdy_add s s' o d : Rdy s -> only s s' (o, d) -> ready s' = {[o]} ∪ ready s -> fires s' o d = true -> Rdy s'.
Proof.
  intros H Hon Hr H2 o1. rewrite Hr, elem_of_union, elem_of_singleton, (H o1).
  destruct (decide (o1 = o)) as [->|Hne].
  - split; [intros _|by left]. destruct d; auto.
  - rewrite !(fires_only s s' o d) by (done || congruence). split; [intros [?|?]; done|by right].
Qed.
Lemma Inv_ready h s x : Inv h s -> Inv h (set_ready s x).
Proof.
  intros HI. rewrite <- (app_nil_r h). eapply (Inv_move h s); try done.
  - apply (v_null _ _ (v_g _ _ HI)).
  - intros k c H. by apply elem_of_nil in H.
  - intros a b H. by left.
Qed.
Lemma only_ready s s' x y : only s s' y -> only s (set_ready s' x) y.
Proof. intros [H1 H2 H3 H4 H5 H6 H7 H8]. by split. Qed.
Lemma only_next s s' x y : only (set_next s x) s' y -> only s s' y.
Proof. intros [H1 H2 H3 H4 H5 H6 H7 H8]. by split. Qed.

Lemma slot_of h s o d : Inv h s -> live h o -> exists sl, slots s !! (o, d) = Some sl.
Proof. intros HI Hl. by apply (v_live _ _ (v_g _ _ HI)). Qed.
(** an idle side: its slot *)
Lemma idle_slot h s o d sl : Inv h s -> ~ out h (o, d) -> slots s !! (o, d) = Some sl ->
  exists r c b, sl = Slot false r false c b /\ (r = true -> o ∈ poll s) /\ (b = BNull -> exists k, Made k (CRw o d false) ∈ h)
  /\ ents s (o, d) = [] /\ fires s o d = false.
Proof.
  intros HI Ho Hsl. destruct (idle h s (o, d) HI Ho) as (He & Hb & _). destruct (Hb sl Hsl) as [H1 H2].
  pose proof (v_key _ _ HI (o, d)) as Hx. unfold PK in Hx. rewrite Hsl in Hx. destruct Hx as (_ & Hp & Hbn).
  destruct sl as [b r r2 c bf]. cbn in *. subst. exists r, c, bf. split_and!; try done. unfold fires. by rewrite Hsl.
Qed.

Lemma start_rw_good N h s o d b main att sub : Inv h s -> Rdy s -> live h o -> ~ out h (o, d) -> good h (start_rw N s o d b main att sub).
Proof.
  intros HI HR Hlv Ho. destruct (slot_of h s o d HI Hlv) as [sl Hsl].
  destruct (idle_slot h s o d sl HI Ho Hsl) as (r & c & bf & -> & Hrp & Hbn & He & Hf).
  unfold start_rw. rewrite Hsl. cbn [busy rdy rdy2]. set (k := next s). set (m := Made k (CRw o d b)).
  assert (k ∉ rets h) as Hkr by (intros H; apply (v_ret _ _ (v_g _ _ HI)) in H; unfold k in H; lia).
  assert (is_Some (slots s !! (o, d))) as Hso by by rewrite Hsl.
  case_decide as Hd; cbn [poll set_next] in Hd.
  - destruct Hd as [Hpo ->].
    set (s1 := set_slot (set_next s (S k)) o d (Slot true true false (User k) (if b then BUser else BNone))).
    assert (only s s1 (o, d)) as Hon by (apply (only_next s s1 (S k)); by apply only_slot).
    assert (fires s1 o d = true) as Hf1 by (unfold fires, s1; cbn; by rewrite lookup_insert).
    assert (Inv (h ++ [m]) s1) as HI1.
    { eapply (Inv_new h s s1 (o, d) (CRw o d b)); try done.
      - by apply elem_of_list_singleton.
      - repeat constructor.
      - intros k' c' H. apply elem_of_list_singleton in H. by injection H.
      - left. split; [done|]. eexists. split; [cbn; apply lookup_insert|done].
      - unfold PK. cbn [slots s1 set_slot set_slots set_next]. rewrite lookup_insert. cbn [rdy buf]. split_and!.
        + apply (ok_rdy _ _ _ k b); [done|inr|]. by rewrite rets_app, app_nil_r.
        + done.
        + by destruct b. }
    destruct main.
    + cbn. split_and!.
      * by apply Inv_ready.
      * eapply (rdy_add s _ o d); try done. by apply only_ready.
      * split; intros k'; [intros v'|]; intros H; by mem H.
    + destruct (try_spec N (h ++ [m]) s1 o d att sub HI1 Hf1) as (s' & ob & -> & HI2 & Hon2 & Hr2 & Hf2 & Hv1 & Hv2). cbn.
      rewrite <- app_assoc in HI2. split_and!; [done| |].
      * intros o1. rewrite Hr2. cbn. rewrite (HR o1).
        assert (forall d1, fires s' o1 d1 = fires s o1 d1) as Hff.
        { intros d1. destruct (decide ((o1, d1) = (o, d))) as [[= -> ->]|Hne]; [congruence|].
          rewrite (fires_only s1 s' o d) by done. by apply (fires_only s s1 o d). }
        by rewrite !Hff.
      * split; intros k'; [intros v'|]; intros H; apply elem_of_cons in H as [H|H]; try discriminate H.
        -- specialize (Hv1 k' v' H). by rewrite <- app_assoc in Hv1.
        -- specialize (Hv2 k' H). by rewrite <- app_assoc in Hv2.
  - assert (r = false) as -> by (destruct r; [destruct Hd; auto|done]).
    set (sl := Slot false false false c bf).
    destruct (arm_spec N (set_next s (S k)) o d k sl b sub (Inv_lean _ _ HI) He Hso eq_refl eq_refl) as (Q1 & Q2 & Q3 & Q4 & Q5 & Q6).
    apply only_next in Q1. destruct (arm N _ o d k sl b sub) as [s' ob]. cbn [fst snd] in *. cbn [good]. split_and!.
    + eapply (Inv_new h s s' (o, d) (CRw o d b)); try done.
      * apply elem_of_cons. by left.
      * destruct Q6 as [(-> & _)|(-> & _)]; repeat constructor.
      * intros k' c' H. destruct Q6 as [(-> & _)|(-> & _)]; mem H; by injection H.
      * destruct Q6 as [(-> & Q6 & _)|(-> & _)]; [left|by right]. split; [done|]. by eexists.
      * unfold PK. destruct Q6 as [(-> & -> & Q7)|(-> & Q7 & b' & Hb' & ->)]; cbn [rdy buf]; split_and!; try done.
        -- cbn [poll set_next]. rewrite <- (on_poll _ _ _ Q1). apply (ok_fly_rw _ s' (o, d)); [done|inr|]. by rewrite rets_app, app_nil_r.
        -- intros Hnull. exists k. destruct b; [done|]. inr.
        -- by constructor.
    + eapply (rdy_keep s s' o d); try done. unfold fires. by destruct Q6 as [(_ & -> & _)|(_ & _ & b' & _ & ->)].
    + split.
      * intros k' v' H. destruct Q6 as [(-> & _)|(-> & _)]; mem H. injection H as -> ->. left. split; [done|]. inr.
      * intros k' H. destruct Q6 as [(-> & _)|(-> & _)]; by mem H.
Qed.

Lemma start_plain_good N h s o d sub : Inv h s -> Rdy s -> live h o -> ~ out h (o, d) -> Polled o ∉ h -> good h (start_plain N s o d sub).
Proof.
  intros HI HR Hlv Ho Hnp. destruct (slot_of h s o d HI Hlv) as [sl Hsl].
  destruct (idle_slot h s o d sl HI Ho Hsl) as (r & c & bf & -> & Hrp & Hbn & He & Hf).
  assert (o ∉ poll s) as Hnp' by (by rewrite (v_poll _ _ (v_g _ _ HI))).
  assert (r = false) as -> by (destruct r; [destruct Hnp'; auto|done]).
  unfold start_plain. rewrite Hsl. cbn [busy rdy rdy2]. set (k := next s). set (m := Made k (CPlain o d)).
  assert (k ∉ rets h) as Hkr by (intros H; apply (v_ret _ _ (v_g _ _ HI)) in H; unfold k in H; lia).
  assert (is_Some (slots s !! (o, d))) as Hso by by rewrite Hsl.
  destruct (get_seq N (set_next s (S k)) sub) as [s1|] eqn:Hg; cbn [good].
  - set (sl2 := Slot true false false (User k) BNone).
    destruct (queue_spec N (set_next s (S k)) sub s1 o d k sl2 (Inv_lean _ _ HI) Hg He Hso) as (Q1 & Q2 & Q3 & Q4 & Q5 & Q6 & Q7 & _).
    apply only_next in Q1. set (s' := put _ _) in *. split_and!.
    + eapply (Inv_new h s s' (o, d) (CPlain o d)); try done.
      * by apply elem_of_list_singleton.
      * repeat constructor.
      * intros k' c' H. mem H. by injection H.
      * left. split; [done|]. eexists. rewrite Q5. split; [apply lookup_insert|done].
      * unfold PK. rewrite Q5, lookup_insert. cbn [rdy buf]. split_and!; try done. apply ok_fly_pl; [done|inr|by rewrite rets_app, app_nil_r|].
        by rewrite (on_poll _ _ _ Q1).
    + eapply (rdy_keep s s' o d); try done. unfold fires. by rewrite Q5, lookup_insert.
    + split; intros k'; [intros v'|]; intros H; by mem H.
  - split_and!.
    + eapply (Inv_new h s (set_next s (S k)) (o, d) (CPlain o d)); try done.
      * apply elem_of_cons. by left.
      * repeat constructor.
      * intros k' c' H. mem H. by injection H.
      * by right.
      * unfold PK. cbn [slots set_next]. rewrite Hsl. cbn [rdy buf]. split_and!; try done; [by constructor|].
        intros H. destruct (Hbn H) as [k' Hk']. exists k'. by inl.
    + done.
    + split; intros k'; [intros v'|]; intros H; mem H. injection H as ->. inr.
Qed.

Lemma start_next_good h s o d : Inv h s -> Rdy s -> live h o -> ~ out h (o, d) -> good h (start_next s o d).
Proof.
  intros HI HR Hlv Ho. destruct (slot_of h s o d HI Hlv) as [sl Hsl].
  destruct (idle_slot h s o d sl HI Ho Hsl) as (r & c & bf & -> & Hrp & Hbn & He & Hf).
  unfold start_next. rewrite Hsl. cbn [busy rdy rdy2 orb]. set (k := next s). set (m := Made k (CNext o d)).
  assert (k ∉ rets h) as Hkr by (intros H; apply (v_ret _ _ (v_g _ _ HI)) in H; unfold k in H; lia).
  assert (is_Some (slots s !! (o, d))) as Hso by by rewrite Hsl.
  set (s1 := set_slot (set_next s (S k)) o d (Slot true r true (User k) BNone)).
  assert (only s s1 (o, d)) as Hon by (apply (only_next s s1 (S k)); by apply only_slot).
  cbn [good]. split_and!.
  - apply Inv_ready. eapply (Inv_new h s s1 (o, d) (CNext o d)); try done.
    + by apply elem_of_list_singleton.
    + repeat constructor.
    + intros k' c' H. mem H. by injection H.
    + left. split; [done|]. eexists. split; [cbn; apply lookup_insert|done].
    + unfold PK. cbn [slots s1 set_slot set_slots set_next]. rewrite lookup_insert. cbn [rdy buf]. split_and!; try done.
      apply ok_next; [done|inr|]. by rewrite rets_app, app_nil_r.
  - eapply (rdy_add s _ o d); try done; [by apply only_ready|]. unfold fires. cbn. rewrite lookup_insert. cbn. apply orb_true_r.
  - split; intros k'; [intros v'|]; intros H; by mem H.
Qed.
