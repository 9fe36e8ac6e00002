(** C57: the remaining events and the whole step. *)
From Verif Require Export UringProof4.
Local Open Scope Z_scope.

Lemma Vals_nil h : Vals h [].
Proof. split; intros k; [intros v|]; intros H; by apply elem_of_nil in H. Qed.
Lemma not_made_nil k c : Made k c ∉ [].
Proof. intros H. by apply elem_of_nil in H. Qed.

Lemma select_good N h s ok : Inv h s -> Rdy s -> (0 < N)%nat -> good h (act N s (Select true ok)).
Proof.
  intros HI HR HN. pose proof (Inv_lean _ _ HI) as Hl. cbn [act].
  destruct (get_seq N s true) as [s1|] eqn:Hg.
  2:{ unfold get_seq in Hg. destruct (decide _); [done|]. by rewrite decide_True in Hg. }
  destruct (get_seq_spec N s true s1 Hl Hg) as (E1 & E2 & E3 & E4 & E5 & E6 & E7 & E8 & E9 & E10 & E11).
  set (s2 := put s1 STmo). set (s3 := if ok then submit s2 else s2).
  assert (slots s3 = slots s /\ poll s3 = poll s /\ sfs s3 = sfs s /\ next s3 = next s /\ nsf s3 = nsf s /\ born s3 = born s /\ ready s3 = ready s /\ cq s3 = cq s)
    as (F1 & F2 & F3 & F4 & F5 & F6 & F7 & F8) by (unfold s3; destruct ok; cbn; auto 10).
  assert (forall x, ents s2 x = ents s x) as He2.
  { intros x. unfold s2. rewrite ents_put_ne by done. apply E10. }
  assert (SNull ∉ L s2) as HL2 by (apply SNull_put; [apply E11, (v_null _ _ (v_g _ _ HI))|done]).
  cbn [good]. split_and!; [|intros o|apply Vals_nil].
  - eapply (Inv_move h s); try done.
    + intros x. unfold s3. destruct ok; rewrite ?ents_submit, He2; done.
    + unfold s3. destruct ok; [by rewrite L_submit|done].
    + intros k c. apply not_made_nil.
    + intros a b H. left. by rewrite <- F8.
  - rewrite F7. unfold fires. rewrite F1. apply HR.
Qed.

Lemma kdone_good N h s n v : Inv h s -> Rdy s -> good h (act N s (KDone n v)).
Proof.
  intros HI HR. cbn [act]. destruct (infl s !! n) as [e|] eqn:Hn; [|done]. cbn [good].
  set (s' := set_cq _ _). set (ob := match e with SOp o d k => [KRes k o d v] | _ => [] end).
  assert (L s' ≡ₚ L s) as HL.
  { unfold L, s'. cbn. rewrite fmap_app. cbn. apply Permutation_app_head. transitivity ((e :: delete n (infl s)) ++ (cq s).*1).
    - rewrite app_assoc. by rewrite <- Permutation_cons_append.
    - apply Permutation_app_tail. symmetry. by apply delete_Permutation. }
  split_and!.
  - eapply (Inv_move h s); try done.
    + intros x. unfold ents. by apply omap_Permutation.
    + rewrite HL. apply (v_null _ _ (v_g _ _ HI)).
    + unfold ob. destruct e; repeat constructor.
    + intros k c H. unfold ob in H. destruct e; [by apply elem_of_nil in H|by apply elem_of_nil in H|by mem H].
    + unfold ob. by destruct e.
    + intros a b H. cbn in H. apply elem_of_app in H as [H|H]; [by left|]. apply elem_of_list_singleton in H as [= -> ->].
      right. unfold ob. destruct e; try done. by apply elem_of_list_singleton.
  - done.
  - split; intros k; [intros v'|]; intros H; unfold ob in H; destruct e; (by apply elem_of_nil in H) || by mem H.
Qed.

Lemma reap_all_good N h s : Inv h s -> Rdy s -> good h (act N s Reap).
Proof.
  intros HI HR. cbn [act]. destruct (cq s) as [|[e v] c] eqn:Hc; [done|]. destruct e as [| |o d k].
  - cbn [good]. split_and!; [|done|apply Vals_nil]. eapply (Inv_move h s); try done.
    + intros x. unfold ents, L. cbn. rewrite Hc. cbn. rewrite !omap_app. done.
    + eapply (SNull_pop s); [done|apply (v_null _ _ (v_g _ _ HI))].
    + intros k c'. apply not_made_nil.
    + intros a b H. left. rewrite Hc. by right.
  - cbn. destruct (v_null _ _ (v_g _ _ HI)). unfold L. rewrite Hc. cbn. rewrite !elem_of_app, elem_of_cons. auto.
  - by eapply reap_good.
Qed.

(** objects are created, switched to the poll model, destroyed: the calls are not affected *)
Lemma rets_quiet h a : retof a = None -> rets (h ++ [a]) = rets h.
Proof. intros H. rewrite rets_app. cbn. rewrite H. apply app_nil_r. Qed.

Lemma new_good N h s o : Inv h s -> Rdy s -> good h (act N s (New o)).
Proof.
  intros HI HR. cbn [act]. case_decide as Hb; [done|]. cbn [good].
  pose proof HI as [Hk Hs Hc Hg].
  assert (Born o ∉ h) as Hnb by (by rewrite <- (v_born _ _ Hg)).
  assert (forall d, slots s !! (o, d) = None) as Hno.
  { intros d. destruct (slots s !! (o, d)) eqn:E; [|done]. destruct Hnb. apply (v_live _ _ Hg o d). by rewrite E. }
  assert (forall d, ents s (o, d) = []) as Hne by (intros d; specialize (Hk (o, d)); unfold PK in Hk; by rewrite Hno in Hk).
  set (s' := set_slots _ _). assert (forall y, y.1 <> o -> slots s' !! y = slots s !! y) as Hsy.
  { intros [o1 d1] Hy. cbn in *. rewrite !lookup_insert_ne by congruence. done. }
  assert (forall d, slots s' !! (o, d) = Some slot0) as Hso.
  { intros d. cbn. destruct d; [by rewrite lookup_insert|by rewrite lookup_insert_ne, lookup_insert by done]. }
  assert (rets (h ++ [Born o]) = rets h) as Hrr by by apply rets_quiet.
  assert (forall a, a ∈ h -> a ∈ h ++ [Born o]) as Hin by (intros a Ha; by inl).
  split_and!.
  - split.
    + intros [o1 d1]. destruct (decide (o1 = o)) as [->|Ho1].
      * unfold PK. rewrite Hso. cbn. split_and!; [|done|done]. constructor. by apply Hne.
      * eapply (PK_frame h s); [apply Hk|by apply Hsy|done|done|done|by intros; rewrite Hrr|]. intros i xf Hi _. by exists xf.
    + intros i. eapply (PS_frame h s); [apply Hs|done|done|done|]. intros xf Hi. rewrite Hrr.
      destruct (Hs i xf Hi) as (P1 & P2 & P3 & P4 & P5 & P6 & P7 & P8 & P9 & P10 & P11 & P12). split_and!; try done.
      assert (f_file xf <> o) as Hf by (intros E; rewrite E in P9; destruct P9 as (sl & Hsl & _); by rewrite Hno in Hsl).
      assert (f_st xf <> o) as Hst.
      { intros E. rewrite E in P10. destruct (f_p0 xf); [destruct P10 as (sl & Hsl & _); by rewrite Hno in Hsl|].
        destruct P10 as [(sl & Hsl & _) _]; by rewrite Hno in Hsl. }
      intros y Hy. apply Hsy. cbn in Hy. rewrite !elem_of_cons, elem_of_nil in Hy. destruct Hy as [->|[->|[->|[]]]]; done.
    + intros k c [Hk1|Hk1]%elem_of_app Hk2; [|by mem Hk1]. rewrite Hrr in Hk2. specialize (Hc k c Hk1 Hk2).
      assert (forall o1 d1, busy_with s (o1, d1) (User k) -> busy_with s' (o1, d1) (User k)) as Hbw.
      { intros o1 d1 (sl & Hsl & Hq). exists sl. rewrite Hsy; [done|]. cbn. intros ->. by rewrite Hno in Hsl. }
      destruct c; cbn in *; [by apply Hbw..|done].
    + destruct Hg as [G1 G2 G3 G4 G5 G6 G7 G8 G9 G10 G11]. split; try done.
      * intros o1 d1. destruct (decide (o1 = o)) as [->|Ho1].
        -- rewrite Hso. split; [|by eauto]. intros _. split; [inr|]. intros [H|H]%elem_of_app; [by apply Hnb, G10|by mem H].
        -- rewrite Hsy by done. rewrite G1. unfold live. rewrite !elem_of_app, !elem_of_list_singleton. naive_solver.
      * intros o1. cbn. rewrite G2, elem_of_app, elem_of_list_singleton. naive_solver.
      * intros o1. cbn. rewrite elem_of_union, elem_of_singleton, G3, elem_of_app, elem_of_list_singleton. naive_solver.
      * intros k c [H|H]%elem_of_app; [by eapply G5|by mem H].
      * intros k c c' [H|H]%elem_of_app [H'|H']%elem_of_app; [by eapply G6|by mem H'|by mem H|by mem H].
      * intros k. rewrite Hrr. apply G7.
      * by rewrite Hrr.
      * intros o1 d k v H. inl. by apply G9.
      * intros o1 [H|H]%elem_of_app; [inl; by apply G10|by mem H].
      * intros o1 [H|H]%elem_of_app; [inl; by apply G11|by mem H].
  - intros o1. cbn [ready s' set_slots set_born]. rewrite (HR o1). unfold fires. destruct (decide (o1 = o)) as [->|Ho1].
    + rewrite !Hso, !Hno. done.
    + rewrite !Hsy by done. done.
  - split; intros k; [intros v'|]; intros H; by mem H.
Qed.

Lemma setpoll_good N h s o : Inv h s -> Rdy s -> live h o -> ~ out h (o, R) -> ~ out h (o, W) -> good h (act N s (SetPoll o)).
Proof.
  intros HI HR Hlv Hr Hw. cbn [act good]. set (s' := set_poll _ _). pose proof HI as [Hk Hs Hc Hg].
  assert (forall d, ~ out h (o, d)) as Hout by by intros [].
  assert (rets (h ++ [Polled o]) = rets h) as Hrr by by apply rets_quiet.
  assert (forall a, a ∈ h -> a ∈ h ++ [Polled o]) as Hin by (intros a Ha; by inl).
  assert (forall o1, o1 <> o -> o1 ∈ poll s' <-> o1 ∈ poll s) as Hpo by (intros o1 Ho1; cbn; rewrite elem_of_union, elem_of_singleton; naive_solver).
  split_and!.
  - split.
    + intros [o1 d1]. destruct (decide (o1 = o)) as [->|Ho1].
      * destruct (slot_of h s o d1 HI Hlv) as [sl Hsl]. destruct (idle_slot h s o d1 sl HI (Hout d1) Hsl) as (r & c & b & -> & _ & Hb & He & _).
        unfold PK. cbn [slots s' set_poll]. rewrite Hsl. cbn [rdy buf fst snd]. split_and!.
        -- by constructor.
        -- intros _. cbn. set_solver.
        -- intros H. destruct (Hb H) as [k' Hk']. exists k'. by inl.
      * eapply (PK_frame h s); [apply Hk|done|done|by apply Hpo|done|by intros; rewrite Hrr|]. intros i xf Hi _. by exists xf.
    + intros i. eapply (PS_frame h s); [apply Hs|done|done|done|]. intros xf Hi. rewrite Hrr.
      destruct (Hs i xf Hi) as (P1 & P2 & P3 & P4 & P5 & P6 & P7 & P8 & P9 & P10 & P11 & P12).
      assert (f_st xf <> o) as H1.
      { intros E. apply Hw. exists (f_call xf), (CSf (f_st xf) (f_file xf)). split_and!; try done. cbn. rewrite E. left. }
      assert (f_file xf <> o) as H2.
      { intros E. apply Hr. exists (f_call xf), (CSf (f_st xf) (f_file xf)). split_and!; try done. cbn. rewrite E. right. left. }
      rewrite !Hpo by done. done.
    + intros k c [Hk1|Hk1]%elem_of_app Hk2; [|by mem Hk1]. rewrite Hrr in Hk2. specialize (Hc k c Hk1 Hk2). by destruct c.
    + destruct Hg as [G1 G2 G3 G4 G5 G6 G7 G8 G9 G10 G11]. split; try done.
      * intros o1 d1. cbn. rewrite G1. unfold live. rewrite !elem_of_app, !elem_of_list_singleton. naive_solver.
      * intros o1. cbn. rewrite elem_of_union, elem_of_singleton, G2, elem_of_app, elem_of_list_singleton. naive_solver.
      * intros o1. cbn. rewrite G3, elem_of_app, elem_of_list_singleton. naive_solver.
      * intros k c [H|H]%elem_of_app; [by eapply G5|by mem H].
      * intros k c c' [H|H]%elem_of_app [H'|H']%elem_of_app; [by eapply G6|by mem H'|by mem H|by mem H].
      * intros k. rewrite Hrr. apply G7.
      * by rewrite Hrr.
      * intros o1 d k v H. inl. by apply G9.
      * intros o1 [H|H]%elem_of_app; [inl; by apply G10|by mem H].
      * intros o1 [H|H]%elem_of_app; [inl; by apply G11|]. mem H. injection H as ->. inl. apply Hlv.
  - done.
  - split; intros k; [intros v'|]; intros H; by mem H.
Qed.

Lemma free_good N h s o : Inv h s -> Rdy s -> live h o -> ~ out h (o, R) -> ~ out h (o, W) -> good h (act N s (Free o)).
Proof.
  intros HI HR Hlv Hr Hw. cbn [act]. pose proof HI as [Hk Hs Hc Hg].
  destruct (slot_of h s o R HI Hlv) as [a Ha]. destruct (slot_of h s o W HI Hlv) as [b Hb].
  destruct (idle_slot h s o R a HI Hr Ha) as (r1 & c1 & b1 & -> & _ & _ & He1 & Hf1).
  destruct (idle_slot h s o W b HI Hw Hb) as (r2 & c2 & b2 & -> & _ & _ & He2 & Hf2).
  rewrite Ha, Hb. cbn [busy orb]. rewrite bool_decide_false by (rewrite (HR o), Hf1, Hf2; naive_solver).
  cbn [good]. set (s' := set_slots _ _).
  assert (forall y, y.1 <> o -> slots s' !! y = slots s !! y) as Hsy.
  { intros [o1 d1] Hy. cbn in *. rewrite !lookup_delete_ne by congruence. done. }
  assert (forall d, slots s' !! (o, d) = None) as Hso.
  { intros d. cbn. destruct d; [by rewrite lookup_delete|by rewrite lookup_delete_ne, lookup_delete by done]. }
  assert (rets (h ++ [Dead o]) = rets h) as Hrr by by apply rets_quiet.
  assert (forall a, a ∈ h -> a ∈ h ++ [Dead o]) as Hin by (intros x Hx; by inl).
  split_and!.
  - split.
    + intros [o1 d1]. destruct (decide (o1 = o)) as [->|Ho1].
      * unfold PK. rewrite Hso. by destruct d1.
      * eapply (PK_frame h s); [apply Hk|by apply Hsy|done|done|done|by intros; rewrite Hrr|]. intros i xf Hi _. by exists xf.
    + intros i. eapply (PS_frame h s); [apply Hs|done|done|done|]. intros xf Hi. rewrite Hrr.
      destruct (Hs i xf Hi) as (P1 & P2 & P3 & P4 & P5 & P6 & P7 & P8 & P9 & P10 & P11 & P12).
      assert (f_st xf <> o) as H1.
      { intros E. apply Hw. exists (f_call xf), (CSf (f_st xf) (f_file xf)). split_and!; try done. cbn. rewrite E. left. }
      assert (f_file xf <> o) as H2.
      { intros E. apply Hr. exists (f_call xf), (CSf (f_st xf) (f_file xf)). split_and!; try done. cbn. rewrite E. right. left. }
      split_and!; try done. intros y Hy. apply Hsy. cbn in Hy. rewrite !elem_of_cons, elem_of_nil in Hy. destruct Hy as [->|[->|[->|[]]]]; done.
    + intros k c [Hk1|Hk1]%elem_of_app Hk2; [|by mem Hk1]. rewrite Hrr in Hk2. specialize (Hc k c Hk1 Hk2).
      assert (forall o1 d1, busy_with s (o1, d1) (User k) -> busy_with s' (o1, d1) (User k)) as Hbw.
      { intros o1 d1 (sl & Hsl & Hq & Hq'). exists sl. rewrite Hsy; [done|]. cbn. intros ->. destruct d1; congruence || (rewrite Hsl in *; naive_solver). }
      destruct c; cbn in *; [by apply Hbw..|done].
    + destruct Hg as [G1 G2 G3 G4 G5 G6 G7 G8 G9 G10 G11]. split; try done.
      * intros o1 d1. destruct (decide (o1 = o)) as [->|Ho1].
        -- rewrite Hso. split; [by intros []|]. intros [_ H]. destruct H. inr.
        -- rewrite Hsy by done. rewrite G1. unfold live. rewrite !elem_of_app, !elem_of_list_singleton. naive_solver.
      * intros o1. cbn. rewrite G2, elem_of_app, elem_of_list_singleton. naive_solver.
      * intros o1. cbn. rewrite G3, elem_of_app, elem_of_list_singleton. naive_solver.
      * intros k c [H|H]%elem_of_app; [by eapply G5|by mem H].
      * intros k c c' [H|H]%elem_of_app [H'|H']%elem_of_app; [by eapply G6|by mem H'|by mem H|by mem H].
      * intros k. rewrite Hrr. apply G7.
      * by rewrite Hrr.
      * intros o1 d k v H. inl. by apply G9.
      * intros o1 [H|H]%elem_of_app; [inl; by apply G10|]. mem H. injection H as ->. inl. apply Hlv.
      * intros o1 [H|H]%elem_of_app; [inl; by apply G11|by mem H].
  - intros o1. cbn [ready s' set_slots]. rewrite (HR o1). unfold fires. destruct (decide (o1 = o)) as [->|Ho1].
    + rewrite !Hso. rewrite Ha, Hb. done.
    + rewrite !Hsy by done. done.
  - split; intros k; [intros v'|]; intros H; by mem H.
Qed.

Lemma act_good N h s e : (0 < N)%nat -> Inv h s -> Rdy s -> permitted h e -> good h (act N s e).
Proof.
  intros HN HI HR Hp. destruct e; cbn [permitted] in Hp.
  - by apply new_good.
  - destruct Hp as (? & ? & ?). by apply setpoll_good.
  - destruct Hp as (? & ? & ?). by apply free_good.
  - destruct Hp as (? & ?). by apply start_rw_good.
  - destruct Hp as (? & ? & ?). by apply start_plain_good.
  - destruct Hp as (? & ?). by apply start_next_good.
  - destruct Hp as (? & ? & ? & ? & ? & ? & ? & ? & ? & -> & ->). by apply sendfile_good.
  - subst. by apply select_good.
  - by apply kdone_good.
  - by apply reap_all_good.
  - cbn [act]. case_decide; [|done]. by apply pump_good.
Qed.

Definition J (s : st) : Prop := Inv (hist s) s /\ Rdy s.
Lemma J_init : J init.
Proof.
  split.
  - split.
    + intros x. done.
    + intros i xf H. cbn in H. by rewrite lookup_empty in H.
    + intros k c H. by apply elem_of_nil in H.
    + split; cbn.
      * intros o d. rewrite lookup_empty. split; [by intros []|]. intros [H _]. by apply elem_of_nil in H.
      * intros o. split; [set_solver|]. intros H. by apply elem_of_nil in H.
      * intros o. split; [set_solver|]. intros H. by apply elem_of_nil in H.
      * by intros H%elem_of_nil.
      * by intros k c H%elem_of_nil.
      * by intros k c c' H%elem_of_nil.
      * by intros k H%elem_of_nil.
      * constructor.
      * by intros o d k v H%elem_of_nil.
      * by intros o H%elem_of_nil.
      * by intros o H%elem_of_nil.
  - intros o. unfold fires. cbn. rewrite !lookup_empty. split; [set_solver|]. by intros [?|?].
Qed.
Lemma Inv_hist h s x : Inv h s -> Inv h (set_hist s x).
Proof.
  intros HI. rewrite <- (app_nil_r h). eapply (Inv_move h s); try done.
  - apply (v_null _ _ (v_g _ _ HI)).
  - intros k c H. by apply elem_of_nil in H.
  - intros a b H. by left.
Qed.
Lemma J_step N s e : (0 < N)%nat -> J s -> permitted (hist s) e ->
  match step N s e with Disabled => True | Crash => False
  | Ok s' o => J s' /\ hist s' = hist s ++ o /\ Vals (hist s) o end.
Proof.
  intros HN [HI HR] Hp. pose proof (act_good N (hist s) s e HN HI HR Hp) as Hg. unfold step. destruct (act N s e) as [| |s' o]; cbn in *; try done.
  destruct Hg as (H1 & H2 & H3). split_and!; [split; [by apply Inv_hist|done]|done|done].
Qed.
