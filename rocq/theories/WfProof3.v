(** Proofs for C72: the effects of the steps, continued. *)
From Verif Require Import WfModel WfSpec WfProof WfProof2.
Local Open Scope Z_scope.

Lemma job_fun (l : list (nat * option Z)) f x y : NoDup (fst <$> l) -> (f, x) ∈ l -> (f, y) ∈ l -> x = y.
Proof.
  intros HN H1 H2. apply elem_of_list_lookup in H1 as [i Hi]. apply elem_of_list_lookup in H2 as [j Hj].
  assert (i = j). { eapply NoDup_lookup; [done| |]; rewrite list_lookup_fmap; [rewrite Hi|rewrite Hj]; done. } subst j. congruence.
Qed.
Lemma del_perm {A} (l : list A) j x : l !! j = Some x -> x :: (take j l ++ drop (S j) l) ≡ₚ l.
Proof. intros H. rewrite <- (take_drop_middle l j x H) at 3. by rewrite Permutation_middle. Qed.

Section I.
Context (home : nat -> nat) (maxw : nat) (c0 : nat -> list Z).
Notation WI := (WI home c0).
Notation opinv := (opinv home).

Lemma WI_book s q r m : WI s -> let s' := mks (fls s) (cont s) q r m (fib s) (bufs s) (nid s) (hist s) in jobs s' ≡ₚ jobs s ->
  (forall x, x ∈ m -> m_data x = f_data (fls s (m_f x)) /\ m_sel x = f_sel (fls s (m_f x))) -> WI s'.
Proof.
  intros HI s' HJ Hm. assert (HA : forall fi o ph, at_ s' fi o ph <-> at_ s fi o ph).
  { intros fi o [|x| |]; cbn; try done. rewrite <- HJ. done. }
  split; cbn [s' fls cont queue runq msgs fib bufs nid hist] in *; try apply HI.
  - rewrite HJ. apply HI.
  - intros f x Hx. rewrite HJ in Hx. by apply (w_job _ _ _ HI) in Hx.
  - intros fi o H. destruct (w_wait _ _ _ HI _ _ H) as [x Hx]. exists x. by rewrite HJ.
  - intros fi o ph H. apply HA in H. by destruct (w_op _ _ _ HI _ _ _ H).
  - done.
  - intros t id f H. destruct (w_join _ _ _ HI _ _ _ H) as (o & ph & H1 & H2). exists o, ph. split; [by apply HA|done].
  - intros id t f H. destruct (w_open _ _ _ HI _ _ _ H) as [(o & ph & H1 & H2)|H1]; [left|by right]. exists o, ph. split; [by apply HA|done].
  - intros f Hf. destruct (w_pos _ _ _ HI f Hf) as [H1 H2]. split; [intros x; rewrite HJ; apply H1|]. intros H. apply H2. intros x. rewrite <- HJ. apply H.
Qed.

(** the operation behind a job *)
Lemma job_op s f x : WI s -> (f, x) ∈ jobs s -> exists fi o, at_ s fi o (PWait x) /\ o_f o = f /\ opinv s fi o (PWait x).
Proof.
  intros HI Hx. destruct (w_job _ _ _ HI _ _ Hx) as (fi & o & H1 & <-). exists fi, o. assert (H : at_ s fi o (PWait x)) by done.
  split_and!; [done|done|]. by apply (w_op _ _ _ HI).
Qed.
Lemma runq_job s j f x : runq s !! j = Some (f, x) -> (f, x) ∈ jobs s.
Proof. intros H. unfold jobs. apply elem_of_app. right. apply elem_of_app. left. by eapply elem_of_list_lookup_2. Qed.

Lemma WI_exec s j f res c' got b : WI s -> runq s !! j = Some (f, None) -> let x := fls s f in
  (forall wr, is_wr wr = k_wr x -> (forall d, wr = Some d -> bufs s (k_id x) = d) ->
     sys_ok (drop (k_pos x) <$> wr) (k_len x) (f_off x) (mkx f (f_ino x) (f_off x) res (cont s (f_ino x)) c' got)) ->
  (k_wr x = true -> b = bufs s (k_id x)) -> (k_wr x = false -> length (bufs s (k_id x)) = k_pos x -> b = bufs s (k_id x) ++ got) ->
  WI (executed_ s j f res c' got b).
Proof.
  intros HI Hj x Hsys Hbw Hbr. pose proof (runq_job _ _ _ _ Hj) as Hx. destruct (job_op _ _ _ HI Hx) as (fi & o & Ha & <- & HP).
  pose proof (p_kio _ _ _ _ _ HP) as (K1 & K2 & K3 & K4 & K5). fold x in K1, K2, K3, K4, K5.
  destruct (w_pos _ _ _ HI (o_f o) (p_al _ _ _ _ _ HP)) as [_ Hpos]. fold x in Hpos.
  assert (Hnp : forall r, (o_f o, Some r) ∉ jobs s). { intros r Hr. pose proof (job_fun _ _ _ _ (w_nodup _ _ _ HI) Hx Hr). congruence. }
  specialize (Hpos Hnp).
  set (s' := executed_ s j (o_f o) res c' got b).
  assert (HJ : jobs s' = ((λ f, (f, None)) <$> queue s) ++ <[j := (o_f o, Some res)]> (runq s) ++ ((λ m, (m_f m, Some (m_r m))) <$> msgs s)) by done.
  assert (Hfst : fst <$> jobs s' = fst <$> jobs s).
  { rewrite HJ. unfold jobs. rewrite !fmap_app. do 2 f_equal. rewrite list_fmap_insert. apply list_insert_id. rewrite list_lookup_fmap, Hj. done. }
  assert (Hnew : (o_f o, Some res) ∈ jobs s').
  { rewrite HJ. apply elem_of_app. right. apply elem_of_app. left. apply elem_of_list_lookup. exists j. apply list_lookup_insert. by eapply lookup_lt_Some. }
  assert (Hnd : NoDup (fst <$> jobs s')) by (rewrite Hfst; apply HI).
  destruct (p_call _ _ _ _ _ HP) as (wr & off & C1 & C2 & xs & P1 & P2 & P3 & P4 & P5 & P6 & P7 & P8).
  assert (Hxf : xfers (o_id o) (hist s') = xs ++ [mkx (o_f o) (f_ino x) (f_off x) res (cont s (f_ino x)) c' got]).
  { cbn [s' executed_ hist]. fold x. rewrite xfers_app, P8. f_equal. unfold xfers. cbn. rewrite K2, decide_True by done. done. }
  assert (Hs : sys_ok (drop (o_done o) <$> wr) (o_len o - o_done o) (off + Z.of_nat (o_done o)) (mkx (o_f o) (f_ino x) (f_off x) res (cont s (f_ino x)) c' got)).
  { rewrite <- K4, <- K3. replace (off + Z.of_nat (k_pos x)) with (f_off x) by (unfold x in *; rewrite P7; unfold moved; lia). apply Hsys; [congruence|].
    intros d ->. rewrite K2. apply P6. }
  apply (WI_change home c0 s s' fi o (PWait None) o (PWait (Some res)) [HExec (k_id x) (o_f o) (f_ino x) (f_off x) res (cont s (f_ino x)) c' got]);
    try done; fold x.
  - split; [|done]. apply Ha.
  - split.
    + exists wr, off. split_and!; [cbn; apply elem_of_app; by left|done|]. cbn [progress]. exists xs. split_and!; try done.
      * destruct (o_full o); [|done]. destruct P4 as [P4|P4]; [done|by right].
      * cbn [s' executed_ bufs]. fold x. rewrite K2, upd_eq. destruct wr as [d|].
        -- destruct P6 as [P6 P6']. split; [|done]. rewrite Hbw, K2; [done|]. rewrite K5. by rewrite C2.
        -- destruct P6 as [P6 P6']. rewrite P8, P3 in P6'. rewrite Hbr; [|by rewrite K5, C2|rewrite K2; congruence].
           rewrite Hxf, K2, P6, P8, fmap_app, concat_app. cbn. rewrite !app_nil_r. split; [done|]. rewrite app_length, total_app, total_one. cbn.
           destruct Hs as (_ & _ & _ & _ & Hl). cbn in Hl. rewrite P6, P8 in P6'. lia.
      * exists (mkx (o_f o) (f_ino x) (f_off x) res (cont s (f_ino x)) c' got). done.
    + cbn [s' executed_ hist]. rewrite returned_app. cbn. rewrite app_nil_r. apply HP.
    + apply HP.
    + apply HP.
    + done.
    + exact (p_kio _ _ _ _ _ HP).
  - intros i Hi. cbn. apply upd_ne. fold x. congruence.
  - apply HP.
  - intros m Hm. apply (w_msg _ _ _ HI). done.
  - right. exists (f_off x), res, (cont s (f_ino x)), c', got. rewrite K2. split_and!; [done|apply HI|done].
  - intros i. cbn [s' executed_ cont hist]. fold x. rewrite contents_app. cbn. destruct (decide (f_ino x = i)) as [<-|Hi]; [by rewrite upd_eq|].
    rewrite upd_ne by congruence. apply HI.
  - intros g y Hg. rewrite HJ. unfold jobs. rewrite !elem_of_app. do 2 (apply or_iff_compat_l || apply or_iff_compat_r).
    split; intros H; apply elem_of_list_lookup in H as [i Hi]; apply elem_of_list_lookup; exists i.
    + destruct (decide (i = j)) as [->|Hn]; [|by rewrite list_lookup_insert_ne in Hi]. rewrite list_lookup_insert in Hi by (by eapply lookup_lt_Some). congruence.
    + rewrite list_lookup_insert_ne; [done|]. intros ->. congruence.
  - intros y Hy. by eexists.
  - cbn [s' executed_ fls hist]. fold x. split.
    + intros r Hr. pose proof (job_fun _ _ _ _ Hnd Hnew Hr) as [= <-]. rewrite pos_app. cbn. rewrite decide_True by done. lia.
    + intros H. by apply H in Hnew.
Qed.

Lemma WI_cb s j m fi o : WI s -> msgs s !! j = Some m -> m_data m = fi -> fib s fi = FWait o -> o_f o = m_f m ->
  let x := fls s (m_f m) in
  WI (mks (upd (fls s) (m_f m) (mkf (f_al x) (f_sel x) (f_ino x) (if 0 <? m_r m then f_off x + m_r m else f_off x) (f_data x) (k_id x) (k_pos x) (k_len x) (k_wr x)))
             (cont s) (queue s) (runq s) (take j (msgs s) ++ drop (S j) (msgs s)) (updf (fib s) fi (FReady o (m_r m))) (bufs s) (nid s) (hist s)).
Proof.
  intros HI Hj Hd Hf Ho x. set (s' := mks _ _ _ _ _ _ _ _ _).
  assert (Hx : (m_f m, Some (m_r m)) ∈ jobs s).
  { unfold jobs. rewrite !elem_of_app. right. right. apply elem_of_list_fmap. exists m. split; [done|]. by eapply elem_of_list_lookup_2. }
  assert (Ha : at_ s fi o (PWait (Some (m_r m)))) by (split; [done|]; by rewrite Ho). pose proof (w_op _ _ _ HI _ _ _ Ha) as HP.
  assert (HJ : jobs s ≡ₚ (m_f m, Some (m_r m)) :: jobs s').
  { assert (HM : ((λ y, (m_f y, Some (m_r y))) <$> msgs s) ≡ₚ (m_f m, Some (m_r m)) :: ((λ y, (m_f y, Some (m_r y))) <$> msgs s')).
    { rewrite <- (del_perm _ _ _ Hj) at 1. done. }
    unfold jobs. rewrite HM. cbn [s' queue runq]. rewrite <- (Permutation_middle (runq s)). by rewrite <- (Permutation_middle (_ <$> queue s)). }
  pose proof (w_nodup _ _ _ HI) as HN. rewrite HJ in HN. cbn [fmap list_fmap] in HN. apply NoDup_cons in HN as [HN1 HN2]. cbn [fst] in HN1.
  assert (Hno : forall y, (m_f m, y) ∉ jobs s'). { intros y Hy. apply HN1. apply elem_of_list_fmap. by exists (m_f m, y). }
  assert (Hff : fls s' (m_f m) = mkf (f_al x) (f_sel x) (f_ino x) (if 0 <? m_r m then f_off x + m_r m else f_off x) (f_data x) (k_id x) (k_pos x) (k_len x) (k_wr x)) by (cbn; apply upd_eq).
  assert (Hoff : f_off (fls s' (m_f m)) = f_off x + Z.max 0 (m_r m)). { rewrite Hff. cbn [f_off]. destruct (0 <? m_r m) eqn:E; [apply Z.ltb_lt in E|apply Z.ltb_ge in E]; lia. }
  destruct (p_call _ _ _ _ _ HP) as (wr & off & C1 & C2 & xs & P1 & P2 & P3 & P4 & P5 & P6 & P7 & P8).
  apply (WI_change home c0 s s' fi o (PWait (Some (m_r m))) o (PReady (m_r m)) []); try done; rewrite ?Ho.
  - intros y Hy. cbn. by apply updf_ne.
  - cbn. apply updf_eq.
  - split.
    + exists wr, off. split_and!; [done|done|]. cbn [progress]. exists xs. split_and!; try done.
      * destruct (o_full o); [|done]. destruct P4 as [P4|P4]; [done|by right].
      * rewrite Ho, Hoff. unfold x. rewrite <- Ho, P7. unfold moved. lia.
    + apply HP.
    + rewrite Ho, Hff. cbn. unfold x. rewrite <- Ho. apply HP.
    + pose proof (p_fid _ _ _ _ _ HP) as H. destruct fi as [t|id].
      * rewrite Ho, Hff. cbn. unfold x. rewrite <- Ho. done.
      * destruct H as [-> H]. split; [done|]. cbn. rewrite updf_ne; [done|]. intros [=].
    + done.
    + done.
  - intros g Hg. cbn. by apply upd_ne.
  - rewrite Hff. cbn. unfold x. rewrite <- Ho. apply HP.
  - by rewrite Hff.
  - by rewrite Hff.
  - intros m' Hm'. destruct (decide (m_f m' = m_f m)) as [E|E].
    + exfalso. eapply Hno. unfold jobs. rewrite !elem_of_app. right. right. apply elem_of_list_fmap. exists m'. split; [by rewrite E|done].
    + cbn [s' fls]. rewrite upd_ne by done. apply (w_msg _ _ _ HI). rewrite <- (del_perm _ _ _ Hj). apply elem_of_cons. by right.
  - by rewrite app_nil_r.
  - by left.
  - apply HI.
  - intros g y Hg. rewrite HJ, elem_of_cons. split; [by right|]. intros [E|E]; [congruence|done].
  - intros y Hy. by apply Hno in Hy.
  - split; [intros r Hr; by apply Hno in Hr|]. intros _. rewrite Hoff. cbn [s' hist].
    assert (Hal : f_al (fls s (m_f m)) = true) by (rewrite <- Ho; apply HP). by apply (w_pos _ _ _ HI (m_f m) Hal).
Qed.
End I.
