(** Properties C20-C22: kfiber_chan.  Model: FchanModel.v.  For a schedule es with results os ending in state s:
    [attempted es] the data of all sends called, [sent_ok os]/[sent_fail os] the data of the sends that returned 0/non-0,
    [received os] the data returned by successful recvs; [suspended_sends s], [handed_sends s] (datum taken, the sender not
    yet continued), [refused_sends s] (released by close, not yet continued), [arriving s] (receivers given a datum, not yet
    continued) classify the calls still in progress. *)
From Verif Require Import FchanModel FchanProof.
Local Open Scope Z_scope.

(** C20.  No assertion fails; each send is in exactly one of five states; successful receives (returned or about to) are
    exactly the successful sends (returned or handed over) - as multisets, so nothing is lost, doubled or invented;
    a send fails only on a closed channel. *)
Theorem C20_chan_exactly_once es s os : Forall wake0 es -> run step sys_init es = Ok s os ->
  attempted es ≡ₚ sent_ok os ++ sent_fail os ++ suspended_sends s ++ handed_sends s ++ refused_sends s
  /\ received os ++ arriving s ≡ₚ sent_ok os ++ handed_sends s
  /\ (sent_fail os <> [] -> closed (ch s) = true).
Proof.
  intros Hf Hr. pose proof (run_sends _ _ _ _ Hf I_init Hr) as H1. pose proof (run_recvs _ _ _ _ Hf I_init Hr) as H2.
  cbn in H1, H2. rewrite !app_nil_r in H1. rewrite !app_nil_r in H2. split_and!; [done|done|].
  by apply (fail_closed _ _ _ _ Hf I_init).
Qed.
Print Assumptions C20_chan_exactly_once.
Theorem C20_chan_safe es : Forall wake0 es -> run step sys_init es <> Crash.
Proof. intros Hf. apply run_safe; [done|apply I_init]. Qed.
Print Assumptions C20_chan_safe.
(** read off for a value sent once: it is received at most once, only if sent; a send that returned 0 was received (or its
    receiver is about to return it); a refused one never is *)
Theorem C20_chan_message es s os d : Forall wake0 es -> run step sys_init es = Ok s os -> NoDup (attempted es) ->
  NoDup (received os) /\ (d ∈ received os -> d ∈ attempted es /\ d ∉ sent_fail os /\ d ∉ suspended_sends s) /\
  (d ∈ sent_ok os -> d ∈ received os \/ d ∈ arriving s) /\
  (woken s = [] -> deferred s = [] -> d ∈ sent_ok os <-> d ∈ received os).
Proof.
  intros Hf Hr Hn. destruct (C20_chan_exactly_once _ _ _ Hf Hr) as (H1 & H2 & _).
  rewrite H1 in Hn.
  assert (Hn2: NoDup (received os ++ arriving s)).
  { rewrite H2. revert Hn. generalize (suspended_sends s), (refused_sends s). intros l1 l2.
    assert (sent_ok os ++ sent_fail os ++ l1 ++ handed_sends s ++ l2 ≡ₚ (sent_ok os ++ handed_sends s) ++ sent_fail os ++ l1 ++ l2) as -> by solve_Permutation.
    by intros (? & _ & _)%NoDup_app. }
  assert (Hin: forall x, x ∈ received os \/ x ∈ arriving s <-> x ∈ sent_ok os \/ x ∈ handed_sends s).
  { intros x. rewrite <- !elem_of_app. by rewrite H2. }
  split_and!.
  - by apply NoDup_app in Hn2 as (? & _ & _).
  - intros Hd. assert (Hs: d ∈ sent_ok os \/ d ∈ handed_sends s) by (apply Hin; by left).
    split; [rewrite H1; clear -Hs; set_solver|].
    assert (sent_ok os ++ sent_fail os ++ suspended_sends s ++ handed_sends s ++ refused_sends s ≡ₚ
      (sent_ok os ++ handed_sends s) ++ (sent_fail os ++ suspended_sends s) ++ refused_sends s) as Hp by solve_Permutation.
    rewrite Hp in Hn. apply NoDup_app in Hn as (_ & Hx & _). specialize (Hx d).
    rewrite !elem_of_app in Hx. clear -Hx Hs. tauto.
  - intros Hd. apply Hin. by left.
  - intros Hw Hdf. unfold handed_sends, arriving in Hin. rewrite Hw, Hdf in Hin. cbn in Hin. specialize (Hin d).
    rewrite !elem_of_nil in Hin. clear -Hin. tauto.
Qed.
Print Assumptions C20_chan_message.
(** senders and receivers are never suspended together *)
Theorem C20_chan_one_side es s os w1 w2 : Forall wake0 es -> run step sys_init es = Ok s os ->
  w1 ∈ chw (ch s) -> w2 ∈ chw (ch s) -> wrole w1 = wrole w2.
Proof.
  intros Hf Hr Hw1 Hw2. destruct (run_I _ _ _ _ Hf I_init Hr) as ((Hc & _) & _).
  destruct (flag (ch s)); [by rewrite Hc in Hw1; apply elem_of_nil in Hw1|..]; destruct Hc as [_ Hc];
    rewrite Forall_forall in Hc; pose proof (Hc _ Hw1); pose proof (Hc _ Hw2); naive_solver congruence.
Qed.
Print Assumptions C20_chan_one_side.
Definition chdemo := [Send 1 11; Send 2 22; Recv 3 false; Resume 2; Recv 4 true; Wakeup 1 0; Resume 1; Recv 5 false; Send 1 33; Resume 5;
  Send 2 44; Close; Resume 2; Send 1 55; Recv 3 false].
Example C20_demo : Forall wake0 chdemo /\ exists s, run step sys_init chdemo =
  Ok s [OSuspend; OSuspend; ORecv 0 22; OSend 22 0; ORecv 0 11; ODone; OSend 11 0; OSuspend; OSend 33 0; ORecv 0 33;
        OSuspend; ODone; OSend 44 (-1); OSend 55 (-1); ORecv (-1) 0] /\ NoDup (attempted chdemo).
Proof. split; [repeat constructor|]. eexists. split; [vm_compute; reflexivity|]. apply (bool_decide_unpack _). vm_compute. exact Logic.I. Qed.

(** C21.  Close releases every suspended fiber with -1 and NULL data (receivers), and leaves nobody suspended ... *)
Theorem C21_close_releases es s os : Forall wake0 es -> run step sys_init es = Ok s os ->
  exists s', step s Close = Ok s' ODone /\ chw (ch s') = [] /\ closed (ch s') = true
    /\ (forall w, w ∈ chw (ch s) -> exists w', (w', -1) ∈ woken s' /\ wfib w' = wfib w /\ wrole w' = wrole w /\ wobj w' = 0)
    /\ (forall x, x ∈ woken s -> x ∈ woken s').
Proof.
  intros Hf Hr. destruct (run_I _ _ _ _ Hf I_init Hr) as ((_ & Hcl) & _). cbn. unfold chan_close.
  destruct (closed (ch s)) eqn:E.
  - rewrite Hcl by done. eexists. split; [reflexivity|]. cbn. rewrite Hcl by done. split_and!; try done. intros w Hw. by apply elem_of_nil in Hw.
  - eexists. split; [reflexivity|]. cbn. split_and!; [done|done|..].
    + intros w Hw. exists (mkw (wrole w) (wfib w) (warg w) 0). split; [|done]. apply elem_of_app. left.
      apply elem_of_list_fmap. eexists. split; [reflexivity|]. apply elem_of_list_fmap. by eexists.
    + intros x Hx. apply elem_of_app. by right.
Qed.
Print Assumptions C21_close_releases.
(** ... and for ever after, send and recv return -1 at once, and close changes nothing. *)
Theorem C21_closed_forever es1 s1 os1 es2 s2 os2 : Forall wake0 es1 -> Forall wake0 es2 ->
  run step sys_init es1 = Ok s1 os1 -> closed (ch s1) = true -> run step s1 es2 = Ok s2 os2 ->
  (forall f d, f ∉ fibers s2 -> step s2 (Send f d) = Ok s2 (OSend d (-1))) /\
  (forall f b, f ∉ fibers s2 -> step s2 (Recv f b) = Ok s2 (ORecv (-1) 0)) /\
  step s2 Close = Ok s2 ODone /\ chw (ch s2) = [].
Proof.
  intros Hf1 Hf2 Hr1 Hc Hr2. pose proof (run_I _ _ _ _ Hf1 I_init Hr1) as HI1.
  destruct (run_I _ _ _ _ Hf2 HI1 Hr2) as ((Hfl & Hcl) & _).
  pose proof (closed_run _ _ _ _ Hc Hr2) as Hc2. specialize (Hcl Hc2).
  destruct s2 as [[ws fl cl] wk df]. cbn in *. subst cl ws. destruct fl; [|naive_solver..].
  split_and!; try done; intros f d Hn; cbn; by rewrite decide_False by done.
Qed.
Print Assumptions C21_closed_forever.
(** the return code of a released waiter is the one recorded: -1 and NULL unless a message was handed over *)
Theorem C21_resume_code es s os w c s' o : Forall wake0 es -> run step sys_init es = Ok s os ->
  woken s = [(w, c)] -> step s (Resume (wfib w)) = Ok s' o ->
  (c = 0 \/ c = -1) /\ (c = -1 -> closed (ch s) = true) /\
  o = match wrole w with Sender => OSend (warg w) c | Receiver => ORecv c (wobj w) end /\
  (wrole w = Receiver -> c = -1 -> o = ORecv (-1) 0).
Proof.
  intros Hf Hr Hw. cbn. rewrite Hw. cbn. rewrite decide_True by done. cbn. intros [= <- <-].
  destruct (run_I _ _ _ _ Hf I_init Hr) as (_ & _ & H1 & H2). rewrite Hw in H1, H2.
  apply Forall_cons in H1 as [H1 _]. apply Forall_cons in H2 as [H2 _]. cbn in *.
  split_and!; [done|intros ->; by apply H1|done|]. intros Hro ->. unfold finish. rewrite Hro. f_equal. by apply H1.
Qed.
Print Assumptions C21_resume_code.
Example C21_demo : exists s os s', run step sys_init [Recv 1 false; Recv 2 false] = Ok s os /\ length (chw (ch s)) = 2%nat
  /\ run step s [Close; Resume 1; Resume 2; Close] = Ok s' [ODone; ORecv (-1) 0; ORecv (-1) 0; ODone].
Proof. eexists _, _, _. split; [reflexivity|]. split; reflexivity. Qed.

(** C22 is false of the code: the waiter list is a stack, the value sent last is received first ... *)
Theorem C22_fifo_refuted : exists s, run step sys_init [Send 1 11; Send 2 22; Recv 3 false; Recv 3 false]
  = Ok s [OSuspend; OSuspend; ORecv 0 22; ORecv 0 11].
Proof. eexists. vm_compute. reflexivity. Qed.
Print Assumptions C22_fifo_refuted.
(** ... in general a recv that finds suspended senders takes the newest, and a send that finds receivers serves the newest *)
Theorem C22_chan_lifo_partial es s os w ws : Forall wake0 es -> run step sys_init es = Ok s os -> chw (ch s) = w :: ws ->
  (wrole w = Sender -> forall f b, f ∉ fibers s -> exists s', step s (Recv f b) = Ok s' (ORecv 0 (warg w)) /\ chw (ch s') = ws) /\
  (wrole w = Receiver -> forall f d, f ∉ fibers s -> exists s' w', step s (Send f d) = Ok s' (OSend d 0) /\ chw (ch s') = ws
     /\ woken s' = (w', 0) :: woken s /\ wfib w' = wfib w /\ wobj w' = d).
Proof.
  intros Hf Hr Hw. destruct (run_I _ _ _ _ Hf I_init Hr) as ((Hc & Hcl) & _).
  destruct s as [[ws0 fl cl] wk df]. cbn in Hw, Hc, Hcl. subst ws0.
  destruct cl; [by specialize (Hcl eq_refl)|]. split; intros Hro f b Hn; cbn [step]; rewrite decide_False by done; cbn [ch].
  - destruct fl; [done|destruct Hc as [_ Hc]; apply Forall_cons in Hc as [? _]; congruence|].
    destruct Hc as [_ Hc]; apply Forall_cons in Hc as [[_ Ho] _]. unfold chan_recv. cbn [flag chw]. rewrite Ho. destruct b; by eexists.
  - destruct fl; [done| |destruct Hc as [_ Hc]; apply Forall_cons in Hc as [[? _] _]; congruence].
    unfold chan_send. cbn. eexists _, _. done.
Qed.
Print Assumptions C22_chan_lifo_partial.
Example C22_demo : exists s os w w2, run step sys_init [Send 1 11; Send 2 22] = Ok s os /\ chw (ch s) = [w; w2] /\ wrole w = Sender.
Proof. eexists _, _, _, _. split; [reflexivity|]. done. Qed.
