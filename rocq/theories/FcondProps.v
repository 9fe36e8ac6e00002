(** Properties C17-C19: kfiber_cond.  Model: FcondModel.v ([waiters]: suspended on the condition, [woken]: released
    by a notice, not yet continued; [notices]/[returns] count the notice calls and the returned waits of a
    schedule). *)
From Verif Require Import FcondModel FcondProof.
Local Open Scope Z_scope.

(** C17.  Auto-reset.  In every schedule: returned waits + released waits still to be resumed + stored notices =
    notices; and somebody is suspended only while no notice is stored. *)
Theorem C17_auto_reset_counts (r0 : positive -> Z) (os : list op) s rs :
  run (step true) (sys_init r0) os = Ok s rs ->
  Z.of_nat (notices os) = Z.of_nat (returns rs) + Z.of_nat (length (woken s)) + ev s
  /\ 0 <= ev s /\ (waiters s <> [] -> ev s = 0).
Proof.
  intros Hr. pose proof (auto_run os _ _ _ (I_init r0) Hr) as H. cbn in H.
  assert (HI: I s) by (eapply (run_inv (step true) I (I_step true)); [apply I_init|exact Hr]).
  destruct HI as (_ & H1 & H2). split_and!; [lia|done|done].
Qed.
Print Assumptions C17_auto_reset_counts.
(** each notice releases exactly one suspended waiter if there is one, otherwise is stored; each wait takes a stored
    notice if there is one, otherwise suspends *)
Theorem C17_auto_notice s v : exists s', step true s (Notice v) = Ok s' ODone /\
  match waiters s with
  | w :: ws => waiters s' = ws /\ woken s' = (w, v) :: woken s /\ ev s' = ev s
  | [] => waiters s' = [] /\ woken s' = woken s /\ ev s' = ev s + 1
  end.
Proof. eexists. split; [reflexivity|]. unfold notice. by destruct (waiters s). Qed.
Print Assumptions C17_auto_notice.
Theorem C17_auto_wait s f : idle s f -> exists s' r, step true s (Wait f) = Ok s' r /\
  if decide (ev s > 0) then is_return r = true /\ ev s' = ev s - 1 /\ waiters s' = waiters s
  else r = OSuspend /\ waiters s' = f :: waiters s /\ ev s' = ev s.
Proof.
  intros Hi. cbn. rewrite decide_True by done. unfold wait. destruct (decide _).
  - rewrite bool_decide_eq_true_2 by done. eexists _, _. done.
  - rewrite bool_decide_eq_false_2 by done. eexists _, _. done.
Qed.
Print Assumptions C17_auto_wait.
(** nobody is suspended although enough notices were given: with more notices than returned waits something is
    stored or about to return *)
Theorem C17_auto_no_lost_notice (r0 : positive -> Z) (os : list op) s rs :
  run (step true) (sys_init r0) os = Ok s rs -> (returns rs < notices os)%nat -> waiters s <> [] -> woken s <> [].
Proof.
  intros Hr Hlt Hw. destruct (C17_auto_reset_counts _ _ _ _ Hr) as (H1 & H2 & H3). specialize (H3 Hw).
  destruct (woken s); [cbn in H1; lia|done].
Qed.
Print Assumptions C17_auto_no_lost_notice.
Definition cdemo := [Wait 1; Wait 2; Notice 5; Resume 2; Notice 6; Notice 7; Notice 8; Resume 1; Wait 2; TryWait 1; TryWait 3].
Example C17_demo : exists s, run (step true) (sys_init (λ _, 0)) cdemo =
  Ok s [OSuspend; OSuspend; ODone; ORet 5; ODone; ODone; ODone; ORet 6; ORet 5; ORet 6; OFail].
Proof. eexists. vm_compute. reflexivity. Qed.

(** C18.  Manual-reset: no wait returns before the first notice; after a notice nobody is suspended, ever (each
    waiter is released, every later wait returns at once). *)
Theorem C18_latch_closed r0 os s rs : run (step false) (sys_init r0) os = Ok s rs -> notices os = 0%nat ->
  returns rs = 0%nat /\ woken s = [].
Proof. intros Hr Hn. destruct (manual_unwoken os (sys_init r0) s rs eq_refl eq_refl Hn Hr) as (_ & H1 & H2). done. Qed.
Print Assumptions C18_latch_closed.
Theorem C18_latch_open r0 os s rs f : run (step false) (sys_init r0) os = Ok s rs -> (0 < notices os)%nat ->
  waiters s = [] /\ (idle s f -> exists s' v, step false s (Wait f) = Ok s' (ORet v) /\ waiters s' = []).
Proof.
  intros Hr Hn. pose proof (manual_run os _ _ _ Hr) as Hev. cbn in Hev.
  assert (HI: I s) by (eapply (run_inv (step false) I (I_step false)); [apply I_init|exact Hr]).
  destruct HI as (_ & _ & Hw). assert (ev s > 0) by (apply Hev; by right).
  assert (waiters s = []) as E by (destruct (waiters s); [done|]; specialize (Hw ltac:(done)); lia).
  split; [done|]. intros Hi. cbn. rewrite decide_True by done. unfold wait. rewrite bool_decide_eq_true_2 by done. eauto.
Qed.
Print Assumptions C18_latch_open.
(** the notice releases every waiter, with its value *)
Theorem C18_notice_releases_all s v : exists s', step false s (Notice v) = Ok s' ODone /\ waiters s' = []
  /\ forall w, w ∈ waiters s -> (w, v) ∈ woken s'.
Proof.
  eexists. split; [reflexivity|]. split; [done|]. intros w Hw. cbn. apply elem_of_app. left. apply elem_of_list_fmap. eauto.
Qed.
Print Assumptions C18_notice_releases_all.
Example C18_demo : exists s, run (step false) (sys_init (λ _, 0)) [Wait 1; Wait 2; TryWait 3; Notice 5; Wait 3; Resume 1; Resume 2; Wait 1]
  = Ok s [OSuspend; OSuspend; OFail; ODone; ORet 0; ORet 5; ORet 5; ORet 5].
Proof. eexists. vm_compute. reflexivity. Qed.

(** C19 is false of the code: a wait that finds a stored notice reports the waiter's own old resume value. *)
Theorem C19_wait_value_refuted : exists s, run (step true) (sys_init (λ _, 0)) [Notice 7; Wait 1] = Ok s [ODone; ORet 0].
Proof. eexists. vm_compute. reflexivity. Qed.
Print Assumptions C19_wait_value_refuted.
Theorem C19_wait_value_manual_refuted : exists s, run (step false) (sys_init (λ _, 0)) [Elsewhere 1 (-1); Notice 7; Wait 1] = Ok s [ODone; ODone; ORet (-1)].
Proof. eexists. vm_compute. reflexivity. Qed.
Print Assumptions C19_wait_value_manual_refuted.
(** True part: a wait that was suspended returns the value of the notice that released it, whatever happens between
    the notice and its continuation (both modes). *)
Theorem C19_wait_value_partial auto r0 os1 s1 rs1 v s2 w os2 s3 rs3 :
  run (step auto) (sys_init r0) os1 = Ok s1 rs1 -> step auto s1 (Notice v) = Ok s2 ODone ->
  w ∈ waiters s1 -> w ∉ waiters s2 ->
  run (step auto) s2 os2 = Ok s3 rs3 -> Resume w ∉ os2 ->
  exists s4, step auto s3 (Resume w) = Ok s4 (ORet v).
Proof.
  intros Hr1 Hn Hw1 Hw2 Hr2 Hno.
  assert (HI: I s1) by (eapply (run_inv (step auto) I (I_step auto)); [apply I_init|exact Hr1]).
  assert (HI2: I s2) by (by eapply I_step).
  assert (HI3: I s3) by (eapply (run_inv (step auto) I (I_step auto)); [exact HI2|exact Hr2]).
  apply resume_value; [done|]. eapply woken_keep_run; [|exact Hno|exact Hr2].
  cbn in Hn. injection Hn as <-. unfold notice in *. destruct auto.
  - destruct (waiters s1) as [|x ws]; [set_solver|]. cbn in *. set_solver.
  - cbn. apply elem_of_app. left. apply elem_of_list_fmap. eauto.
Qed.
Print Assumptions C19_wait_value_partial.
Example C19_demo : exists s1 rs1 s2, run (step true) (sys_init (λ _, 0)) [Wait 1; Wait 2] = Ok s1 rs1
  /\ step true s1 (Notice 9) = Ok s2 ODone /\ 2%positive ∈ waiters s1 /\ 2%positive ∉ waiters s2.
Proof. eexists _, _, _. split; [reflexivity|]. split; [reflexivity|]. cbn. set_solver. Qed.
