(** Property C24: fiber lifetime and join.  Model: FlifeModel.v.  [step true]: the fibers created without handle get at most one
    handle (kfiber_ref_self) or exit callback later; fibers created with a handle any number. *)
From Verif Require Import FlifeModel FlifeProof.
Local Open Scope Z_scope.

(** No use of a freed fiber, no failed assertion. *)
Theorem C24_fiber_safe : safe (step true) sys_init.
Proof. apply (safe_inv _ I); [apply I_init|apply I_step|apply I_safe]. Qed.
Print Assumptions C24_fiber_safe.
(** A fiber is freed at most once, and has been freed exactly if the selector has run its exit, no handle is left and no
    join on it is in progress; until then its memory is live. *)
Theorem C24_fiber_freed_once es s os f : run (step true) sys_init es = Ok s os -> f ∈ made s ->
  (frees (obj s f) = 0 \/ frees (obj s f) = 1) /\ (alive (obj s f) = true <-> frees (obj s f) = 0) /\
  (frees (obj s f) = 1 <-> ph (obj s f) = Gone /\ handles (obj s f) = 0 /\ waiting_joins (obj s f) = [] /\ joined (obj s f) = []).
Proof.
  intros Hr Hf. assert (HI: I s) by (eapply (run_inv _ I I_step); [apply I_init|exact Hr]). destruct HI as (_ & HO & _).
  destruct (HO f Hf) as [Hrf Hal Hfr Hhd Hno Hrn Hfi Hau Hma Hev]. unfold owed in Hrf.
  destruct (bool_decide_reflect (0 < ref (obj s f))) as [E|E]; rewrite Hal in *; rewrite Hfr; split_and!; try tauto; try done.
  - split; [done|]. intros (Hp & Hh & Hw & Hj). rewrite Hw, Hj, Hh, decide_True in Hrf by done. cbn in Hrf. lia.
  - split; [|done]. intros _. destruct (decide _); [|lia]. split; [done|]. split; [lia|].
    destruct (waiting_joins (obj s f)); [|cbn in Hrf; lia]. split; [done|]. destruct (joined (obj s f)); [done|cbn in Hrf; lia].
Qed.
Print Assumptions C24_fiber_freed_once.
(** without handle: freed when its exit has run *)
Theorem C24_fiber_count es s os : run (step true) sys_init es = Ok s os ->
  fcount s = Z.of_nat (length (filter (λ f, frees (obj s f) = 0) (made s))).
Proof.
  intros Hr. assert (HI: I s) by (eapply (run_inv _ I I_step); [apply I_init|exact Hr]). destruct HI as (Hn & HO & ->). f_equal.
  clear Hn Hr. induction (made s) as [|f l IH]; [done|]. rewrite !filter_cons.
  assert (Hf: f ∈ f :: l) by by left. apply HO in Hf. destruct Hf as [_ _ Hfr _ _ _ _ _ _ _]. rewrite Hfr.
  specialize (IH ltac:(intros g Hg; apply HO; by right)). destruct (alive (obj s f)).
  - rewrite !decide_True by done. cbn [length]. by rewrite IH.
  - rewrite !decide_False by done. exact IH.
Qed.
Print Assumptions C24_fiber_count.
(** join / try_join return what the start function returned (the only Return of that fiber in the schedule) *)
Theorem C24_join_value es s os e f j s' v : run (step true) sys_init es = Ok s os ->
  e = Join f j \/ e = TryJoin f \/ e = JoinResume f j -> step true s e = Ok s' (ORet v) ->
  Return f v ∈ es /\ forall v', Return f v' ∈ es -> v' = v.
Proof.
  intros Hr He Hst. assert (HI: I s) by (eapply (run_inv _ I I_step); [apply I_init|exact Hr]). destruct HI as (_ & HO & _).
  assert (HQ: Q es s).
  { apply (Q_run es sys_init s os [] true); [|done]. intros g. cbn. set_solver. }
  assert (Hkey: f ∈ made s /\ ph (obj s f) <> Live /\ v = retv (obj s f)).
  { assert (Hd: forall g r o1 o2, drop s g r o1 = Ok s' o2 -> o2 = o1).
    { intros g r o1 o2. unfold drop. destruct r as [[? ?]|]; [|done]. by intros [= <- <-]. }
    destruct He as [->|[->| ->]]; cbn [step] in Hst; (destruct (decide _) as [(Hf & Hp)|]; [|done]); pose proof (HO f Hf) as [_ _ _ _ _ Hrn _ _ _ _].
    - destruct (alive _); [|done]. destruct (cond _) as [c|] eqn:Ec; [|done]. case_bool_decide; [|done].
      apply Hd in Hst as [= ->]. split_and!; try done. intros El. destruct (Hrn (or_introl El)) as [_ Hx]. specialize (Hx _ eq_refl). lia.
    - destruct (alive _); [|done]. destruct (cond _) as [c|] eqn:Ec; [|done]. case_bool_decide; [|done].
      apply Hd in Hst as [= ->]. split_and!; try done. intros El. destruct (Hrn (or_introl El)) as [_ Hx]. specialize (Hx _ eq_refl). lia.
    - destruct (alive _); [|done]. apply Hd in Hst as [= ->]. split_and!; try done. intros El.
      destruct (Hrn (or_introl El)) as [Hx _]. rewrite Hx in Hp. by apply elem_of_nil in Hp. }
  destruct Hkey as (Hf & Hp & ->). destruct (HQ f) as [_ Hx]. destruct (Hx Hf) as [_ Hy]. split; [by apply Hy|].
  intros v' Hv. by apply Hy.
Qed.
Print Assumptions C24_join_value.
(** a join after the exit callback's notice does not suspend, and the notice releases every suspended join
    (fibers created with a handle) *)
Theorem C24_join_released es s os f j : run (step true) sys_init es = Ok s os -> f ∈ made s -> ph (obj s f) = Noticed \/ ph (obj s f) = Gone ->
  waiting_joins (obj s f) = [] /\ (0 < handles (obj s f) -> exists s' v, step true s (Join f j) = Ok s' (ORet v)).
Proof.
  intros Hr Hf Hp. assert (HI: I s) by (eapply (run_inv _ I I_step); [apply I_init|exact Hr]).
  pose proof HI as (_ & HO & _). pose proof (HO f Hf) as Ho. pose proof Ho as [Hrf Hal Hfr Hhd Hno Hrn Hfi Hau Hma Hev].
  assert (Hnr: ~ running (ph (obj s f))) by (intros [?|?]; naive_solver congruence).
  split.
  - unfold waiting_joins. destruct (cond (obj s f)) as [c|] eqn:Ec; [|done]. by destruct (Hfi Hnr _ eq_refl) as [-> _].
  - intros Hh. pose proof (I_safe s (Join f j) HI) as Hs. cbn [step] in *. rewrite decide_True in * by done.
    rewrite (O_owed _ Ho) in * by (right; by left). destruct (cond (obj s f)) as [c|] eqn:Ec; [|done].
    destruct (Hfi Hnr _ eq_refl) as [_ Hx]. specialize (Hx Hh). rewrite bool_decide_eq_true_2 in * by lia.
    unfold drop in *. destruct (release _) as [[o b]|]; [|done]. eauto.
Qed.
Print Assumptions C24_join_released.
(** A fiber created with a handle may take any number of further handles (kfiber_ref_self) and exit callbacks while it runs:
    the restriction [step true] never applies to it. *)
Theorem C24_more_handles es s os f j : run (step true) sys_init es = Ok s os -> Create f true ∈ es -> ph (obj s f) = Live ->
  (exists s', step true s (RefSelf f) = Ok s' ODone /\ handles (obj s' f) = handles (obj s f) + 1) /\
  (exists s', step true s (ExitCb f j) = Ok s' ODone).
Proof.
  intros Hr Hc Hp. assert (HI: I s) by (eapply (run_inv _ I I_step); [apply I_init|exact Hr]).
  destruct (MC_run _ _ _ _ _ _ Hr Hc) as [Hm (c & Ec & Ha)].
  pose proof (I_safe s (RefSelf f) HI) as H1. pose proof (I_safe s (ExitCb f j) HI) as H2.
  assert (Hok: more_ok true (obj s f) = true) by (unfold more_ok; rewrite Ec, Ha; done).
  cbn [step] in *. rewrite decide_True in * by done. destruct (alive (obj s f)); [|done]. split.
  - eexists. split; [reflexivity|]. cbn. rewrite decide_True by done. done.
  - rewrite decide_True by done. case_bool_decide; eexists; reflexivity.
Qed.
Definition lfdemo := [Create 1 true; Create 2 false; Woken 1 5; RefSelf 1; Join 1 9; Return 2 3; ExitNotice 2; ExitRelease 2;
  TryJoin 1; Return 1 42; ExitNotice 1; ExitRelease 1; JoinResume 1 9; TryJoin 1].
Example C24_demo : exists s, run (step true) sys_init lfdemo =
  Ok s [ODone; ODone; ODone; ODone; OSuspend; ODone; ODone; ODone; OFail; ODone; ODone; ODone; ORet 42; ORet 42]
  /\ fcount s = 0 /\ frees (obj s 1) = 1 /\ frees (obj s 2) = 1 /\ Forall (λ f, f ∈ made s) [1;2]%positive.
Proof. eexists. split; [vm_compute; reflexivity|]. split_and!; [reflexivity..|]. repeat constructor; vm_compute; set_solver. Qed.

(** Limits of the claim.  kfiber_join2 after the exit reports 0 instead of the returned value ... *)
Theorem C24_join2_value_refuted : exists s os, run (step true) sys_init
  [Create 1 true; Return 1 42; ExitNotice 1; Join2 1 9] = Ok s os /\ posted (obj s 1) = [(9%positive, 0)].
Proof. eexists _, _. split; [vm_compute; reflexivity|reflexivity]. Qed.
Print Assumptions C24_join2_value_refuted.
(** ... and on a fiber created without handle, two handles obtained by kfiber_ref_self share an auto-reset condition: the
    second join is never released (and the fiber never freed), two exit callbacks even fail an assertion. *)
Theorem C24_two_refs_refuted : exists s os, run (step false) sys_init
  [Create 1 false; RefSelf 1; RefSelf 1; Join 1 8; Join 1 9; Return 1 42; ExitNotice 1; ExitRelease 1; JoinResume 1 9] = Ok s os
  /\ ph (obj s 1) = Gone /\ waiting_joins (obj s 1) = [8%positive] /\ alive (obj s 1) = true.
Proof. eexists _, _. split; [vm_compute; reflexivity|]. done. Qed.
Print Assumptions C24_two_refs_refuted.
Theorem C24_two_exit_callbacks_refuted : run (step false) sys_init
  [Create 1 false; ExitCb 1 8; ExitCb 1 9; Return 1 42; ExitNotice 1; ExitRelease 1] = Crash.
Proof. vm_compute. reflexivity. Qed.
Print Assumptions C24_two_exit_callbacks_refuted.
