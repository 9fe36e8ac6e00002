(** Properties C14-C16: kfiber_rwlock.  Model: FrwlockModel.v ([rin]/[win]: fibers inside as readers/writers,
    [rwk]/[wwk]: handed the lock, resumption pending). *)
From Verif Require Import FrwlockModel FrwlockProof.
Local Open Scope Z_scope.

(** C14.  No schedule fails an assertion, and in every reachable state the holders are only readers or one writer. *)
Theorem C14_rwlock_exclusion (es : list ev) :
  run step sys_init es <> Crash /\
  forall s os, run step sys_init es = Ok s os ->
    NoDup (rin s) /\ ((rin s = [] /\ win s = []) \/ (rin s <> [] /\ win s = []) \/ (rin s = [] /\ exists w, win s = [w])).
Proof.
  split; [exact (safe_inv step I sys_init I_init I_step I_safe es)|].
  intros s os Hr. assert (HI: I s) by (eapply (run_inv step I I_step); [exact I_init|exact Hr]).
  destruct HI as (Hn & Hc & _). unfold everybody in Hn. apply NoDup_app in Hn as [Hn _]. split; [done|].
  destruct Hc as [(_ & -> & _ & Hl)|(_ & -> & _)].
  - destruct (win s) as [|w [|w' l]]; cbn in Hl; [by left|right; right; eauto|lia].
  - destruct (rin s); [by left|right; left; done].
Qed.
Print Assumptions C14_rwlock_exclusion.
Definition rwdemo := [RLock 1; RLock 2; WLock 3; RLock 4; RUnlock 1; RUnlock 2; Resume 3; WLock 5; WUnlock 3; Resume 4].
Example C14_demo : exists s, run step sys_init rwdemo =
   Ok s [Some true; Some true; Some false; Some false; None; None; None; Some false; None; None]
  /\ rin s = [4%positive] /\ wr_wait (lk s) = [5%positive].
Proof. eexists. split; [vm_compute; reflexivity|]. done. Qed.

(** C15.  In every reachable state: if nobody is inside and no hand-over is pending then nobody waits. *)
Theorem C15_rwlock_free_no_waiter es s os : run step sys_init es = Ok s os ->
  rin s = [] -> win s = [] -> rwk s = [] -> wwk s = [] -> lk s = rwlock_init.
Proof.
  intros Hr H1 H2 H3 H4. assert (HI: I s) by (eapply (run_inv step I I_step); [exact I_init|exact Hr]).
  destruct HI as (_ & Hc & Hw & Hd). rewrite H1, H2, H3, H4 in Hc. destruct (lk s) as [rw ww c]. cbn in *.
  destruct Hc as [(_ & _ & _ & ?)|(_ & _ & _ & ->)]; [done|]. unfold rwlock_init.
  assert (ww = []) as -> by (destruct ww; [done|exfalso; by apply Hw]).
  assert (rw = []) as -> by (destruct rw; [done|exfalso; by destruct Hd]). done.
Qed.
Print Assumptions C15_rwlock_free_no_waiter.
(** A new reader gets the lock at once iff no writer is inside or handed the lock, and none waits. *)
Theorem C15_rwlock_reader_admission es s os f s' b : run step sys_init es = Ok s os ->
  step s (RLock f) = Ok s' (Some b) ->
  (b = true <-> win s = [] /\ wwk s = [] /\ wr_wait (lk s) = []) /\
  (if b then rin s' = f :: rin s else rd_wait (lk s') = f :: rd_wait (lk s) /\ rin s' = rin s).
Proof.
  intros Hr Hst. assert (HI: I s) by (eapply (run_inv step I I_step); [exact I_init|exact Hr]).
  destruct HI as (_ & Hc & _). destruct s as [[rw ww c] ri wi rk wk]. cbn in *. destruct (decide _); [done|].
  unfold rlock_cs in Hst. cbn in Hst. destruct (bool_decide (c < 0)) eqn:E1; cbn in Hst.
  - injection Hst as <- <-. cbn. split; [|done]. split; [done|]. apply bool_decide_eq_true in E1.
    destruct Hc as [(_ & _ & _ & Hl)|(? & _)]; [|lia]. intros (-> & -> & _). done.
  - apply bool_decide_eq_false in E1. destruct Hc as [(? & _)|(_ & -> & -> & _)]; [lia|].
    destruct (bool_decide (ww = [])) eqn:E2; cbn in Hst; injection Hst as <- <-; cbn; (split; [|done]).
    + apply bool_decide_eq_true in E2. done.
    + apply bool_decide_eq_false in E2. split; [done|]. by intros (_ & _ & ?).
Qed.
Print Assumptions C15_rwlock_reader_admission.
(** Writer unlock: all waiting readers if there are any, otherwise one waiting writer, is handed the lock. *)
Theorem C15_rwlock_wunlock_wakes s f s' o : step s (WUnlock f) = Ok s' o ->
  (rd_wait (lk s) <> [] -> rwk s' = rd_wait (lk s) ++ rwk s /\ rd_wait (lk s') = [] /\ wr_wait (lk s') = wr_wait (lk s) /\ wwk s' = wwk s)
  /\ (rd_wait (lk s) = [] -> rwk s' = rwk s /\
       ((wr_wait (lk s) = [] /\ wwk s' = wwk s) \/ exists w, wr_wait (lk s) = w :: wr_wait (lk s') /\ wwk s' = w :: wwk s)).
Proof.
  destruct s as [[rw ww c] ri wi rk wk]. cbn. destruct (decide _); [|done]. unfold wunlock_cs. cbn.
  destruct (bool_decide _); [|done]. destruct rw as [|r rw].
  - unfold try_wakeup_writer. cbn. destruct ww as [|w ww]; intros [= <- <-]; cbn; (split; [done|]); intros _; (split; [done|]); [by left|right; eauto].
  - rewrite wake_readers_eq. intros [= <- <-]. cbn. split; [|done]. done.
Qed.
Print Assumptions C15_rwlock_wunlock_wakes.
(** The last reader's unlock hands the lock to one waiting writer if there is one; other reader unlocks wake nobody. *)
Theorem C15_rwlock_runlock_wakes es s os f s' o : run step sys_init es = Ok s os -> step s (RUnlock f) = Ok s' o ->
  rwk s' = rwk s /\
  if decide (remove1 f (rin s) = [] /\ rwk s = [] /\ wr_wait (lk s) <> [])
  then exists w, wr_wait (lk s) = w :: wr_wait (lk s') /\ wwk s' = w :: wwk s
  else wwk s' = wwk s.
Proof.
  intros Hr Hst. assert (HI: I s) by (eapply (run_inv step I I_step); [exact I_init|exact Hr]).
  destruct HI as (_ & Hc & _). destruct s as [[rw ww c] ri wi rk wk]. cbn in *. destruct (decide (f ∈ ri)) as [Hf|]; [|done].
  unfold runlock_cs in Hst. cbn in Hst. destruct (bool_decide (c > 0)) eqn:E1; [|done].
  apply bool_decide_eq_true in E1. destruct Hc as [(? & _)|(_ & -> & -> & Hc)]; [lia|].
  pose proof (remove1_length _ _ Hf) as Hl. rewrite app_length in Hc.
  destruct (bool_decide (c - 1 = 0)) eqn:E2; cbn in Hst.
  - apply bool_decide_eq_true in E2.
    assert (remove1 f ri = [] /\ rk = []) as [Er ->]. { destruct (remove1 f ri), rk; cbn in *; try done; lia. }
    unfold try_wakeup_writer in Hst. cbn in Hst. destruct ww as [|w ww]; injection Hst as <- <-; cbn; (split; [done|]).
    + rewrite decide_False by naive_solver. done.
    + rewrite decide_True by done. eauto.
  - apply bool_decide_eq_false in E2. injection Hst as <- <-. cbn. split; [done|]. rewrite decide_False; [done|].
    intros (E & -> & _). rewrite E in Hl. cbn in *. lia.
Qed.
Print Assumptions C15_rwlock_runlock_wakes.
Example C15_demo : exists s os, run step sys_init [RLock 1; WLock 2; RLock 3] = Ok s os /\
  exists s' o, step s (RUnlock 1) = Ok s' o /\ wwk s' = [2%positive].
Proof. eexists _, _. split; [reflexivity|]. eexists _, _. split; reflexivity. Qed.

(** C16 is false of the code: a writer unlock resumes a reader of its own selector thread while it still
    holds the internal mutex; if that reader then unlocks, the selector thread waits for itself. *)
Theorem C16_wunlock_refuted : wunlock_sync [mkreader true [Other; LockOp]] 0 = SelfDeadlock.
Proof. reflexivity. Qed.
Print Assumptions C16_wunlock_refuted.
(** True part: it finishes (with every reader counted) iff no reader of the unlocker's thread touches the lock
    before it next suspends. *)
Theorem C16_wunlock_partial (rs : list reader) (c : Z) :
  wunlock_sync rs c = Finished (c + Z.of_nat (length rs)) <->
  forall r, r ∈ rs -> same_thread r = true -> LockOp ∉ until_suspend r.
Proof.
  assert (Hrr: forall acts, run_reader true acts = true <-> LockOp ∉ acts).
  { induction acts as [|[] acts IH]; cbn; [set_solver|set_solver|]. rewrite IH. set_solver. }
  revert c. induction rs as [|r rs IH]; intros c; cbn [wunlock_sync].
  - split; [set_solver|]. intros _. f_equal. cbn. lia.
  - replace (c + Z.of_nat (length (r :: rs))) with (c + 1 + Z.of_nat (length rs)) by (cbn [length]; lia).
    destruct (same_thread r && negb (run_reader true (until_suspend r))) eqn:E.
    + apply andb_true_iff in E as [E1 E2]. apply negb_true_iff in E2. split; [done|]. intros H.
      exfalso. specialize (H r ltac:(set_solver) E1). apply Hrr in H. congruence.
    + rewrite IH. apply andb_false_iff in E. split.
      * intros H r' Hr'%elem_of_cons Hs. destruct Hr' as [->|Hr']; [|by apply H]. destruct E as [E|E]; [congruence|].
        apply negb_false_iff in E. by apply Hrr.
      * intros H r' Hr'. apply H. set_solver.
Qed.
Print Assumptions C16_wunlock_partial.
