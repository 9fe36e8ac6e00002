(** Properties C25-C27: selector timers.  Model: TimerModel.v (on the pointer-level red-black tree);
    specification: TimerSpec.v. *)
From Verif Require Import RbModel TimerModel TimerSpec TimerProof.
From Coq Require Import Sorting.Sorted.
Local Open Scope Z_scope.

(** C25.  Whatever addresses malloc returns, every history of kselector_add_timer, clock updates, clock
    adjustments and timeout passes (whose callbacks may add timers) runs without touching NULL or freed
    memory and without failing the assertion block_first == rb_first, and its callbacks are those of
    the specification [truns]: in a pass exactly the due timers, each once, in order of deadline,
    and none of the timers registered during the pass. *)
Theorem C25_timers alloc now0 (os : list top) :
  (forall k X, alloc k X ∉ X) ->
  exists t fs now P, texec_all alloc (tsel_new now0) os = Some (t, fs)
    /\ truns (now0, []) os fs (now, P) /\ clk t = now.
Proof.
  intros HA. destruct (texec_all_ok alloc HA os _ _ (tinv_new now0)) as (t & l & E & _ & HQ).
  pose proof (qrun_ok os (now0, []) ltac:(constructor)) as HR.
  cbn in E, HQ. rewrite <- HQ in HR. exists t, (qrun (now0, []) os).1, (clk t), (flat l). done.
Qed.
Print Assumptions C25_timers.

(** C25, consequence on the specification: at any time every registered timer either was called back
    once or is pending; nothing else is called. *)
Lemma registered_ids now cb ids : (registered now cb ids).*2 = ids ≫= fun i => (cb i).*1.
Proof.
  unfold registered. induction ids as [|i ids IH]; [done|]. cbn. rewrite fmap_app, IH. f_equal.
  rewrite <- list_fmap_compose. done.
Qed.
Lemma shift_ids d P : (shift d P).*2 = P.*2.
Proof. unfold shift. rewrite <- list_fmap_compose. done. Qed.
Lemma once_gen s os fs s' : truns s os fs s' ->
  mjoin fs ++ s'.2.*2 ≡ₚ s.2.*2 ++ all_registered os fs.
Proof.
  induction 1 as [s|s o f s' os fs s'' Hs Hr IH]; cbn.
  - by rewrite app_nil_r.
  - rewrite <- app_assoc, IH. clear IH Hr. inversion Hs as [now P id ms P' HP|now P now' P' HP|now P d P' HP|now P cb due later P' HP _ _ _ HP']; subst; cbn.
    + rewrite HP. cbn. solve_Permutation.
    + rewrite HP. case_decide; by rewrite ?shift_ids.
    + by rewrite HP, shift_ids.
    + rewrite HP, HP', !fmap_app, registered_ids. solve_Permutation.
Qed.
Theorem C25_each_once now0 os fs now P :
  truns (now0, []) os fs (now, P) -> mjoin fs ++ P.*2 ≡ₚ all_registered os fs.
Proof. intros H. by apply once_gen in H. Qed.
Print Assumptions C25_each_once.

Definition some_alloc (k : nat) (X : gset positive) : positive := fresh X.
Lemma some_alloc_fresh k X : some_alloc k X ∉ X.
Proof. apply is_fresh. Qed.
(** a history: out of order registration, equal deadlines, a callback that registers a timer that is
    already due, a clock jump backwards over a second *)
Definition no_cb : callbacks := fun _ => [].
Definition cb7 : callbacks := fun i => if decide (i = 3%nat) then [(7%nat, 0)] else [].
Definition demo : list top :=
  [TAdd 1 50; TAdd 2 20; TAdd 3 10; TAdd 4 20; TAdd 5 90; TPass no_cb; TTime 5020; TPass cb7;
   TPass no_cb; TTime 4000; TPass no_cb; TTime 4030; TPass no_cb; TTime 9000; TPass no_cb].
Example C25_demo : snd <$> texec_all some_alloc (tsel_new 5000) demo =
  Some [[]; []; []; []; []; []; []; [3; 4; 2]; [7]; []; []; []; [1]; []; [5]]%nat.
Proof. vm_compute. reflexivity. Qed.

(** C26 does not hold: timers with the same deadline are called newest first. *)
Theorem C26_fifo_refuted :
  ~ (forall alloc now0 ms i j, (forall k X, alloc k X ∉ X) -> 0 <= ms ->
       snd <$> texec_all alloc (tsel_new now0) [TAdd i ms; TAdd j ms; TTime (now0 + ms); TPass no_cb]
       = Some [[]; []; []; [i; j]]).
Proof.
  intros H. specialize (H some_alloc 0 0 1%nat 2%nat some_alloc_fresh ltac:(lia)). revert H. vm_compute. congruence.
Qed.
Print Assumptions C26_fifo_refuted.
(** What holds instead: the exact order, for every history, is that of the queue [qrun], in which a new
    timer goes in front of those with equal deadline. *)
Theorem C26_exact_order_partial alloc now0 os :
  (forall k X, alloc k X ∉ X) ->
  exists t, texec_all alloc (tsel_new now0) os = Some (t, (qrun (now0, []) os).1).
Proof.
  intros HA. destruct (texec_all_ok alloc HA os _ _ (tinv_new now0)) as (t & l & E & _ & HQ). cbn in E. eauto.
Qed.
Print Assumptions C26_exact_order_partial.

(** C27.  After any history, if the clock jumps back to an earlier second, then the pass [delta] ms later
    calls exactly the timers, in the same order, that the pass [delta] ms later would have called without
    the jump: every timer keeps its remaining time. *)
Lemma shift_shift P : forall d, (shift d P) = (fun e => (e.1 + d, e.2)) <$> P.
Proof. done. Qed.
Lemma split_due_shift d now P a b : split_due now P = (a, b) -> split_due (now + d) (shift d P) = (shift d a, shift d b).
Proof.
  revert a b; induction P as [|[x i] P IH]; intros a b; cbn [split_due shift fmap list_fmap fst].
  - by intros [= <- <-].
  - destruct (split_due now P) as [a' b']. specialize (IH _ _ eq_refl). unfold shift in IH.
    destruct (decide (x <= now)); rewrite ?decide_True, ?decide_False by lia.
    + rewrite IH. by intros [= <- <-].
    + by intros [= <- <-].
Qed.
Lemma qrun_cons s o os : qrun s (o :: os) = let '(f, s) := qstep s o in let '(fs, s) := qrun s os in (f :: fs, s).
Proof. done. Qed.
Theorem C27_clock_jump alloc now0 os t fs (n delta : Z) cb :
  (forall k X, alloc k X ∉ X) ->
  texec_all alloc (tsel_new now0) os = Some (t, fs) ->
  n / 1000 < clk t / 1000 -> 0 <= delta ->
  exists t1 t2 fired,
    texec_all alloc t [TTime n; TTime (n + delta); TPass cb] = Some (t1, [[]; []; fired]) /\
    texec_all alloc t [TTime (clk t + delta); TPass cb] = Some (t2, [[]; fired]).
Proof.
  intros HA E Hn Hd.
  destruct (texec_all_ok alloc HA os _ _ (tinv_new now0)) as (t' & l & E' & HI & HQ).
  rewrite E in E'. simplify_eq. clear E HQ.
  destruct (texec_all_ok alloc HA [TTime n; TTime (n + delta); TPass cb] _ _ HI) as (t1 & l1 & E1 & _ & _).
  destruct (texec_all_ok alloc HA [TTime (clk t' + delta); TPass cb] _ _ HI) as (t2 & l2 & E2 & _ & _).
  rewrite E1, E2. clear E1 E2.
  assert (H1 : n / 1000 <= (n + delta) / 1000) by (apply Z.div_le_mono; lia).
  assert (H2 : clk t' / 1000 <= (clk t' + delta) / 1000) by (apply Z.div_le_mono; lia).
  cbn [qrun qstep]. rewrite (decide_True (P := n / 1000 < clk t' / 1000)) by done.
  rewrite (decide_False (P := (n + delta) / 1000 < n / 1000)) by lia.
  rewrite (decide_False (P := (clk t' + delta) / 1000 < clk t' / 1000)) by lia.
  destruct (split_due (clk t' + delta) (flat l)) as [a b] eqn:Es.
  pose proof (split_due_shift (n - clk t') _ _ _ _ Es) as Hsh.
  replace (clk t' + delta + (n - clk t')) with (n + delta) in Hsh by lia. rewrite Hsh. cbn.
  rewrite shift_ids. eauto.
Qed.
Print Assumptions C27_clock_jump.
(** the same for kselector_adjust_time itself: it moves every deadline by [d] and keeps the order *)
Theorem C27_adjust alloc now0 os t fs d cb :
  (forall k X, alloc k X ∉ X) ->
  texec_all alloc (tsel_new now0) os = Some (t, fs) ->
  exists P t1 t2 P1, truns (now0, []) os fs (clk t, P) /\
    texec_all alloc t [TAdjust d; TTime (clk t); TPass cb] = Some (t1, [[]; []; P1.*2]) /\
    texec_all alloc t [TAdjust 0; TTime (clk t); TPass no_cb] = Some (t2, [[]; []; (split_due (clk t) P).1.*2]) /\
    P1 = (split_due (clk t - d) P).1.
Proof.
  intros HA E.
  destruct (texec_all_ok alloc HA os _ _ (tinv_new now0)) as (t' & l & E' & HI & HQ).
  rewrite E in E'. simplify_eq. clear E.
  pose proof (qrun_ok os (now0, []) ltac:(constructor)) as HR. cbn in HQ. rewrite <- HQ in HR.
  exists (flat l).
  destruct (texec_all_ok alloc HA [TAdjust d; TTime (clk t'); TPass cb] _ _ HI) as (t1 & l1 & E1 & _ & _).
  destruct (texec_all_ok alloc HA [TAdjust 0; TTime (clk t'); TPass no_cb] _ _ HI) as (t2 & l2 & E2 & _ & _).
  exists t1, t2, (split_due (clk t' - d) (flat l)).1. split; [exact HR|]. rewrite E1, E2. clear E1 E2.
  cbn [qrun qstep]. rewrite !(decide_False (P := clk t' / 1000 < clk t' / 1000)) by lia.
  destruct (split_due (clk t' - d) (flat l)) as [a b] eqn:Es.
  pose proof (split_due_shift d _ _ _ _ Es) as Hsh.
  replace (clk t' - d + d) with (clk t') in Hsh by lia. rewrite Hsh. cbn.
  rewrite shift_ids. split_and!; try done. 
  assert (Hz : shift 0 (flat l) = flat l).
  { unfold shift. rewrite <- (list_fmap_id (flat l)) at 2. apply list_fmap_ext. intros _ [x i] _. cbn. f_equal. lia. }
  rewrite Hz. by destruct (split_due (clk t') (flat l)).
Qed.
Print Assumptions C27_adjust.

(** Limit of C27: a jump back inside one second is not compensated; the timer is late by the jump. *)
Theorem C27_same_second_refuted :
  ~ (forall alloc now0 ms n, (forall k X, alloc k X ∉ X) -> 0 <= ms -> n < now0 ->
       snd <$> texec_all alloc (tsel_new now0) [TAdd 1 ms; TTime n; TTime (n + ms); TPass no_cb]
       = Some [[]; []; []; [1%nat]]).
Proof.
  intros H. specialize (H some_alloc 5900 50 5100 some_alloc_fresh ltac:(lia) ltac:(lia)). revert H. vm_compute. congruence.
Qed.
Print Assumptions C27_same_second_refuted.
(** Limit: a jump forward is not compensated at all; a timer is called early by the jump *)
Theorem C27_forward_refuted :
  ~ (forall alloc now0 ms n, (forall k X, alloc k X ∉ X) -> 0 < ms -> now0 < n ->
       snd <$> texec_all alloc (tsel_new now0) [TAdd 1 ms; TTime n; TPass no_cb]
       = Some [[]; []; []]).
Proof.
  intros H. specialize (H some_alloc 5000 50 6000 some_alloc_fresh ltac:(lia) ltac:(lia)). revert H. vm_compute. congruence.
Qed.
Print Assumptions C27_forward_refuted.
