(** Properties C11-C13: kfiber_mutex.  Model: FmutexModel.v ([holding] = fibers between the return of
    lock/try_lock and their unlock; [woken] = handed the lock, resumption pending). *)
From Verif Require Import FmutexModel FmutexProof.
Local Open Scope Z_scope.

(** C11.  Limit fixed at L: in every schedule, of any number of fibers and callbacks, at most L are inside
    (and the ones inside are distinct). *)
Theorem C11_mutex_bound (asrt : bool) (L : Z) (es : list ev) s os : 1 <= L -> Forall no_set es ->
  run (step asrt) (sys_init L) es = Ok s os ->
  NoDup (holding s) /\ Z.of_nat (length (holding s)) <= L.
Proof.
  intros HL Hns Hr. assert (Hi: Ilim L s).
  { eapply (run_inv_on (step asrt) no_set (Ilim L)); [|exact Hns| |exact Hr].
    - intros ? ? ? ? ?. by apply Ilim_step.
    - split; [by apply I0_init|]. cbn. split_and!; try done. lia. }
  destruct Hi as ((Hn & Hw & _) & _ & Hle & _). apply NoDup_app in Hn as [Hn _]. split; [done|]. lia.
Qed.
Print Assumptions C11_mutex_bound.
(** the default mutex (kfiber_mutex_init: limit 1) is mutual exclusion *)
Theorem C11_mutex_exclusive (asrt : bool) (es : list ev) s os f g : Forall no_set es ->
  run (step asrt) (sys_init 1) es = Ok s os -> f ∈ holding s -> g ∈ holding s -> f = g.
Proof.
  intros Hns Hr Hf Hg. destruct (C11_mutex_bound asrt 1 es s os ltac:(lia) Hns Hr) as [_ Hl].
  destruct (holding s) as [|x [|y l]]; cbn in Hl; [set_solver|set_solver|lia].
Qed.
Print Assumptions C11_mutex_exclusive.
Definition mdemo : list ev := [Lock 1 0; Lock 2 0; Lock 3 0; Lock 4 3; Unlock 1; Resume 3; Lock 1 0; Unlock 2; Resume 1].
Example C11_demo : exists s, run (step true) (sys_init 2) mdemo =
    Ok s [Some Acquired; Some Acquired; Some MustWait; Some Refused; None; None; Some MustWait; None; None]
  /\ holding s = [1; 3]%positive.
Proof. eexists. split; vm_compute; reflexivity. Qed.

(** C12.  Limit fixed, fiber locks only, asserts on: no schedule fails an assertion; in every reachable state
    the count is holders + handed-over + waiting, somebody waits only while all L slots are taken, and when
    nobody is inside and no hand-over is pending the mutex is in its initial state. *)
Theorem C12_mutex_state (L : Z) (es : list ev) : 1 <= L -> Forall no_set es -> Forall no_lock2 es ->
  run (step true) (sys_init L) es <> Crash /\
  forall s os, run (step true) (sys_init L) es = Ok s os ->
    count (mx s) = Z.of_nat (length (holding s ++ woken s ++ waiter (mx s)))
    /\ (waiter (mx s) <> [] -> Z.of_nat (length (holding s ++ woken s)) = L)
    /\ (holding s = [] -> woken s = [] -> mx s = mutex_init L).
Proof.
  intros HL Hns Hnl. split; [by apply safe_nolock2|]. intros s os Hr.
  assert (Hi: Ilim L s).
  { eapply (run_inv_on (step true) no_set (Ilim L)); [|exact Hns| |exact Hr].
    - intros ? ? ? ? ?. by apply Ilim_step.
    - split; [by apply I0_init|]. cbn. split_and!; try done. lia. }
  assert (Hc: Icnt s).
  { eapply (run_inv_on (step true) no_lock2 Icnt); [|exact Hnl| |exact Hr].
    - intros ? ? ? ? ?. by apply Icnt_step.
    - split; [by apply I0_init|done]. }
  destruct Hi as ((Hn & Hw & Hq0 & _) & HLs & Hle & Hq), Hc as (_ & Hc). split_and!.
  - rewrite !app_length. lia.
  - intros Hx. rewrite app_length. specialize (Hq Hx). lia.
  - intros H1 H2. rewrite H1, H2 in *. cbn in *. destruct (mx s) as [w c k l]. cbn in *.
    assert (w = []) as -> by (destruct w; [done|exfalso; by assert (0 < k) by auto; lia]).
    cbn in Hc. unfold mutex_init. f_equal; lia.
Qed.
Print Assumptions C12_mutex_state.

(** C12, single calls in any reachable state (any limit history, any mix): try_lock(max) refuses exactly when
    max > 0 and count >= max, and otherwise takes a slot at once iff one is free *)
Theorem C12_mutex_trylock asrt s f max : ~ busy s f ->
  exists s' r, step asrt s (Lock f max) = Ok s' (Some r) /\
    (r = Refused <-> max > 0 /\ count (mx s) >= max) /\
    (r = Acquired -> f ∈ holding s') /\ (r = MustWait -> f ∈ waiter (mx s') /\ limit (mx s) <= worker (mx s)) /\
    (r = Refused -> s' = s).
Proof.
  intros Hb. assert (exists s' o, step asrt s (Lock f max) = Ok s' o) as (s' & o & E).
  { cbn. rewrite decide_False by done. destruct (lock_cs _ _ _). eauto. }
  pose proof (step_lock _ _ _ _ _ _ E) as (_ & _ & _ & [(-> & -> & H1 & H2)|(H1 & _ & [(-> & H2 & _ & H3 & _)|(-> & H2 & _ & _ & H3)])]);
    eexists _, _; (split; [exact E|]); split_and!; try done; try (split; [done|lia]); try set_solver; rewrite H3; set_solver.
Qed.
Print Assumptions C12_mutex_trylock.
(** an unlock with waiters hands its slot to exactly one of them, which is then resumed holding the lock *)
Theorem C12_mutex_handover asrt s s' o f : step asrt s (Unlock f) = Ok s' o -> waiter (mx s) <> [] ->
  exists w, waiter (mx s) = w :: waiter (mx s') /\ woken s' = w :: woken s /\ holding s' = remove1 f (holding s)
    /\ worker (mx s') = worker (mx s)
    /\ exists s2 o2, step asrt s' (Resume w) = Ok s2 o2 /\ w ∈ holding s2 /\ waiter (mx s2) = waiter (mx s').
Proof.
  intros Hst Hne. pose proof (step_unlock _ _ _ _ _ Hst) as (_ & Hh & _ & _ & [(? & _)|(w & H1 & H2 & H3)]); [done|].
  exists w. split_and!; try done. eexists _, _. cbn. rewrite decide_True by (rewrite H2; set_solver). split; [reflexivity|].
  cbn. set_solver.
Qed.
Print Assumptions C12_mutex_handover.
Example C12_demo : exists s os, run (step true) (sys_init 1) [Lock 1 0; Lock 2 0] = Ok s os /\ waiter (mx s) = [2%positive]
  /\ exists s' o, step true s (Unlock 1) = Ok s' o.
Proof. eexists _, _. split; [reflexivity|]. split; [reflexivity|]. eexists _, _. reflexivity. Qed.
(** Raising the limit wakes nobody: after kfiber_mutex_set_limit a fiber can wait although a slot is free. *)
Theorem C12_set_limit_refuted : exists es s os, run (step true) (sys_init 1) es = Ok s os
  /\ waiter (mx s) <> [] /\ worker (mx s) < limit (mx s).
Proof. exists [Lock 1 0; Lock 2 0; SetLimit 5]. eexists _, _. split; [reflexivity|]. vm_compute. done. Qed.
Print Assumptions C12_set_limit_refuted.
(** ... but even then the waiter is not lost: while anyone waits somebody holds or is about to hold the lock *)
Theorem C12_no_stranded_waiter asrt L es s os : 1 <= L -> run (step asrt) (sys_init L) es = Ok s os ->
  waiter (mx s) <> [] -> holding s ++ woken s <> [].
Proof.
  intros HL Hr Hw. assert (Hi: I0 s).
  { eapply (run_inv (step asrt) I0); [|by apply I0_init|exact Hr]. intros ? ? ? ?. apply I0_step. }
  destruct Hi as (_ & H1 & H2 & _). specialize (H2 Hw). intros E. apply app_eq_nil in E as [E1 E2]. rewrite E1, E2 in H1. cbn in H1. lia.
Qed.
Print Assumptions C12_no_stranded_waiter.

(** C13 is false of the code: unlocking a lock taken with kfiber_mutex_lock2 fails assert(count > 0). *)
Theorem C13_lock2_refuted : run (step true) (sys_init 1) [Lock2 1; Resume 1; Unlock 1] = Crash.
Proof. reflexivity. Qed.
Print Assumptions C13_lock2_refuted.
(** Without asserts (NDEBUG) the schedule runs and the count becomes wrong (negative). *)
Theorem C13_lock2_count_refuted : exists s os, run (step false) (sys_init 1) [Lock2 1; Resume 1; Unlock 1] = Ok s os
  /\ count (mx s) = -1 /\ holding s = [] /\ woken s = [] /\ waiter (mx s) = [].
Proof. eexists _, _. split; [reflexivity|]. done. Qed.
Print Assumptions C13_lock2_count_refuted.
(** True part: in an NDEBUG build no schedule mixing lock, try_lock, lock2, unlock and set_limit fails (the slot
    accounting is right), and the number of slots taken is exact. *)
Theorem C13_lock2_slots_partial (L : Z) (es : list ev) : 1 <= L ->
  run (step false) (sys_init L) es <> Crash /\
  forall s os, run (step false) (sys_init L) es = Ok s os ->
    worker (mx s) = Z.of_nat (length (holding s ++ woken s)) /\ NoDup (holding s ++ woken s ++ waiter (mx s)).
Proof.
  intros HL. split; [by apply safe_nolock2|]. intros s os Hr. assert (Hi: I0 s).
  { eapply (run_inv (step false) I0); [|by apply I0_init|exact Hr]. intros ? ? ? ?. apply I0_step. }
  destruct Hi as (H0 & H1 & _). split; [rewrite app_length; lia|done].
Qed.
Print Assumptions C13_lock2_slots_partial.

(** The waiters are served newest first: a fiber that waits first may be overtaken for ever. *)
Theorem C12_mutex_lifo : exists s os, run (step true) (sys_init 1)
    [Lock 1 0; Lock 2 0; Lock 3 0; Unlock 1] = Ok s os /\ woken s = [3%positive] /\ waiter (mx s) = [2%positive].
Proof. eexists _, _. split; [reflexivity|]. done. Qed.
