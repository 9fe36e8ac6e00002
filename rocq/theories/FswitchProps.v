(** Property C23: fiber switching is properly nested.  Model: FswitchModel.v. *)
From Verif Require Import FswitchModel FswitchProof.
Local Open Scope Z_scope.

(** No schedule reaches a failed assertion (waking only suspended fibers or oneself, main never waits). *)
Theorem C23_switch_safe : safe step sys_init.
Proof. apply (safe_inv step IR); [apply IR_init|apply IR_step|apply IR_safe]. Qed.
Print Assumptions C23_switch_safe.
(** At any time the fibers resumed and not yet suspended form a duplicate-free chain from the current fiber to the
    selector's main loop, each resumed by the next (which is inside that kfiber_wakeup call); no suspended, finished or
    unstarted fiber is on it; its length is the nesting depth of the schedule. *)
Theorem C23_switch_chain es s os : run step sys_init es = Ok s os ->
  exists l, head l = Some (cur s) /\ linked s l /\ NoDup l
    /\ (forall x, x ∈ l -> x = cur s \/ exists g, ctx s x = AtWakeup g)
    /\ (forall x, (ctx s x = AtWait \/ ctx s x = AtExit \/ ctx s x = Dead \/ ctx s x = Unborn) -> x ∉ l)
    /\ Z.of_nat (length l) = 1 + depth es os.
Proof.
  intros Hr. destruct IR_init as (l0 & HI0 & HR0).
  destruct (run_depth es sys_init [main] s os I_init HR0 Hr) as (l & HI & HR & Hd).
  exists l. destruct HI as [Hhd Hlk Hnd Hon Hrun Hwf Hnf]. split_and!; try done.
  - intros x Hx. destruct (decide (x = cur s)); [by left|right]. revert Hlk Hx n. destruct l as [|c l]; [done|]. injection Hhd as ->.
    clear. generalize (cur s) as c. induction l as [|y l IH]; intros c Hlk Hx Hn; [set_solver|]. destruct Hlk as (_ & Hc & Hlk).
    destruct (decide (x = y)) as [->|Hxy]; [by eexists|]. apply (IH y Hlk); set_solver.
  - intros x Hc Hx. apply Hon in Hx. destruct Hc as [E|[E|[E|E]]]; by rewrite E in Hx.
Qed.
Print Assumptions C23_switch_chain.
(** When the current fiber suspends or finishes, control returns to the fiber that resumed it last, and this one
    continues exactly inside its kfiber_wakeup of the suspending fiber. *)
Theorem C23_switch_back es s os e s' o : run step sys_init es = Ok s os -> e = Wait \/ (exists v, e = Exit v) -> step s e = Ok s' o ->
  exists p, last_resumer sys_init es (cur s) None = Some p /\ cur s' = p /\ o = OEnter p (AtWakeup (cur s)) (ret s p) /\ p <> cur s.
Proof.
  intros Hr He Hst. pose proof (run_sf _ _ _ _ (cur s) Hr) as Hsf. cbn in Hsf.
  assert (HIR: IR s) by (eapply (run_inv step IR IR_step); [apply IR_init|exact Hr]). destruct HIR as (l & HI & HR).
  assert (Hl: forall p l', l = cur s :: p :: l' -> sf s (cur s) = Some p /\ p <> cur s).
  { intros p l' ->. destruct HI as [_ (Hs & _ & _) Hnd _ _ _ _]. split; [done|]. intros ->. apply NoDup_cons in Hnd as [? _]. set_solver. }
  destruct He as [->|[v ->]]; cbn [step] in Hst; (destruct (decide _) as [|Hm]; [done|]).
  - destruct (nf s (cur s)) eqn:Hn; [done|]. destruct (wait s AtWait) as [[s1 o1]|] eqn:E; cbn in Hst; [|done]. injection Hst as <- <-.
    destruct (leave_inv _ _ _ _ _ HI Hm Hn (or_introl eq_refl) E) as (p & l' & El & H1 & H2 & -> & _).
    destruct (Hl _ _ El). exists p. split_and!; try done. congruence.
  - cbn in Hst. match type of Hst with context [wait ?x _] => set (s0 := x) in * end.
    destruct (wait s0 AtExit) as [[s1 o1]|] eqn:E; cbn in Hst; [|done]. injection Hst as <- <-.
    assert (HI0: I s0 l) by (apply (set_ret_inv (clear_flags s (cur s))), clear_inv; exact HI).
    destruct (leave_inv s0 l _ _ _ HI0 Hm ltac:(cbn; by rewrite upd_eq) (or_intror eq_refl) E) as (p & l' & El & H1 & H2 & -> & _).
    destruct (Hl _ _ El) as [Hs Hne]. exists p. split_and!; try done; [congruence|]. cbn. by rewrite upd_ne.
Qed.
Print Assumptions C23_switch_back.
(** A wake-up of a suspended fiber enters it exactly at its wait, with the given value; a new fiber begins at its start. *)
Theorem C23_resume_value es s os g v s' o : run step sys_init es = Ok s os ->
  (step s (Wakeup g v) = Ok s' o -> g <> cur s -> cur s' = g /\ o = OEnter g AtWait v) /\
  (step s (Spawn g v) = Ok s' o -> cur s' = g /\ o = OEnter g Unborn v).
Proof.
  intros Hr. assert (HIR: IR s) by (eapply (run_inv step IR IR_step); [apply IR_init|exact Hr]). destruct HIR as (l & HI & HR).
  cbn [step]. split.
  - destruct (decide _) as [Hc|]; [|destruct (decide _) as [[? _]|]; naive_solver].
    destruct (wakeup s g v) as [[s1 o1]|] eqn:E; cbn; [|done]. intros [= <- <-] _.
    destruct (enter_inv _ _ _ _ _ _ HI (or_intror Hc) E) as (_ & H2 & ->). by rewrite Hc.
  - destruct (decide _) as [Hc|]; [|done].
    destruct (wakeup s g v) as [[s1 o1]|] eqn:E; cbn; [|done]. intros [= <- <-].
    destruct (enter_inv _ _ _ _ _ _ HI (or_introl Hc) E) as (_ & H2 & ->). by rewrite Hc.
Qed.
Print Assumptions C23_resume_value.
(** A suspended fiber stays suspended at its wait until it is woken. *)
Theorem C23_suspended_stays es s os e s' o x : run step sys_init es = Ok s os -> step s e = Ok s' o ->
  ctx s x = AtWait -> (forall v, e <> Wakeup x v) -> ctx s' x = AtWait.
Proof.
  intros Hr Hst Hx Hne. assert (HIR: IR s) by (eapply (run_inv step IR IR_step); [apply IR_init|exact Hr]). destruct HIR as (l & HI & HR).
  assert (Hxl: x ∉ l) by (destruct HI as [_ _ _ Hon _ _ _]; rewrite Hon, Hx; done).
  assert (Hxc: x <> cur s) by (destruct HI; congruence).
  assert (Hwk: forall g v, x <> g -> wakeup s g v = Some (s', o) -> ctx s' x = AtWait).
  { intros g v Hg. unfold wakeup. destruct (nf s g); [done|]. cbn. destruct (decide _); intros [= <- <-]; [done|]. cbn. by rewrite !upd_ne. }
  assert (Hwt: forall s0 a p, sf s (cur s) = Some p -> p ∈ l -> sf s0 = sf s -> ctx s0 = ctx s -> cur s0 = cur s -> wait s0 a = Some (s', o) -> ctx s' x = AtWait).
  { intros s0 a p Hp Hpl E1 E2 E3. unfold wait. rewrite E1, E3, Hp. destruct (wf s0 _); [done|]. destruct (decide _); [done|].
    intros [= <- <-]. cbn. rewrite E2. rewrite !upd_ne; [done|done|]. intros ->. done. }
  assert (Hp: cur s <> main -> exists p, sf s (cur s) = Some p /\ p ∈ l).
  { intros Hm. destruct HI as [Hhd Hlk _ _ _ _ _]. destruct l as [|c [|p l]]; [done|cbn in *; congruence|]. injection Hhd as ->.
    exists p. destruct Hlk as [? _]. split; [done|set_solver]. }
  destruct e as [g v|g v| | |v|]; cbn [step] in Hst.
  - destruct (decide _); [|done]. destruct (wakeup s g v) as [[]|] eqn:E; [|done]. injection Hst as <- <-. eapply Hwk; [|done]. congruence.
  - assert (Hg: x <> g) by (intros ->; by eapply Hne).
    destruct (decide _); [destruct (wakeup s g v) as [[]|] eqn:E; [|done]; injection Hst as <- <-; by eapply Hwk|].
    destruct (decide _); [|done]. destruct (wakeup s g v) as [[]|] eqn:E; [|done]; injection Hst as <- <-; by eapply Hwk.
  - destruct (nf s _); [|done]. destruct (wf s _); [done|]. by injection Hst as <- <-.
  - destruct (decide _) as [|Hm]; [done|]. destruct (nf s _); [done|]. destruct (wait s AtWait) as [[]|] eqn:E; [|done]. injection Hst as <- <-.
    destruct (Hp Hm) as (p & ? & ?). by eapply Hwt.
  - destruct (decide _) as [|Hm]; [done|]. cbn in Hst. match type of Hst with context [wait ?y _] => destruct (wait y AtExit) as [[]|] eqn:E end; [|done].
    injection Hst as <- <-. destruct (Hp Hm) as (p & ? & ?). by eapply (Hwt _ _ p _ _ _ _ _ E).
  - destruct (decide _); [|done]. destruct (ready s) as [|f fs] eqn:Er; [done|]. destruct (decide _); [|done]. injection Hst as <- <-. cbn.
    rewrite upd_ne; [done|]. congruence.
Unshelve. all: done.
Qed.
Print Assumptions C23_suspended_stays.
Definition swdemo := [Spawn 2 7; Spawn 3 8; Wait; Wakeup 2 5; TakeSelf; Wakeup 3 9; Wait; Exit 1; Wakeup 3 4; Exit 2; RunExit; RunExit].
Example C23_demo : exists s, run step sys_init swdemo =
  Ok s [OEnter 2 Unborn 7; OEnter 3 Unborn 8; OEnter 2 (AtWakeup 3) 7; OSelf; ODone; OEnter 3 AtWait 9;
        OEnter 2 (AtWakeup 3) 5; OEnter 1 (AtWakeup 2) 0; OEnter 3 AtWait 4; OEnter 1 (AtWakeup 3) 0; ODone; ODone] /\ cur s = main.
Proof. eexists. split; [vm_compute; reflexivity|reflexivity]. Qed.
