(** C46: what a kcond guarantees, and what it does not *)
From Verif Require Import Lts KcondModel.

Definition not_spurious (e : evt) : Prop := match e with Spurious _ => False | _ => True end.
(** reachable without a spurious wakeup *)
Definition reach_ns (a : bool) (s : st) : Prop := exists es os, Forall not_spurious es /\ run step (init a) es = Ok s os.
Lemma run_inv_f (P : evt -> Prop) (I : st -> Prop) : (forall s e s' o, P e -> I s -> step s e = Ok s' o -> I s') ->
  forall es s s' os, Forall P es -> I s -> run step s es = Ok s' os -> I s'.
Proof.
  intros Hst es. induction es as [|e es IH]; intros s s' os F HI; cbn [run]; [by intros [= <- <-]|]. apply Forall_cons in F as [F1 F].
  destruct (step s e) as [| |s1 o] eqn:E1; try done. destruct (run step s1 es) as [| |s2 os2] eqn:E2; try done. intros [= -> <-]. eapply IH; [done| |done]. by eapply Hst.
Qed.
Ltac inv_step e H :=
  destruct e as [?t|?t| |?c|?t|?t]; cbn [step] in H;
  repeat match type of H with context [decide ?P] => destruct (decide P) | context [if ev ?s then _ else _] => destruct (ev s) eqn:?Ev | context [if auto ?s then _ else _] => destruct (auto s) eqn:?Au
    | context [match asleep ?s with _ => _ end] => destruct (asleep s) eqn:?As | context [match ?c with Some _ => _ | None => _ end] => destruct c end; try done; injection H as <- <-; cbn [auto ev asleep woken notices rets] in *.

(** ** nobody is left behind: as long as the event is signalled and a thread sleeps in kcond_wait, a wakeup is on its
    way; in manual mode nobody sleeps at all while the event is signalled.  With spurious wakeups too. *)
Definition Inv1 (s : st) : Prop := ev s = true -> asleep s <> [] -> woken s <> [] /\ auto s = true.
Lemma inv1_step s e s' o : Inv1 s -> step s e = Ok s' o -> Inv1 s'.
Proof. unfold Inv1. intros HI H. inv_step e H; try done; try (intros; split; done); try (by intros _ ?; specialize (HI eq_refl)); try naive_solver.
  intros E _. destruct HI as [_ ?]; [done| |done]. intros E2. rewrite E2 in e. by apply elem_of_nil in e.
Qed.
Theorem C46_no_stranded_partial : forall a s, reachable step (init a) s -> ev s = true -> asleep s <> [] -> woken s <> [] /\ auto s = true.
Proof. intros a s. apply (reach_inv step Inv1); [done|apply inv1_step]. Qed.
(** in particular a wait that starts after a notice, with no other wait and no reset in between, returns at once *)
Theorem C46_notice_wait : forall a s s1 o (c : option nat) t, reachable step (init a) s -> step s (Notice c) = Ok s1 o -> t ∉ asleep s1 ++ woken s1 ->
  exists s2, step s1 (Wait t) = Ok s2 Returned.
Proof.
  intros a s s1 o c t _ H Ht. cbn [step] in *. rewrite decide_False by done. assert (E : ev s1 = true); [|rewrite E; by eexists].
  cbn [step] in H. destruct (auto s), (asleep s), c; try case_decide; try done; by injection H as <- <-.
Qed.

(** ** without spurious wakeups nothing returns without a notice *)
Definition Inv2 (s : st) : Prop := notices s = 0 -> ev s = false /\ woken s = [] /\ rets s = 0.
Lemma inv2_step s e s' o : not_spurious e -> Inv2 s -> step s e = Ok s' o -> Inv2 s'.
Proof.
  unfold Inv2. intros Hn HI H. inv_step e H; try done; intros HN; specialize (HI HN) as (? & E & ?); try done; try congruence.
  all: rewrite E in *; try (by apply elem_of_nil in e); try done.
Qed.
Theorem C46_no_return_without_notice_partial : forall a s, reach_ns a s -> notices s = 0 -> rets s = 0.
Proof. intros a s (es & os & F & R). apply (run_inv_f not_spurious Inv2 inv2_step _ _ _ _ F) in R; [|done]. intros H. by apply R. Qed.
(** auto reset: a notice releases at most two waits *)
Definition Inv3 (s : st) : Prop := auto s = true /\ rets s + length (woken s) + (if ev s then 1 else 0) <= 2 * notices s.
Lemma inv3_step s e s' o : not_spurious e -> Inv3 s -> step s e = Ok s' o -> Inv3 s'.
Proof.
  unfold Inv3. intros Hn [HA HI] H. inv_step e H; try done; try congruence; split; try done; cbn [length]; try (rewrite ?Ev in *; lia).
  all: try (match goal with s : st |- _ => destruct (ev s); lia end).
  all: match goal with H : _ ∈ woken _ |- _ => apply remove1_length in H end; repeat match goal with |- context [if ?b then _ else _] => destruct b | H : context [if ?b then _ else _] |- _ => destruct b end; lia.
Qed.
Theorem C46_auto_two_partial : forall s, reach_ns true s -> rets s <= 2 * notices s.
Proof. intros s (es & os & F & R). apply (run_inv_f not_spurious Inv3 inv3_step _ _ _ _ F) in R as [_ R]; [lia|]. split; [done|cbn; lia]. Qed.
(** auto reset with one thread [t] that waits (the way the library itself uses a kcond): one wait per notice *)
Definition only_waiter (t : nat) (e : evt) : Prop := match e with Wait u | TryWait u => u = t | Spurious _ => False | _ => True end.
Definition Inv4 (t : nat) (s : st) : Prop := auto s = true /\
  (asleep s = [] \/ (asleep s = [t] /\ woken s = [] /\ ev s = false)) /\ (woken s = [] \/ woken s = [t]) /\
  rets s + (if ev s then 1 else match woken s with [] => 0 | _ => 1 end) <= notices s.
Lemma inv4_step t s e s' o : only_waiter t e -> Inv4 t s -> step s e = Ok s' o -> Inv4 t s'.
Proof.
  unfold Inv4. intros Hn (HA & H1 & H2 & H3) H.
  destruct H1 as [E1|(E1 & E2 & E3)]; [destruct H2 as [E2|E2]|clear H2].
  all: inv_step e H; rewrite ?E1, ?E2 in *; cbn [app remove1] in *; cbn in Hn; subst; try done; try congruence;
    repeat match goal with H : _ ∈ [_] |- _ => apply elem_of_list_singleton in H as -> | H : _ ∉ [_] |- _ => exfalso; apply H; by apply elem_of_list_singleton
      | H : [_] = _ :: _ |- _ => injection H as <- <- | H : _ ∈ [] |- _ => by apply elem_of_nil in H end.
  all: rewrite ?decide_True by done; try (split_and!; try done; try (by left); try (by right); try (by right; split_and!); rewrite ?Ev in *; try lia; match goal with s : st |- _ => destruct (ev s); lia end).
  injection E1 as -> ->. rewrite decide_True by done. rewrite E3 in H3. split_and!; try done; [by left|by right|lia].
Qed.
Theorem C46_single_waiter_partial : forall t es s os, Forall (only_waiter t) es -> run step (init true) es = Ok s os -> rets s <= notices s.
Proof.
  intros t es s os F R. apply (run_inv_f (only_waiter t) (Inv4 t) (inv4_step t) _ _ _ _ F) in R as (_ & _ & _ & R); [lia|]. split_and!; try done; by left.
Qed.

(** ** what fails *)
(** one notice releases two waits: the notice wakes thread 1, thread 2 takes the fast path before thread 1 runs *)
Theorem C46_two_releases_refuted : exists s, run step (init true) [Wait 1; Notice (Some 1); Wait 2; Resume 1] = Ok s [Blocked; Done; Returned; Returned] /\ notices s = 1 /\ rets s = 2.
Proof. eexists. split_and!; reflexivity. Qed.
(** a notice is lost: two notices, two waits, but the second wait blocks (the wakeup of thread 1 clears the event that
    the second notice had set), and no wakeup is on its way *)
Theorem C46_lost_notice_refuted : exists s, run step (init true) [Wait 1; Notice (Some 1); Notice None; Resume 1; Wait 2] = Ok s [Blocked; Done; Done; Returned; Blocked] /\
  notices s = 2 /\ asleep s = [2] /\ woken s = [] /\ ev s = false.
Proof. eexists. split_and!; reflexivity. Qed.
(** a manual-reset event does not stay signalled: a wait or a successful try_wait clears it *)
Theorem C46_manual_refuted : exists s, run step (init false) [Notice None; Wait 1; Wait 2] = Ok s [Done; Returned; Blocked] /\ asleep s = [2] /\ woken s = [].
Proof. eexists. split_and!; reflexivity. Qed.
(** a spurious wakeup ends a wait without any notice *)
Theorem C46_spurious_refuted : forall a, exists s, run step (init a) [Wait 1; Spurious 1; Resume 1] = Ok s [Blocked; Done; Returned] /\ notices s = 0.
Proof. intros a. eexists. split_and!; [destruct a; reflexivity|reflexivity]. Qed.
Example demo_kcond : exists s, run step (init true) [Wait 1; Notice (Some 1); Resume 1; Notice None; Wait 1] = Ok s [Blocked; Done; Returned; Done; Returned] /\ rets s = notices s.
Proof. eexists. split_and!; reflexivity. Qed.

(** ** the same in terms of events and results only *)
Definition is_ret (o : out) : bool := match o with Returned | TryOk => true | _ => false end.
Definition is_notice (e : evt) : bool := match e with Notice _ => true | _ => false end.
Definition n_ret (os : list out) : nat := length (List.filter is_ret os).
Definition n_notice (es : list evt) : nat := length (List.filter is_notice es).
Lemma ghosts es : forall s s' os, run step s es = Ok s' os -> rets s' = rets s + n_ret os /\ notices s' = notices s + n_notice es.
Proof.
  induction es as [|e es IH]; intros s s' os; cbn [run]; [intros [= <- <-]; unfold n_ret, n_notice; cbn; lia|].
  destruct (step s e) as [| |s1 o] eqn:E1; try done. destruct (run step s1 es) as [| |s2 os2] eqn:E2; try done. intros [= -> <-].
  apply IH in E2 as [E2 E3].
  assert (rets s1 = rets s + (if is_ret o then 1 else 0) /\ notices s1 = notices s + (if is_notice e then 1 else 0)) as [E4 E5].
  { clear -E1. inv_step e E1; cbn; lia. }
  unfold n_ret, n_notice in *. cbn [List.filter]. destruct (is_ret o), (is_notice e); cbn [length]; lia.
Qed.
(** without spurious wakeups no wait returns and no try_wait succeeds before the first notice; with auto reset at most two
    per notice, and with a single waiting thread at most one *)
Theorem C46_returns_partial : forall a es s os, Forall not_spurious es -> run step (init a) es = Ok s os ->
  (n_notice es = 0 -> n_ret os = 0) /\ (a = true -> n_ret os <= 2 * n_notice es)
  /\ (forall t, a = true -> Forall (only_waiter t) es -> n_ret os <= n_notice es).
Proof.
  intros a es s os F R. destruct (ghosts _ _ _ _ R) as [G1 G2]. cbn in G1, G2. rewrite <- G1, <- G2. split_and!.
  - apply (C46_no_return_without_notice_partial a). by exists es, os.
  - intros ->. apply C46_auto_two_partial. by exists es, os.
  - intros t -> F'. by eapply C46_single_waiter_partial.
Qed.
(** a reset takes effect: until the next notice every try_wait fails and every wait that starts blocks *)
Theorem C46_reset : forall s es s' os, run step s (Reset :: es) = Ok s' os -> n_notice es = 0 ->
  forall i e o, es !! i = Some e -> os !! S i = Some o ->
    (forall t, e = TryWait t -> o = TryFail) /\ (forall t, e = Wait t -> o = Blocked).
Proof.
  intros s es s' os R N. cbn [run step] in R. destruct (run step _ es) as [| |s2 os2] eqn:E; try done. injection R as <- <-.
  set (s1 := St (auto s) false (asleep s) (woken s) (notices s) (rets s)) in E. assert (ev s1 = false) as Hev by done. clearbody s1. clear s.
  intros i e o He Ho. cbn in Ho. revert s1 s2 os2 i E Hev He Ho. induction es as [|e0 es IH]; intros s1 s2 os2 i E Hev He Ho; [done|].
  cbn [run] in E. destruct (step s1 e0) as [| |s3 o3] eqn:E3; try done. destruct (run step s3 es) as [| |s4 os4] eqn:E4; try done.
  injection E as <- <-. unfold n_notice in N. cbn [List.filter] in N. destruct (is_notice e0) eqn:En; [done|]. destruct i as [|i].
  - injection He as <-. injection Ho as <-. split; intros t ->; cbn [step] in E3; rewrite Hev in E3; case_decide; try done; by injection E3 as _ <-.
  - eapply (IH N s3 s4 os4 i); [done| |done|done]. clear -E3 En Hev. inv_step e0 E3; try done. 
Qed.
(** a notice takes effect: the next try_wait succeeds *)
Theorem C46_notice_try : forall s s1 o c t, step s (Notice c) = Ok s1 o -> t ∉ asleep s1 ++ woken s1 -> exists s2, step s1 (TryWait t) = Ok s2 TryOk.
Proof.
  intros s s1 o c t H Ht. cbn [step] in *. rewrite decide_False by done. assert (E : ev s1 = true); [|rewrite E; by eexists].
  destruct (auto s), (asleep s), c; try case_decide; try done; by injection H as <- <-.
Qed.
Example demo_reset : exists s, run step (init false) [Notice None; Reset; TryWait 1; Wait 2; Notice None; Resume 2; TryWait 1] =
  Ok s [Done; Done; TryFail; Blocked; Done; Returned; TryOk].
Proof. eexists. reflexivity. Qed.
