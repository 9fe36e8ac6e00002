(** Properties C30, C31: cross-thread notices.  Model: NoticeModel.v *)
From Verif Require Import NoticeModel NoticeProof.

Section props.
Context (alloc : nat -> gset positive -> positive) (HA : forall k X, alloc k X ∉ X).

(** C30.  Whatever the interleaving of posting threads and the selector, and whatever addresses malloc returns: the drain loop
    never finds the list empty while it owes callbacks and never touches a freed notice; what has been run together with what is pending
    is exactly what was posted (as multisets), so nothing runs twice, nothing unposted runs. *)
Theorem C30_safe : safe (nstep alloc) nq_init.
Proof.
  eapply (safe_inv (nstep alloc) (λ s, exists l, NI s l)).
  - exists []. apply (NI_init alloc HA).
  - intros s e s' o [l Hl] HS. destruct (NI_step alloc HA _ _ _ _ _ Hl HS) as (l' & Hl' & _). eauto.
  - intros s e [l Hl]. by eapply NI_safe.
Qed.
Theorem C30_exactly_once s : reachable (nstep alloc) nq_init s ->
  exists pending, posted s ≡ₚ ran s ++ pending /\ (NoDup (posted s) -> NoDup (ran s)).
Proof.
  intros HR. destruct (NI_run alloc HA s HR) as [l Hl]. exists l.*2. pose proof (NI_ghost _ _ Hl) as HG. split; [done|].
  rewrite HG. by intros [? _]%NoDup_app.
Qed.
(** no posted callback is left behind: with the selector back in epoll and no thread inside kepoll_notice, the eventfd counter is exactly
    the number of posted callbacks that have not run, so the eventfd is readable as long as there is one *)
Theorem C30_readable s : reachable (nstep alloc) nq_init s -> pc s = SIdle -> writing s = [] ->
  ev s + length (ran s) = length (posted s).
Proof.
  intros HR Hp Hw. destruct (NI_run alloc HA s HR) as [l Hl]. rewrite (NI_ghost _ _ Hl), app_length, fmap_length, (NI_count _ _ Hl).
  unfold owed. rewrite Hp, Hw. cbn. lia.
Qed.
(** and the selector thread alone then runs all of them *)
Definition by_selector (e : nev) : Prop := e = NRead \/ e = NPop \/ e = NReturn \/ e = NLoopEnd.
Lemma drain_all s l : NI s l -> pc s = SIdle -> writing s = [] ->
  exists es s' os, run (nstep alloc) s es = Ok s' os /\ Forall by_selector es /\ posted s' = posted s /\ ran s' ≡ₚ posted s.
Proof.
  intros Hl Hp Hw. pose proof Hl as [H1 H2 H3 H4 H5 H6]. unfold owed in H4. rewrite Hp, Hw in H4. cbn in H4.
  destruct (ev s) as [|v] eqn:Ev.
  { exists [], s, []. split_and!; [done|constructor|done|]. destruct l; [|cbn in H4; lia]. rewrite H6. cbn. by rewrite app_nil_r. }
  assert (S1 : nstep alloc s NRead = Ok (mknq (heap s) (head s) 0 (SDrain (S v)) (writing s) (posted s) (ran s)) NNone).
  { cbn. by rewrite Hp, Ev. }
  destruct (NI_step alloc HA _ _ _ _ _ Hl S1) as (l1 & N1 & E1).
  destruct (drain alloc HA (S v) _ l1 N1 eq_refl) as (es & s' & os & l' & HR & HF & N' & A & B & C & D & F & G).
  exists (NRead :: es), s', (NNone :: os). cbn [run]. rewrite S1, HR. split_and!; [done| |done|].
  - apply Forall_cons. split; [by left|]. eapply Forall_impl; [exact HF|]. unfold by_selector. tauto.
  - rewrite F. cbn [ran]. rewrite take_ge.
    + pose proof (NI_ghost _ _ N1) as G1. cbn in G1. by rewrite G1.
    + apply (f_equal length) in E1. rewrite !fmap_length in E1. lia.
Qed.
Theorem C30_all_run s : reachable (nstep alloc) nq_init s -> writing s = [] ->
  exists es s' os, run (nstep alloc) s es = Ok s' os /\ Forall by_selector es /\ posted s' = posted s /\ ran s' ≡ₚ posted s.
Proof.
  intros HR Hw. destruct (NI_run alloc HA s HR) as [l Hl].
  assert (Hd : forall v s l, NI s l -> pc s = SDrain v -> writing s = [] ->
    exists es s' os, run (nstep alloc) s es = Ok s' os /\ Forall by_selector es /\ posted s' = posted s /\ ran s' ≡ₚ posted s).
  { intros v s0 l0 N0 P0 W0. destruct (drain alloc HA v s0 l0 N0 P0) as (es & s' & os & l' & HR' & HF & N' & A & B & C & D & F & G).
    destruct (drain_all s' l' N' A ltac:(congruence)) as (es2 & s2 & os2 & R2 & F2 & P2 & Q2).
    exists (es ++ es2), s2, (os ++ os2). rewrite run_app, HR', R2. split_and!; [done| |congruence|by rewrite Q2, D].
    apply Forall_app. split; [|done]. eapply Forall_impl; [exact HF|]. unfold by_selector. tauto. }
  destruct (pc s) as [|v|a v] eqn:Hp; [by eapply drain_all|by eapply Hd|].
  destruct (heap s !! a) as [n|] eqn:Ea.
  2: { exfalso. eapply (NI_safe alloc HA s l NReturn Hl). cbn. by rewrite Hp, Ea. }
  assert (S1 : nstep alloc s NReturn = Ok (mknq (delete a (heap s)) (head s) (ev s) (SDrain v) (writing s) (posted s) (ran s)) NNone).
  { cbn. by rewrite Hp, Ea. }
  destruct (NI_step alloc HA _ _ _ _ _ Hl S1) as (l1 & N1 & E1).
  destruct (Hd v _ l1 N1 eq_refl Hw) as (es & s' & os & R & F & P & Q).
  exists (NReturn :: es), s', (NNone :: os). cbn [run]. rewrite S1, R. split_and!; [done| |done|done].
  apply Forall_cons. split; [|done]. unfold by_selector. tauto.
Qed.

(** C31 is false of the code: the list is a stack.  One thread posts 1 and then 2; both are drained together, 2 runs first. *)
Definition two_posts : list nev := [NPush 7 1; NWrite 7; NPush 7 2; NWrite 7; NRead; NPop; NReturn; NPop; NReturn; NLoopEnd].
(** What does hold: (a) each callback run is the newest one pending, the exact order of the code; *)
Theorem C31_newest_first_partial s : reachable (nstep alloc) nq_init s ->
  exists pending, posted s ≡ₚ ran s ++ pending /\
  forall e s' o, nstep alloc s e = Ok s' o -> exists pending',
    posted s' ≡ₚ ran s' ++ pending' /\
    match e with
    | NPush _ id => pending' = id :: pending
    | NPop => exists id, pending = id :: pending' /\ o = NCall id /\ ran s' = ran s ++ [id]
    | _ => pending' = pending /\ ran s' = ran s
    end.
Proof.
  intros HR. destruct (NI_run alloc HA s HR) as [l Hl]. exists l.*2. split; [apply Hl|].
  intros e s' o HS. destruct (NI_step alloc HA _ _ _ _ _ Hl HS) as (l' & Hl' & E). exists l'.*2. split; [apply Hl'|].
  destruct e as [t i|t| | | |]; cbn in HS; rewrite E; try done.
  - split; [done|]. case_decide; [|done]. by injection HS as <- _.
  - split; [done|]. destruct (pc s); [|done|done]. destruct (ev s); [done|]. by injection HS as <- _.
  - destruct (pc s) as [|[|v]|] eqn:Ep; try done. pose proof Hl as [H1 _ _ H4 _ _]. unfold owed in H4. rewrite Ep in H4.
    destruct l as [|[b i] l]; [cbn in H4; lia|]. destruct H1 as [Hh (nx & Hb & _)]. rewrite Hh, Hb in HS. injection HS as <- <-.
    exists i. split_and!; [|done|done]. cbn. done.
  - split; [done|]. destruct (pc s); [done|done|]. destruct (heap s !! a); [|done]. by injection HS as <- _.
  - split; [done|]. destruct (pc s) as [|[|v]|]; try done. by injection HS as <- _.
Qed.
(** (b) callbacks run in posting order in every schedule that posts only when nothing is pending *)
Fixpoint spaced (s : nq) (es : list nev) : Prop :=
  match es with
  | [] => True
  | e :: es => match e with NPush _ _ => head s = None | _ => True end /\
      match nstep alloc s e with Ok s' _ => spaced s' es | _ => True end
  end.
Lemma spaced_order es : forall s l s' os, NI s l -> posted s = ran s ++ l.*2 -> spaced s es -> run (nstep alloc) s es = Ok s' os ->
  exists l', NI s' l' /\ posted s' = ran s' ++ l'.*2.
Proof.
  induction es as [|e es IH]; intros s l s' os Hl HG HS HR; cbn in HR; [simplify_eq; eauto|].
  destruct HS as [He HS]. destruct (nstep alloc s e) as [| |s1 o1] eqn:E; try done.
  destruct (run (nstep alloc) s1 es) as [| |s2 os2] eqn:ER; try done. injection HR as <- <-.
  destruct (NI_step alloc HA _ _ _ _ _ Hl E) as (l1 & N1 & E1). eapply (IH s1 l1); [done| |done|done]. rewrite E1.
  destruct e as [t i|t| | | |]; cbn in E.
  - case_decide; [done|]. injection E as <- _. cbn. destruct l as [|[a j] l]; [|destruct (NI_chain _ _ Hl); congruence].
    rewrite HG. cbn. by rewrite app_nil_r.
  - case_decide; [|done]. by injection E as <- _.
  - destruct (pc s); [|done|done]. destruct (ev s); [done|]. by injection E as <- _.
  - destruct (pc s) as [|[|v]|] eqn:Ep; try done. pose proof Hl as [H1 _ _ H4 _ _]. unfold owed in H4. rewrite Ep in H4.
    destruct l as [|[b i] l]; [cbn in H4; lia|]. destruct H1 as [Hh (nx & Hb & _)]. rewrite Hh, Hb in E. injection E as <- _.
    cbn in HG |- *. by rewrite HG, <- app_assoc.
  - destruct (pc s); [done|done|]. destruct (heap s !! a); [|done]. by injection E as <- _.
  - destruct (pc s) as [|[|v]|]; try done. by injection E as <- _.
Qed.
Theorem C31_spaced_order_partial es s os : run (nstep alloc) nq_init es = Ok s os -> spaced nq_init es ->
  exists pending, posted s = ran s ++ pending.
Proof.
  intros HR HS. destruct (spaced_order es nq_init [] s os (NI_init alloc HA) eq_refl HS HR) as (l & _ & HG). eauto.
Qed.
End props.
Print Assumptions C30_safe.
Print Assumptions C30_exactly_once.
Print Assumptions C30_readable.
Print Assumptions C30_all_run.
Print Assumptions C31_newest_first_partial.
Print Assumptions C31_spaced_order_partial.

Definition nalloc (k : nat) (X : gset positive) : positive := fresh X.
Lemma nalloc_fresh k X : nalloc k X ∉ X.
Proof. apply is_fresh. Qed.
Theorem C31_order_refuted : exists s os, run (nstep nalloc) nq_init two_posts = Ok s os /\
  posted s = [1; 2] /\ ran s = [2; 1].
Proof. eexists _, _. split; [vm_compute; reflexivity|]. done. Qed.
Print Assumptions C31_order_refuted.
(** a schedule with two posting threads, a post that lands between the eventfd read and the pops (the drain then runs the new notice
    and leaves the old one for the next read), and a post from inside a callback *)
Example C30_demo : match run (nstep nalloc) nq_init
  [NPush 1 10; NPush 2 20; NWrite 2; NRead; NPush 3 30; NPop; NPush 4 40; NWrite 4; NReturn; NLoopEnd;
   NWrite 1; NRead; NPop; NReturn; NPop; NReturn; NLoopEnd; NWrite 3; NRead; NPop; NReturn; NLoopEnd] with
  | Ok s _ => ran s = [30; 40; 20; 10] /\ posted s = [10; 20; 30; 40] /\ ev s = 0 | _ => False end.
Proof. vm_compute. done. Qed.
(** the hypotheses of C31_spaced_order_partial: posts one at a time *)
Example C31_spaced_demo : spaced nalloc nq_init [NPush 1 10; NWrite 1; NRead; NPop; NPush 2 20; NWrite 2; NReturn; NLoopEnd; NRead; NPop].
Proof. vm_compute. done. Qed.
