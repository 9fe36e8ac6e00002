(** C80: the limits of a worker pool changed while it runs.  Model: WsetModel.v *)
From Verif Require Import WorkerModel WorkerProof WorkerProps WsetModel.
Local Open Scope Z_scope.

Section props.
Context (alloc : nat -> gset positive -> positive) (HA : forall k X, alloc k X ∉ X).

(** thread starts succeed, and the limits on workers stay within bounds *)
Definition start_ok (e : lev) : Prop := match e with LWork (WTry _ _ ok) | LWork (WStart _ ok) => ok = true | _ => True end.
Definition within (hi lo : Z) (e : lev) : Prop := match e with LSetWorker m => lo <= m <= hi | _ => True end.
Definition lreached (mw mq hi lo : Z) (s : ws) : Prop :=
  lo <= mw <= hi /\ exists es os, Forall start_ok es /\ Forall (within hi lo) es /\ run (lstep alloc) (ws_init mw mq) es = Ok s os.

Lemma WI_set hi lo s l mw mq : WI hi lo s l -> lo <= mw <= hi -> WI hi lo (set_limits s mw mq) l.
Proof.
  intros [I1 I2 I3 I4 I5 I6 I7 I8 I9 I10 I11 I12 I13 I14 I15 I16 I17 I18] Hm. constructor; cbn; try done; lia.
Qed.
Lemma WI_lstep hi lo s l e s' o : WI hi lo s l -> start_ok e -> within hi lo e -> lstep alloc s e = Ok s' o -> exists l', WI hi lo s' l'.
Proof.
  intros HI H1 H2 HS. destruct e as [e|m|m]; cbn in HS.
  - eapply WI_step; [done|exact HI| |exact HS]. by destruct e.
  - destruct (negb (may_call s)); [done|]. destruct (negb (alive s)); [done|]. injection HS as <- _. exists l. by apply WI_set.
  - destruct (negb (may_call s)); [done|]. destruct (negb (alive s)); [done|]. injection HS as <- _. exists l. apply WI_set; [done|].
    split; [apply (WI_lo _ _ _ _ HI)|apply (WI_hi _ _ _ _ HI)].
Qed.
Lemma WI_lsafe hi lo s l e : WI hi lo s l -> start_ok e -> lstep alloc s e ≠ Crash.
Proof.
  intros HI H1 HS. destruct e as [e|m|m]; cbn in HS.
  - eapply (WI_safe alloc HA); [exact HI| |exact HS]. by destruct e.
  - destruct (may_call s) eqn:Em; [|done]. by rewrite (WI_alive_call _ _ _ _ HI Em) in HS.
  - destruct (may_call s) eqn:Em; [|done]. by rewrite (WI_alive_call _ _ _ _ HI Em) in HS.
Qed.
Lemma lrun_WI hi lo es : forall s l s' os, WI hi lo s l -> Forall start_ok es -> Forall (within hi lo) es -> run (lstep alloc) s es = Ok s' os -> exists l', WI hi lo s' l'.
Proof.
  induction es as [|e es IH]; intros s l s' os HI H1 H2 HR; cbn in HR; [injection HR as <- _; by exists l|].
  apply Forall_cons in H1 as [H1 H1']. apply Forall_cons in H2 as [H2 H2'].
  destruct (lstep alloc s e) as [| |s1 o] eqn:E; try done. destruct (run (lstep alloc) s1 es) as [| |s2 os2] eqn:E2; try done. injection HR as <- _.
  destruct (WI_lstep _ _ _ _ _ _ _ HI H1 H2 E) as [l1 HI1]. by eapply IH.
Qed.
Lemma lreached_WI mw mq hi lo s : lreached mw mq hi lo s -> exists l, WI hi lo s l.
Proof. intros (Hb & es & os & H1 & H2 & HR). eapply lrun_WI; [by apply (WI_init mw mq)|done|done|done]. Qed.
(** every run has some bounds *)
Lemma bounds mw es : exists hi lo, lo <= mw <= hi /\ Forall (within hi lo) es.
Proof.
  induction es as [|e es (hi & lo & H1 & H2)]; [exists mw, mw; split; [lia|constructor]|].
  destruct e as [e|m|m]; [exists hi, lo; split; [done|by apply Forall_cons]| |exists hi, lo; split; [done|by apply Forall_cons]].
  exists (Z.max hi m), (Z.min lo m). split; [lia|]. apply Forall_cons. split; [cbn; lia|].
  eapply Forall_impl; [exact H2|]. intros [e|k|k]; cbn; lia.
Qed.

(** C80.  Whatever the limits are changed to, and when: no run fails an assertion, uses a freed cell or the freed pool. *)
Theorem C80_safe mw mq es : Forall start_ok es -> run (lstep alloc) (ws_init mw mq) es ≠ Crash.
Proof.
  destruct (bounds mw es) as (hi & lo & Hb & H2). intros H1.
  assert (HG : forall es s l, WI hi lo s l -> Forall start_ok es -> Forall (within hi lo) es -> run (lstep alloc) s es ≠ Crash); [|eapply HG; [by apply WI_init|done|done]].
  clear es H1 H2. induction es as [|e es IH]; intros s l HI H1 H2; [done|]. apply Forall_cons in H1 as [H1 H1']. apply Forall_cons in H2 as [H2 H2']. cbn.
  destruct (lstep alloc s e) as [| |s1 o] eqn:E; [done|by eapply WI_lsafe in E|].
  destruct (WI_lstep _ _ _ _ _ _ _ HI H1 H2 E) as [l1 HI1]. specialize (IH s1 l1 HI1 H1' H2'). by destruct (run (lstep alloc) s1 es).
Qed.
(** exactly once: what was accepted is what was called and what still waits; the queue length field is right; freed at most once *)
Theorem C80_exactly_once mw mq hi lo s : lreached mw mq hi lo s ->
  exists l waiting, accepted s ≡ₚ called s ++ waiting /\ (NoDup (accepted s) -> NoDup (called s)) /\
    chain (heap s) (head s) l /\ queue s = Z.of_nat (length l) /\ frees s = (if alive s then 0 else 1)%nat.
Proof.
  intros HR. destruct (lreached_WI _ _ _ _ _ HR) as (l & HI). pose proof (WI_acc _ _ _ _ HI) as HC.
  exists l, (omap owes (thr s) ++ (cj <$> l)). split_and!; [done| |apply HI|apply HI|apply HI]. rewrite HC. by intros [? _]%NoDup_app.
Qed.
(** while every limit was at least 1 no job is stranded: the workers alone bring every accepted job to its call *)
Theorem C80_all_executed mw mq hi s : lreached mw mq hi 1 s ->
  exists es s' os, Forall by_worker es /\ run (wstep alloc) s es = Ok s' os /\ accepted s' = accepted s /\ called s' ≡ₚ accepted s.
Proof. intros HR. destruct (lreached_WI _ _ _ _ _ HR) as (l & HI). by eapply (all_executed alloc HA hi 1). Qed.
(** never more workers than the largest limit so far *)
Theorem C80_bound mw mq hi lo s : lreached mw mq hi lo s ->
  Z.of_nat (length (filter (λ p, working p = true) (thr s))) <= Z.max 0 hi.
Proof. intros HR. destruct (lreached_WI _ _ _ _ _ HR) as (l & HI). pose proof (WI_max _ _ _ _ HI) as H. by rewrite (WI_worker _ _ _ _ HI) in H. Qed.

(** after the limit was lowered to m no worker is added while m or more run: their number is at most m or what it was *)
Definition no_set (e : lev) : Prop := match e with LSetWorker _ => False | _ => True end.
Lemma add_worker s j w h ok s' o : add alloc s j w h ok = Ok s' o ->
  max_worker s' = max_worker s /\ (worker s' = worker s \/ (worker s < max_worker s /\ worker s' = worker s + 1)).
Proof.
  unfold add. set (s0 := set_q s _ _ _ _). unfold enqueue. destruct (last s0).
  - destruct h; cbn.
    + rewrite lookup_insert. cbn. unfold spawn. cbn. case_decide; [|destruct ok; [|done]]; cbn; intros [= <- _]; destruct w; cbn; lia.
    + destruct (_ !! p); [|done]. cbn. unfold spawn. cbn. case_decide; [|destruct ok; [|done]]; cbn; intros [= <- _]; destruct w; cbn; lia.
  - destruct (head s0); [done|]. cbn. unfold spawn. cbn. case_decide; [|destruct ok; [|done]]; cbn; intros [= <- _]; destruct w; cbn; lia.
Qed.
Lemma step_worker s e s' o : wstep alloc s e = Ok s' o -> worker s' <= worker s \/ (worker s < max_worker s /\ worker s' = worker s + 1).
Proof.
  intros HS. destruct e as [j high ok|j ok| | |t|t|t|t]; cbn [wstep] in HS.
  - destruct (negb (may_call s)); [done|]. destruct (negb (alive s)); [done|].
    destruct (over s); [injection HS as <- _; left; lia|]. apply add_worker in HS as [_ [H|H]]; [left; lia|by right].
  - destruct (negb (may_call s)); [done|]. destruct (negb (alive s)); [done|]. apply add_worker in HS as [_ [H|H]]; [left; lia|by right].
  - destruct (negb (may_call s)); [done|]. destruct (negb (alive s)); [done|]. injection HS as <- _. cbn. left. lia.
  - destruct (ext s); [done|]. destruct (negb (alive s)); [done|]. injection HS as <- _. cbn. left. lia.
  - destruct (thr s !! t) as [[]|]; try done. destruct (negb (alive s)); [done|].
    destruct (head s); [|injection HS as <- _; cbn; left; lia].
    destruct (heap s !! p); [|done]. injection HS as <- _. cbn. left. lia.
  - destruct (thr s !! t) as [[]|]; try done. destruct (heap s !! a) as [p|]; [|done]. injection HS as <- _. left. destruct (pwait p); cbn; lia.
  - destruct (thr s !! t) as [[]|]; try done. destruct (heap s !! a) as [p|]; [|done]. injection HS as <- _. cbn. left. lia.
  - destruct (thr s !! t) as [[]|]; try done. destruct (negb (alive s)); [done|]. injection HS as <- _. cbn. left. lia.
Qed.
Lemma lstep_worker s e s' o : lstep alloc s e = Ok s' o -> no_set e ->
  max_worker s' = max_worker s /\ worker s' <= Z.max (max_worker s) (worker s).
Proof.
  intros HS Hn. destruct e as [e|m|m]; cbn in HS; [|done|].
  - split; [by destruct (max_step alloc _ _ _ _ HS)|]. apply step_worker in HS. lia.
  - destruct (negb (may_call s)); [done|]. destruct (negb (alive s)); [done|]. injection HS as <- _. cbn. lia.
Qed.
Lemma lrun_worker es : forall s s' os, run (lstep alloc) s es = Ok s' os -> Forall no_set es ->
  max_worker s' = max_worker s /\ worker s' <= Z.max (max_worker s) (worker s).
Proof.
  induction es as [|e es IH]; intros s s' os HR HF; cbn in HR; [injection HR as <- _; lia|]. apply Forall_cons in HF as [He HF].
  destruct (lstep alloc s e) as [| |s1 o] eqn:E; try done. destruct (run (lstep alloc) s1 es) as [| |s2 os2] eqn:E2; try done. injection HR as <- _.
  destruct (lstep_worker _ _ _ _ E He). destruct (IH _ _ _ E2 HF). lia.
Qed.
Definition running (s : ws) : Z := Z.of_nat (length (filter (λ p, working p = true) (thr s))).
Theorem C80_lowered mw mq hi lo s m s1 es s' os : lreached mw mq hi lo s -> lstep alloc s (LSetWorker m) = Ok s1 ONone ->
  Forall start_ok es -> Forall no_set es -> run (lstep alloc) s1 es = Ok s' os ->
  max_worker s' = m /\ running s' <= Z.max m (running s).
Proof.
  intros HR HS H1 H2 HE. destruct (lreached_WI _ _ _ _ _ HR) as (l & HI).
  assert (E1 : s1 = set_limits s m (max_queue s)).
  { cbn in HS. destruct (negb (may_call s)); [done|]. destruct (negb (alive s)); [done|]. by injection HS as <-. }
  assert (HI1 : WI (Z.max hi m) (Z.min lo m) s1 l).
  { subst s1. destruct HI as [I1 I2 I3 I4 I5 I6 I7 I8 I9 I10 I11 I12 I13 I14 I15 I16 I17 I18]. constructor; cbn; try done; try lia.
    intros Hl Hm. apply I8; [done|lia]. }
  assert (HW : Forall (within (Z.max hi m) (Z.min lo m)) es).
  { eapply Forall_impl; [exact H2|]. intros [e|k|k]; cbn; done. }
  destruct (lrun_WI _ _ _ _ _ _ _ HI1 H1 HW HE) as [l' HI'].
  destruct (lrun_worker _ _ _ _ HE H2) as [Q1 Q2]. pose proof (WI_worker _ _ _ _ HI') as W'. pose proof (WI_worker _ _ _ _ HI) as W.
  subst s1. cbn in Q1, Q2. unfold running. split; [done|]. unfold count in W, W'. rewrite <- W, <- W'. lia.
Qed.

(** * What a change does not do *)
(** with every worker inside a callback (or none there), no job is called until a callback returns or a job is submitted,
    whatever the limits are changed to *)
Definition idle (e : lev) : Prop := match e with LWork (WTry _ _ _) | LWork (WStart _ _) | LWork (WDone _) => False | _ => True end.
Definition all_busy (s : ws) : Prop := Forall (λ p, match p with WCb _ _ | WGone => True | _ => False end) (thr s).
Theorem C80_raise_starts_nobody es : forall s s' os, all_busy s -> Forall idle es -> run (lstep alloc) s es = Ok s' os ->
  called s' = called s /\ thr s' = thr s.
Proof.
  induction es as [|e es IH]; intros s s' os HB HF HR; cbn in HR; [by injection HR as <- _|]. apply Forall_cons in HF as [He HF].
  destruct (lstep alloc s e) as [| |s1 o] eqn:E; try done. destruct (run (lstep alloc) s1 es) as [| |s2 os2] eqn:E2; try done. injection HR as <- _.
  assert (H1 : called s1 = called s /\ thr s1 = thr s).
  { destruct e as [e|m|m]; cbn in E.
    - assert (HT : forall t p, thr s !! t = Some p -> match p with WCb _ _ | WGone => True | _ => False end).
      { intros t p Ht. exact (Forall_lookup_1 _ _ _ _ HB Ht). }
      destruct e as [j high ok|j ok| | |t|t|t|t]; cbn [wstep] in E; try done.
      + destruct (negb (may_call s)); [done|]. destruct (negb (alive s)); [done|]. by injection E as <- _.
      + destruct (ext s); [done|]. destruct (negb (alive s)); [done|]. by injection E as <- _.
      + destruct (thr s !! t) as [p|] eqn:Et; [|done]. apply HT in Et. by destruct p.
      + destruct (thr s !! t) as [p|] eqn:Et; [|done]. apply HT in Et. by destruct p.
      + destruct (thr s !! t) as [p|] eqn:Et; [|done]. apply HT in Et. by destruct p.
    - destruct (negb (may_call s)); [done|]. destruct (negb (alive s)); [done|]. by injection E as <- _.
    - destruct (negb (may_call s)); [done|]. destruct (negb (alive s)); [done|]. by injection E as <- _. }
  destruct H1 as [A B]. assert (HB1 : all_busy s1) by (unfold all_busy; by rewrite B). destruct (IH _ _ _ HB1 HF E2) as [C D]. by rewrite C, D, A, B.
Qed.
End props.

(** job 2 waits behind job 1, the limit is raised from 1 to 4: still nobody starts on job 2 before job 1 returns or a third job is
    submitted; if job 1 waits for job 2, that is a deadlock *)
Theorem C80_raise_refuted : exists s os,
  run (lstep walloc) (ws_init 1 0) [LWork (WTry 1 false true); LWork (WTake 0); LWork (WCall 0); LWork (WTry 2 false true); LSetWorker 4] = Ok s os /\
  max_worker s = 4 /\ running s = 1 /\ accepted s = [1; 2]%nat /\
  forall es s' os', Forall idle es -> run (lstep walloc) s es = Ok s' os' -> called s' = [1]%nat.
Proof.
  eexists _, _. split; [vm_compute; reflexivity|]. split_and!; [vm_compute; reflexivity..|].
  intros es s' os' HF HR. apply C80_raise_starts_nobody in HR as [-> _]; [reflexivity| |exact HF]. unfold all_busy. cbn [thr]. repeat constructor.
Qed.
(** jobs accepted while the limit was 0 are not started by raising it *)
Theorem C80_zero_refuted : exists s os,
  run (lstep walloc) (ws_init 0 0) [LWork (WTry 1 false true); LSetWorker 4] = Ok s os /\ max_worker s = 4 /\ accepted s = [1]%nat /\
  forall es s' os', Forall idle es -> run (lstep walloc) s es = Ok s' os' -> called s' = [].
Proof.
  eexists _, _. split; [vm_compute; reflexivity|]. split_and!; [vm_compute; reflexivity..|].
  intros es s' os' HF HR. apply C80_raise_starts_nobody in HR as [-> _]; [reflexivity| |exact HF]. unfold all_busy. cbn [thr]. repeat constructor.
Qed.

(** * Example: the limit goes up while jobs wait (two more workers with the next submissions) and down again (no new worker, the others leave) *)
Definition wsdemo : list lev :=
  [LWork (WTry 1 false true); LWork (WTake 0); LWork (WTry 2 false true); LSetWorker 3; LWork (WTry 3 false true); LSetQueue 5; LWork (WTry 4 false true);
   LWork (WTake 1); LWork (WTake 2); LSetWorker 1; LWork (WTry 5 false true); LWork (WCall 0); LWork (WCall 1); LWork (WCall 2);
   LWork (WDone 0); LWork (WTake 0); LWork (WCall 0); LWork (WDone 0); LWork (WDone 1); LWork (WTake 1)].
Theorem C80_example : exists s os, run (lstep walloc) (ws_init 1 0) wsdemo = Ok s os /\ lreached walloc 1 0 3 1 s /\
  running s = 3 /\ called s = [1; 2; 3; 4]%nat /\ accepted s = [1; 2; 3; 4; 5]%nat /\ max_worker s = 1 /\
  exists es s' os, Forall by_worker es /\ run (wstep walloc) s es = Ok s' os /\ called s' ≡ₚ [1; 2; 3; 4; 5]%nat.
Proof.
  assert (HR : match run (lstep walloc) (ws_init 1 0) wsdemo with Ok s _ =>
     bool_decide (running s = 3) && bool_decide (called s = [1; 2; 3; 4]%nat) && bool_decide (accepted s = [1; 2; 3; 4; 5]%nat) && bool_decide (max_worker s = 1) | _ => false end = true)
    by (vm_compute; reflexivity).
  destruct (run (lstep walloc) (ws_init 1 0) wsdemo) as [| |s os] eqn:E; [done|done|].
  apply andb_prop in HR as [HR H4]. apply andb_prop in HR as [HR H3]. apply andb_prop in HR as [H1 H2]. apply bool_decide_eq_true in H1, H2, H3, H4.
  assert (HL : lreached walloc 1 0 3 1 s).
  { split; [lia|]. exists wsdemo, os. split_and!; [repeat constructor|repeat constructor; cbn; lia|done]. }
  exists s, os. split_and!; [reflexivity|exact HL|exact H1|exact H2|exact H3|exact H4|]. destruct (C80_all_executed walloc (λ k X, walloc_fresh k X) 1 0 3 s HL) as (es & s' & os' & A & B & C & D).
  exists es, s', os'. rewrite H3 in D. exact (conj A (conj B D)).
Qed.
