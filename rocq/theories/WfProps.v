(** Property C72: fiber file I/O through worker threads, from any thread.  Model: WfModel.v, specification: WfSpec.v *)
From Verif Require Import WfModel WfSpec WfProof WfProof2 WfProof3 WfProof4 WfProof5.
Local Open Scope Z_scope.

Section props.
Context (home : nat -> nat) (maxw : nat) (c0 : nat -> list Z).
Notation WI := (WI home c0).
Notation opinv := (opinv home).
Notation step := (wstep home maxw).

Lemma WI_finish sv fi o ph o' r g : WI sv -> at_ sv fi o ph -> exits o ph o' r -> (forall y, y <> fi -> g y = fib sv y) -> WI (finish (set_fib g sv) fi o' r).
Proof.
  intros HI Ha He Hg. destruct (exits_same _ _ _ _ He) as (N1 & N2 & N3 & N4 & N5 & N6). pose proof (p_fid _ _ _ _ _ (w_op _ _ _ HI _ _ _ Ha)) as HF.
  destruct fi as [t|id].
  - pose proof (WI_exit home c0 sv (Prog t) o ph o' r (updf (fib sv) (Prog t) (FExit o' r)) HI Ha He (λ _, eq_refl)) as HI2. destruct HF as [-> _].
    rewrite <- N3. rewrite <- N3 in HI2, Hg. eapply (WI_ret home c0 _ (Prog (o_t o')) o' r (updf g (Prog (o_t o')) FRun)) in HI2; [exact HI2|apply updf_eq|apply updf_eq|by intros id|].
    intros y Hy _. cbn. rewrite !updf_ne by done. by apply Hg.
  - eapply (WI_exit home c0 sv (Help id) o ph o' r); [done..|]. intros y. unfold set_fib. cbn [fib]. destruct (decide (y = Help id)) as [->|N]; [by rewrite !updf_eq|].
    rewrite !updf_ne by done. by apply Hg.
Qed.
Lemma WI_start sv fi o ph o' g s' : WI sv -> at_ sv fi o ph -> next_ o ph o' -> (forall y, y <> fi -> g y = fib sv y) ->
  start_op (set_fib g sv) fi o' = Some s' -> WI s'.
Proof.
  intros HI Ha Hn Hg HS. destruct (next_same _ _ _ Hn) as (N1 & N2 & N3 & N4 & N5 & N6). unfold start_op in HS. cbn [set_fib fls] in HS.
  destruct (o_full o' && (o_len o' <=? o_done o')%nat) eqn:E.
  - injection HS as <-. apply andb_true_iff in E as [E1 E2]. apply Nat.leb_le in E2. eapply WI_finish; [done|done| |done]. left. split_and!; [done|congruence|lia|done].
  - destruct (negb (f_al (fls sv (o_f o')))); [done|]. injection HS as <-. rewrite N2. eapply WI_submit; [done|done|done| |].
    + intros Hf. rewrite Hf in E. cbn in E. apply Nat.leb_gt in E. done.
    + intros y. destruct (decide (y = fi)) as [->|N]; [by rewrite !updf_eq|]. rewrite !updf_ne by done. by apply Hg.
Qed.
Lemma start_some s fi o' : f_al (fls s (o_f o')) = true -> start_op s fi o' <> None.
Proof. intros H. unfold start_op. rewrite H. by destruct (_ && _). Qed.
Lemma set_fib_id s : set_fib (fib s) s = s.
Proof. by destruct s. Qed.

(** direct calls and safe calls on the file's own thread *)
Lemma WI_call s t f wr len full s' : WI s -> fib s (Prog t) = FRun -> f_al (fls s f) = true -> f_sel (fls s f) = home t -> ~ busy f (hist s) ->
  start_op (begin s t f wr len full true) (Prog t) (mko (nid s) f t (is_wr wr) (wlen wr len) full 0) = Some s' -> WI s'.
Proof.
  intros HI Ht Hal Hs Hb HS. set (o := mko _ _ _ _ _ _ _) in *.
  assert (HI1 : WI (set_fib (updf (fib s) (Prog t) (FStart o)) (begin s t f wr len full true))).
  { apply (WI_begin home c0 s t f wr len full (Prog t)); try done; [by left|by rewrite updf_eq|]. intros y Hy _. by apply updf_ne. }
  eapply (WI_start _ (Prog t) o PStart o (fib s)); [exact HI1| |by left| |exact HS].
  - cbn. apply updf_eq.
  - intros y Hy. cbn. by rewrite updf_ne.
Qed.
Lemma own_al s f : WI s -> owner f (hist s) <> None -> f_al (fls s f) = true.
Proof. intros HI H. pose proof (w_own _ _ _ HI f) as HO. by destruct (f_al (fls s f)). Qed.
Lemma own_home s f t0 i : WI s -> owner f (hist s) = Some (t0, i) -> f_al (fls s f) = true /\ f_sel (fls s f) = home t0 /\ f_ino (fls s f) = i.
Proof.
  intros HI H. pose proof (w_own _ _ _ HI f) as HO. destruct (f_al (fls s f)); [|congruence]. destruct HO as (t & H1 & H2). rewrite H in H1. injection H1 as <- ->. done.
Qed.
Lemma overwrite_end (b g : list Z) : overwrite b (length b) g = b ++ g.
Proof. unfold overwrite. rewrite take_app_le, take_ge by lia. rewrite (drop_ge b) by lia. by rewrite app_nil_r. Qed.

Lemma WI_step s e s' o : WI s -> duty home s e -> step s e = Ok s' o -> WI s'.
Proof.
  intros HI HD HS. destruct e as [t f i|t f|t f p off|t f|t f wr len full|t f wr len ok|id| |j k|j|j|j|fi|t]; cbn [wstep] in HS.
  - destruct (fib s (Prog t)) eqn:Et; try done. destruct (f_al (fls s f)) eqn:Ea; [done|]. injection HS as <- _.
    apply (WI_file home c0); [done| |by eauto| |].
    + intros Hb. apply (busy_al home c0) in Hb; [congruence|done].
    + cbn. rewrite decide_True by done. eauto.
    + cbn. by rewrite decide_True.
  - destruct (fib s (Prog t)) eqn:Et; try done. destruct (negb (f_al (fls s f))); [done|]. injection HS as <- _. destruct HD as [HD1 HD2].
    apply (WI_file home c0); [done|done|by eauto| |]; cbn; [by rewrite decide_True|done].
  - destruct (fib s (Prog t)) eqn:Et; try done. destruct (negb (f_al (fls s f))); [done|]. destruct HD as [HD1 HD2].
    pose proof (w_own _ _ _ HI f) as HO. pose proof (own_al _ _ HI HD1) as Ha.
    assert (Hp : f_off (fls s f) = pos f (hist s)).
    { apply (w_pos _ _ _ HI f Ha). intros r Hr. destruct (job_op _ _ _ _ _ HI Hr) as (y & q & Hq & E & HP). apply HD2. exists (o_id q), (o_t q). rewrite <- E. by eapply op_open. }
    destruct p; injection HS as <- _; [| |done]; apply (WI_file home c0); try done; try (by eauto); cbn; by rewrite decide_True.
  - destruct (fib s (Prog t)); try done. destruct (negb _); [done|]. by injection HS as <- _.
  - destruct (fib s (Prog t)) eqn:Et; try done. destruct (negb (f_al (fls s f))) eqn:Ea; [done|]. apply negb_false_iff in Ea.
    destruct (bool_decide (f_sel (fls s f) = home t)) eqn:Eb; [|done]. apply bool_decide_eq_true in Eb. destruct HD as [HD _].
    destruct (start_op _ _ _) as [s1|] eqn:ES; [|done]. injection HS as <- _. by eapply WI_call.
  - destruct (fib s (Prog t)) eqn:Et; try done. destruct (negb (f_al (fls s f))) eqn:Ea; [done|]. apply negb_false_iff in Ea. destruct HD as [_ HD].
    destruct (bool_decide (f_sel (fls s f) = home t)) eqn:Eb.
    + apply bool_decide_eq_true in Eb. destruct (start_op _ _ _) as [s1|] eqn:ES; [|done]. injection HS as <- _. by eapply WI_call.
    + destruct ok; injection HS as <- _; [|by apply WI_reject]. eapply (WI_begin home c0 s t f wr len (is_wr wr) (Help (nid s))); try done.
      * right. split; [done|]. rewrite updf_ne by done. apply updf_eq.
      * apply updf_eq.
      * intros y H1 H2. by rewrite !updf_ne.
  - destruct (fib s (Help id)) as [| |o'| | | |] eqn:Eh; try done. destruct (start_op _ _ _) as [s1|] eqn:ES; [|done]. injection HS as <- _.
    rewrite <- (set_fib_id s) in ES. eapply (WI_start s (Help id) o' PStart); [done|done|by left|done|exact ES].
  - destruct (queue s) as [|f q] eqn:Eq; [done|]. case_decide; [|done]. injection HS as <- _. apply (WI_book home c0); [done| |apply HI].
    unfold jobs. cbn [queue runq msgs]. rewrite Eq. cbn. rewrite <- app_assoc. cbn. rewrite <- Permutation_middle. by rewrite <- Permutation_middle.
  - destruct (runq s !! j) as [[f [r|]]|] eqn:Ej; try done. destruct (negb (f_al (fls s f))); [done|]. destruct (negb _) eqn:Eb; [done|].
    apply negb_false_iff, andb_true_iff in Eb as [E1 E2]. apply Z.leb_le in E1. apply Nat.leb_le in E2. destruct (k_wr (fls s f)) eqn:Ew.
    + injection HS as <- _. apply (WI_exec home c0); [done|done| |done|congruence]. intros wr Hw Hd. destruct wr as [d|]; [|cbn in Hw; congruence].
      rewrite (Hd d) by done. cbn. split; [done|]. split; [cbn; lia|]. split; [done|]. cbn. split; [intros Hk; by rewrite decide_True by lia|]. intros Hk. rewrite decide_False by lia. by rewrite Nat2Z.id.
    + case_decide as Hk; [|done]. injection HS as <- _. apply (WI_exec home c0); [done|done| |congruence|].
      * intros wr Hw Hd. destruct wr as [d|]; [cbn in Hw; congruence|]. split; [done|]. split; [cbn; lia|]. cbn. split; [done|]. split; [unfold slice; by rewrite Nat2Z.id|].
        rewrite take_length, drop_length. lia.
      * intros _ Hl. rewrite <- Hl. apply overwrite_end.
  - destruct (runq s !! j) as [[f [r|]]|] eqn:Ej; try done. destruct (negb (f_al (fls s f))); [done|]. injection HS as <- _.
    apply (WI_exec home c0); [done|done| |done|by rewrite app_nil_r]. intros wr Hw Hd. destruct wr as [d|]; (split; [done|]; split; [cbn; lia|]; cbn; split; [done|]; split; [done|done || lia]).
  - destruct (runq s !! j) as [[f [r|]]|] eqn:Ej; try done. destruct (negb (f_al (fls s f))); [done|]. injection HS as <- _. apply (WI_book home c0); [done| |].
    + unfold jobs. cbn [queue runq msgs]. apply Permutation_app_head. rewrite <- (del_perm _ _ _ Ej) at 3. rewrite fmap_app. cbn.
      rewrite (app_assoc _ _ [_]), <- Permutation_cons_append. done.
    + intros m Hm. apply elem_of_app in Hm as [Hm|Hm]; [by apply (w_msg _ _ _ HI)|]. apply elem_of_list_singleton in Hm as ->. done.
  - destruct (msgs s !! j) as [m|] eqn:Ej; [|done]. destruct (negb (f_al _)); [done|]. destruct (fib s (m_data m)) as [| | |o'| | |] eqn:Ef; try done.
    destruct (negb (bool_decide _)); [done|]. injection HS as <- _. assert (Hx : (m_f m, Some (m_r m)) ∈ jobs s).
    { unfold jobs. rewrite !elem_of_app. right. right. apply elem_of_list_fmap. exists m. split; [done|]. by eapply elem_of_list_lookup_2. }
    destruct (job_op _ _ _ _ _ HI Hx) as (y & q & Hq & E & HP). pose proof (p_kio _ _ _ _ _ HP) as (K1 & _). destruct (w_msg _ _ _ HI m) as [M1 _]; [by eapply elem_of_list_lookup_2|].
    rewrite E in K1. rewrite M1, K1 in Ef. pose proof (proj1 Hq) as Hq1. rewrite Ef in Hq1. injection Hq1 as ->. apply (WI_cb home c0); try done. by rewrite M1, K1.
  - destruct (fib s fi) as [| | | |o' r| |] eqn:Ef; try done. assert (Ha : at_ s fi o' (PReady r)) by done. destruct (o_full o') eqn:Efu.
    + destruct (r <=? 0) eqn:Er.
      * apply Z.leb_le in Er. injection HS as <- _. rewrite <- (set_fib_id s). eapply WI_finish; [done|done| |done]. right. exists r. split; [done|]. by left.
      * apply Z.leb_gt in Er. destruct (start_op _ _ _) as [s1|] eqn:ES; [|done]. injection HS as <- _. rewrite <- (set_fib_id s) in ES.
        eapply (WI_start s fi o' (PReady r)); [done|done| |done|exact ES]. right. by exists r.
    + injection HS as <- _. rewrite <- (set_fib_id s). eapply WI_finish; [done|done| |done]. right. exists r. split; [done|]. by right.
  - destruct (fib s (Prog t)) as [| | | | |id f|] eqn:Et; try done. destruct (fib s (Help id)) as [| | | | | |o' r] eqn:Eh; try done. injection HS as <- _.
    assert (Ha : at_ s (Help id) o' (PExit r)) by done. destruct (w_join _ _ _ HI _ _ _ Et) as (p & q & H1 & <- & <- & <-).
    destruct (at_fun _ _ _ _ _ _ _ _ HI Ha H1) as [-> ->].
    apply (WI_ret home c0 s (Help (o_id o')) o' r (updf (updf (fib s) (Help (o_id o')) FNone) (Prog (o_t o')) FRun)); [done|done| | |].
    + apply updf_eq.
    + intros _ _. rewrite updf_ne by done. apply updf_eq.
    + intros y H2 H3. by rewrite !updf_ne.
Qed.
Lemma WI_nocrash s e : WI s -> duty home s e -> step s e <> Crash.
Proof.
  intros HI HD HS. destruct e as [t f i|t f|t f p off|t f|t f wr len full|t f wr len ok|id| |j k|j|j|j|fi|t]; cbn [wstep] in HS.
  - destruct (fib s (Prog t)); try done. by destruct (f_al (fls s f)).
  - destruct (fib s (Prog t)); try done. destruct HD as [HD _]. by rewrite (own_al _ _ HI HD) in HS.
  - destruct (fib s (Prog t)); try done. destruct HD as [HD _]. rewrite (own_al _ _ HI HD) in HS. by destruct p.
  - destruct (fib s (Prog t)); try done. destruct HD as [HD _]. by rewrite (own_al _ _ HI HD) in HS.
  - destruct (fib s (Prog t)); try done. destruct HD as [_ (t0 & i & HD & Hh)]. destruct (own_home _ _ _ _ HI HD) as (H1 & H2 & _). rewrite H1 in HS. cbn in HS.
    rewrite bool_decide_true in HS by congruence. cbn in HS. destruct (start_op _ _ _) eqn:E; [done|]. by apply start_some in E.
  - destruct (fib s (Prog t)); try done. destruct HD as [HD _]. pose proof (own_al _ _ HI HD) as Ha. rewrite Ha in HS. cbn [negb] in HS.
    destruct (bool_decide _); [|by destruct ok]. destruct (start_op _ _ _) eqn:E; [done|]. by apply start_some in E.
  - destruct (fib s (Help id)) as [| |o'| | | |] eqn:Eh; try done. destruct (start_op _ _ _) eqn:E; [done|]. apply start_some in E; [done|].
    assert (Ha : at_ s (Help id) o' PStart) by done. apply (w_op _ _ _ HI _ _ _ Ha).
  - destruct (queue s); [done|]. by case_decide.
  - destruct (runq s !! j) as [[f [r|]]|] eqn:Ej; try done. destruct (job_op _ _ _ _ _ HI (runq_job _ _ _ _ Ej)) as (y & q & _ & <- & HP). rewrite (p_al _ _ _ _ _ HP) in HS. cbn [negb] in HS.
    destruct (negb _); [done|]. destruct (k_wr _); [done|]. by case_decide.
  - destruct (runq s !! j) as [[f [r|]]|] eqn:Ej; try done. destruct (job_op _ _ _ _ _ HI (runq_job _ _ _ _ Ej)) as (y & q & _ & <- & HP). by rewrite (p_al _ _ _ _ _ HP) in HS.
  - destruct (runq s !! j) as [[f [r|]]|] eqn:Ej; try done. destruct (job_op _ _ _ _ _ HI (runq_job _ _ _ _ Ej)) as (y & q & _ & <- & HP). by rewrite (p_al _ _ _ _ _ HP) in HS.
  - destruct (msgs s !! j) as [m|] eqn:Ej; [|done]. assert (Hx : (m_f m, Some (m_r m)) ∈ jobs s).
    { unfold jobs. rewrite !elem_of_app. right. right. apply elem_of_list_fmap. exists m. split; [done|]. by eapply elem_of_list_lookup_2. }
    destruct (job_op _ _ _ _ _ HI Hx) as (y & q & Hq & E & HP). pose proof (p_kio _ _ _ _ _ HP) as (K1 & _). destruct (w_msg _ _ _ HI m) as [M1 M2]; [by eapply elem_of_list_lookup_2|].
    pose proof (p_al _ _ _ _ _ HP) as Hal. pose proof (p_fid _ _ _ _ _ HP) as HF. rewrite E in K1, Hal, HF. rewrite Hal, M1, K1, (proj1 Hq) in HS. cbn [negb] in HS.
    rewrite bool_decide_true in HS; [done|]. rewrite M2. destruct y as [t|id]; [by destruct HF as [-> HF]|by rewrite E].
  - destruct (fib s fi) as [| | | |o' r| |] eqn:Ef; try done. destruct (o_full o'); [|done]. destruct (r <=? 0); [done|].
    destruct (start_op _ _ _) eqn:E; [done|]. apply start_some in E; [done|]. assert (Ha : at_ s fi o' (PReady r)) by done. apply (w_op _ _ _ HI _ _ _ Ha).
  - destruct (fib s (Prog t)); try done. by destruct (fib s (Help id)).
Qed.
Lemma WI_run es : forall s s' os, WI s -> keeps home maxw s es -> run step s es = Ok s' os -> WI s'.
Proof.
  induction es as [|e es IH]; intros s s' os HI HK HR; cbn in HR; [by injection HR as <- <-|].
  destruct HK as [HD HK]. destruct (step s e) as [| |s1 o1] eqn:E; try done. destruct (run step s1 es) as [| |s2 os2] eqn:ER; try done.
  injection HR as <- <-. eapply IH; [|done|done]. by eapply WI_step.
Qed.
(** states reached by programs that keep their duties *)
Definition reach (s : sys) : Prop := exists es os, run step (winit c0) es = Ok s os /\ keeps home maxw (winit c0) es.
Lemma reach_WI s : reach s -> WI s.
Proof. intros (es & os & HR & HK). eapply WI_run; [apply WI_init|done|done]. Qed.

(** C72 (safe).  A program that uses open handles for one call at a time, from any thread with the safe calls, runs into no use of a freed
    handle, no wake-up of a fiber that does not wait and none from another thread.  Partial: without these rules the code fails (below). *)
Theorem C72_safe_partial es : keeps home maxw (winit c0) es -> run step (winit c0) es <> Crash.
Proof.
  generalize (WI_init home c0). generalize (winit c0). induction es as [|e es IH]; intros s HI HK; cbn; [done|]. destruct HK as [HD HK].
  destruct (step s e) as [| |s1 o1] eqn:E; try done; [by apply WI_nocrash in E|].
  specialize (IH s1 (WI_step _ _ _ _ HI HD E) HK). by destruct (run step s1 es).
Qed.
(** (exactly once) Call numbers are distinct, a call returns at most once, and only a call that was made returns; the fiber of a call that
    has not returned does not run. *)
Theorem C72_once s : reach s -> NoDup (called (hist s)) /\ NoDup (returned (hist s)) /\ (forall id, id ∈ returned (hist s) -> id ∈ called (hist s)) /\
  (forall id t f, open_call id t f (hist s) -> fib s (Prog t) <> FRun).
Proof.
  intros HR%reach_WI. split_and!; [apply HR|apply HR|apply HR|]. intros id t f Ho.
  destruct (w_open _ _ _ HR _ _ _ Ho) as [(o & ph & H & _)|H]; [by apply at_no in H as (H & _)|by rewrite H].
Qed.
(** (result) A call returns to the fiber that made it, for the handle it was made on, with the outcome of the system calls made for this
    call, the first at the position at the time of the call. *)
Theorem C72_result s h1 h2 id t f wr len full off t' f' r rem bytes : reach s -> hist s = h1 ++ HCall id t f wr len full true off :: h2 ->
  HRet id t' f' r rem bytes ∈ hist s -> t' = t /\ f' = f /\ ret_ok wr len full (pos f h1) (xfers id (hist s)) r rem bytes.
Proof.
  intros HR%reach_WI Hh H. destruct (w_ret _ _ _ HR _ _ _ _ _ _ H) as (wr' & len' & full' & acc & off' & H1 & H2).
  destruct (w_callpos _ _ _ HR _ _ _ _ _ _ _ _ _ _ Hh) as [-> _].
  assert (HC : HCall id t f wr len full true (pos f h1) ∈ hist s) by (rewrite Hh; apply elem_of_app; right; apply elem_of_cons; by left).
  pose proof (call_uniq _ _ _ _ _ _ _ _ _ _ _ _ _ _ _ _ (proj1 (w_ids _ _ _ HR)) H1 HC) as [= -> -> -> -> -> -> ->]. done.
Qed.
(** a safe call for which no helper fiber could be made returns 0 and does nothing *)
Theorem C72_rejected s id t f wr len full off t' f' r rem bytes : reach s -> HCall id t f wr len full false off ∈ hist s ->
  HRet id t' f' r rem bytes ∈ hist s -> t' = t /\ f' = f /\ r = 0 /\ rem = len /\ xfers id (hist s) = [].
Proof.
  intros HR%reach_WI HC H. destruct (w_ret _ _ _ HR _ _ _ _ _ _ H) as (wr' & len' & full' & acc & off' & H1 & H2).
  pose proof (call_uniq _ _ _ _ _ _ _ _ _ _ _ _ _ _ _ _ (proj1 (w_ids _ _ _ HR)) H1 HC) as [= -> -> -> -> -> -> ->]. destruct H2 as (? & ? & ? & ?). done.
Qed.
(** (system calls) Every system call is made for a call that has not returned, through the handle of that call, on the file behind it, at
    the handle's position, and sees what the system calls before have made of the file. *)
Theorem C72_exec s h1 h2 id f i off res b a g : reach s -> hist s = h1 ++ HExec id f i off res b a g :: h2 ->
  off = pos f h1 /\ b = contents (c0 i) i h1 /\ (exists t0, owner f h1 = Some (t0, i)) /\ (exists t, open_call id t f h1).
Proof. intros HR%reach_WI Hh. destruct (w_exec _ _ _ HR _ _ _ _ _ _ _ _ _ _ Hh) as (? & ? & ? & ?). done. Qed.
Theorem C72_contents s i : reach s -> cont s i = contents (c0 i) i (hist s).
Proof. intros HR%reach_WI. apply HR. Qed.
(** (position) tell returns the position. *)
Theorem C72_tell s t f : reach s -> duty home s (ETell t f) -> fib s (Prog t) = FRun -> step s (ETell t f) = Ok s (Some (pos f (hist s))).
Proof.
  intros HR%reach_WI [H1 H2] Ht. cbn. pose proof (own_al _ _ HR H1) as Ha. rewrite Ht, Ha. cbn. do 2 f_equal.
  apply (w_pos _ _ _ HR f Ha). intros r Hr. destruct (job_op _ _ _ _ _ HR Hr) as (y & q & Hq & E & HP). apply H2. exists (o_id q), (o_t q). rewrite <- E. by eapply op_open.
Qed.
End props.

(** * What the results mean for the data *)
Lemma total_cons x xs : total (x :: xs) = (Z.to_nat (x_res x) + total xs)%nat.
Proof. done. Qed.
(** a chain of reads of a file that nobody changes in between returns the file's bytes from the position on *)
Lemma seq_read c : forall xs len off, seq_ok None len off xs -> Forall (λ x, x_before x = c) xs -> 0 <= off ->
  concat (x_got <$> xs) = slice c off (Z.of_nat (total xs)).
Proof.
  induction xs as [|x xs IH]; intros len off Hs Hc Ho; [done|]. apply Forall_cons in Hc as [Hx Hc]. destruct Hs as ((E1 & E2 & E3 & E4 & E5) & H2 & H3).
  cbn [fmap list_fmap concat]. rewrite (IH _ _ H3 Hc) by lia. rewrite E4, Hx. unfold slice. rewrite total_cons.
  replace (Z.to_nat (off + Z.max 0 (x_res x))) with (Z.to_nat off + Z.to_nat (x_res x))%nat by lia. rewrite <- drop_drop.
  rewrite !Nat2Z.id. apply take_take_drop.
Qed.
(** (reading) The bytes a read or read_full call delivers are the file's bytes from the position on, if the file did not change during the call. *)
Theorem C72_read home maxw c0 s h1 h2 id t f len full off t' f' r rem bytes c : reach home maxw c0 s -> hist s = h1 ++ HCall id t f None len full true off :: h2 ->
  HRet id t' f' r rem bytes ∈ hist s -> Forall (λ x, x_before x = c) (xfers id (hist s)) -> 0 <= pos f h1 -> bytes = slice c (pos f h1) (Z.of_nat (len - rem)).
Proof.
  intros HR Hh H Hc Hp. destruct (C72_result _ _ _ _ _ _ _ _ _ _ _ _ _ _ _ _ _ _ HR Hh H) as (_ & _ & Hs & Ht & -> & _). rewrite (seq_read c _ _ _ Hs Hc Hp). do 2 f_equal. lia.
Qed.
(** a chain of writes that nobody disturbs writes the data at the position *)
Lemma overwrite_more c o (d1 d2 : list Z) : overwrite (overwrite c o d1) (o + length d1) d2 = overwrite c o (d1 ++ d2).
Proof.
  unfold overwrite at 1. assert (Hl : length (take o (c ++ replicate o 0)) = o) by (rewrite take_length, app_length, replicate_length; lia).
  assert (E : take (o + length d1) (overwrite c o d1 ++ replicate (o + length d1) 0) = take o (c ++ replicate o 0) ++ d1).
  { unfold overwrite. rewrite <- !app_assoc, (app_assoc _ d1). rewrite take_app_alt; [done|]. rewrite app_length. lia. }
  rewrite E. unfold overwrite. rewrite <- !app_assoc. do 3 f_equal.
  rewrite (app_assoc _ d1), drop_app_ge by (rewrite app_length; lia). rewrite drop_drop, !app_length. f_equal. lia.
Qed.
Fixpoint linked (c : list Z) (xs : list xfer) : Prop := match xs with [] => True | x :: xs => x_before x = c /\ linked (x_after x) xs end.
Definition last_after (c : list Z) (xs : list xfer) : list Z := fold_left (λ _ x, x_after x) xs c.
Lemma seq_write : forall xs d len off c, seq_ok (Some d) len off xs -> len = length d -> linked c xs -> 0 <= off -> (0 < total xs)%nat ->
  last_after c xs = overwrite c (Z.to_nat off) (take (total xs) d).
Proof.
  induction xs as [|x xs IH]; intros d len off c Hs Hl Hc Ho Ht; [unfold total in Ht; cbn in Ht; lia|]. destruct Hc as [Hx Hc]. destruct Hs as ((E1 & E2 & E3 & E4 & E5) & H2 & H3).
  cbn [last_after fold_left]. fold (last_after (x_after x) xs). rewrite total_cons in *.
  destruct (decide (total xs = 0)%nat) as [E0|E0].
  - rewrite E0, Nat.add_0_r in *. assert (Hp : 0 < x_res x) by lia. destruct (E5 Hp) as [_ E6]. rewrite Hx in E6. rewrite <- E6.
    clear - H3 Hc E0. revert H3 Hc E0. generalize (x_after x) as a. cbn [fmap option_fmap option_map].
    generalize (drop (Z.to_nat (x_res x)) d) as d', (len - Z.to_nat (x_res x))%nat as n, (off + Z.max 0 (x_res x)) as q.
    intros d' n q a H3 Hc E0. revert d' n q a H3 Hc E0. induction xs as [|y xs IH]; intros d' n q a H3 Hc E0; [done|]. rewrite total_cons in E0.
    destruct Hc as [Hy Hc]. destruct H3 as ((F1 & F2 & F3 & F4 & F5) & G2 & G3). destruct xs as [|z xs].
    + cbn. rewrite F4 by lia. done.
    + exfalso. assert (0 < x_res y) by (by apply G2). lia.
  - assert (Hp : 0 < x_res x). { apply H2. intros ->. by apply E0. } destruct (E5 Hp) as [_ E6]. rewrite Hx in E6.
    rewrite (IH _ _ _ _ H3); [|rewrite drop_length; cbn; lia|done|lia|lia]. rewrite E6.
    replace (Z.to_nat (off + Z.max 0 (x_res x))) with (Z.to_nat off + length (take (Z.to_nat (x_res x)) d))%nat by (rewrite take_length; lia).
    rewrite overwrite_more. f_equal. apply take_take_drop.
Qed.
(** (writing) A write_full that returned true, not disturbed by writes of others to the file, left the file with exactly its data written at the position. *)
Theorem C72_write home maxw c0 s h1 h2 id t f d len off t' f' rem bytes c : reach home maxw c0 s -> hist s = h1 ++ HCall id t f (Some d) len true true off :: h2 ->
  len = length d -> HRet id t' f' 1 rem bytes ∈ hist s -> linked c (xfers id (hist s)) -> 0 <= pos f h1 -> d <> [] ->
  last_after c (xfers id (hist s)) = overwrite c (Z.to_nat (pos f h1)) d.
Proof.
  intros HR Hh Hl H Hc Hp Hd. destruct (C72_result _ _ _ _ _ _ _ _ _ _ _ _ _ _ _ _ _ _ HR Hh H) as (_ & _ & Hs & Ht & _ & [[_ Hr]|[E _]]); [|done].
  assert (Hn : length d <> 0%nat) by (by destruct d). rewrite (seq_write _ _ _ _ _ Hs Hl Hc Hp) by lia. f_equal. apply take_ge. lia.
Qed.
