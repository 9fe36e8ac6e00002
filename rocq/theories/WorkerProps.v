(** Properties C32-C34: the worker pool.  Model: WorkerModel.v *)
From Verif Require Import WorkerModel WorkerProof.
Local Open Scope Z_scope.

Section props.
Context (alloc : nat -> gset positive -> positive) (HA : forall k X, alloc k X ∉ X).

(** reached by a schedule in which thread starts succeed *)
Definition reached (mw mq : Z) (s : ws) : Prop :=
  exists es os, Forall good es /\ run (wstep alloc) (ws_init mw mq) es = Ok s os.
Lemma run_WI hi lo es : forall s l s' os, WI hi lo s l -> Forall good es -> run (wstep alloc) s es = Ok s' os ->
  (exists l', WI hi lo s' l') /\ max_worker s' = max_worker s /\ max_queue s' = max_queue s.
Proof.
  induction es as [|e es IH]; intros s l s' os HI HF HR; cbn in HR; [simplify_eq; eauto|].
  apply Forall_cons in HF as [He HF]. destruct (wstep alloc s e) as [| |s1 o] eqn:E; try done.
  destruct (run (wstep alloc) s1 es) as [| |s2 os2] eqn:ER; try done. injection HR as <- <-.
  destruct (WI_step alloc HA _ _ _ _ _ _ _ HI He E) as [l1 H1]. destruct (max_step alloc _ _ _ _ E) as [M1 M2].
  destruct (IH s1 l1 s2 os2 H1 HF ER) as (A & B & C). split_and!; [done|congruence|congruence].
Qed.
Lemma reached_WI mw mq s : reached mw mq s -> exists l, WI mw mw s l /\ max_worker s = mw /\ max_queue s = mq.
Proof.
  intros (es & os & HF & HR). destruct (run_WI mw mw es _ [] _ _ (WI_init mw mq mw mw ltac:(lia)) HF HR) as ([l Hl] & B & C). eauto.
Qed.

(** No schedule fails an assertion, uses a freed cell or the freed worker object, or frees anything twice. *)
Theorem C32_safe mw mq es : Forall good es -> run (wstep alloc) (ws_init mw mq) es <> Crash.
Proof.
  intros HF. assert (Hgen : forall es s l, WI mw mw s l -> Forall good es -> run (wstep alloc) s es <> Crash); [|eapply Hgen; [apply WI_init; lia|done]].
  clear es HF. induction es as [|e es IH]; intros s l HI HF; [done|]. apply Forall_cons in HF as [He HF]. cbn.
  destruct (wstep alloc s e) as [| |s1 o] eqn:E; [done|by eapply WI_safe in E|].
  destruct (WI_step alloc HA _ _ _ _ _ _ _ HI He E) as [l1 H1]. specialize (IH s1 l1 H1 HF). by destruct (run (wstep alloc) s1 es).
Qed.
(** Exactly once: accepted jobs = called jobs + jobs not called yet, as multisets, in every reachable state;
    the callbacks called are those reported by the OCall outputs (second theorem); and a rejected job changes nothing. *)
Theorem C32_exactly_once mw mq s : reached mw mq s -> exists waiting, accepted s ≡ₚ called s ++ waiting /\
  (NoDup (accepted s) -> NoDup (called s)) /\
  (head s = None -> (forall t a j, thr s !! t <> Some (WRun a j)) -> called s ≡ₚ accepted s).
Proof.
  intros HR. destruct (reached_WI _ _ _ HR) as (l & HI & _). pose proof (WI_acc _ _ _ _ HI) as HA2.
  exists (omap owes (thr s) ++ (cj <$> l)). split; [done|]. split; [rewrite HA2; by intros [? _]%NoDup_app|].
  intros Hh Ht. assert (l = []) as ->. { pose proof (WI_chain _ _ _ _ HI) as Hc. destruct l; [done|]. destruct Hc. congruence. }
  rewrite HA2. assert (omap owes (thr s) = []) as ->; [|cbn; by rewrite app_nil_r].
  destruct (omap owes (thr s)) as [|j k] eqn:E; [done|]. assert (Hj : j ∈ omap owes (thr s)) by (rewrite E; set_solver).
  apply elem_of_list_omap in Hj as (p & Hp & Ej). apply elem_of_list_lookup in Hp as [t Hp]. destruct p; try done. by destruct (Ht t a j0).
Qed.
Definition calls (os : list wout) : list nat := omap (λ o, match o with OCall j => Some j | _ => None end) os.
Lemma add_called s j w h ok s' o : add alloc s j w h ok = Ok s' o -> called s' = called s /\ o = OBool true /\ accepted s' = accepted s ++ [j].
Proof.
  unfold add. set (s0 := set_q s _ _ _ _). unfold enqueue. destruct (last s0).
  - destruct h; cbn.
    + rewrite lookup_insert. cbn. unfold spawn. cbn. case_decide; [|destruct ok; [|done]]; cbn; intros [= <- <-]; by destruct w.
    + destruct (_ !! p); [|done]. cbn. unfold spawn. cbn. case_decide; [|destruct ok; [|done]]; cbn; intros [= <- <-]; by destruct w.
  - destruct (head s0); [done|]. cbn. unfold spawn. cbn. case_decide; [|destruct ok; [|done]]; cbn; intros [= <- <-]; by destruct w.
Qed.
Lemma step_called s e s' o : wstep alloc s e = Ok s' o ->
  called s' = called s ++ calls [o] /\
  accepted s' = accepted s ++ (match e, o with WTry j _ _, OBool true => [j] | WStart j _, _ => [j] | _, _ => [] end).
Proof.
  intros HS. destruct e as [j high ok|j ok| | |t|t|t|t]; cbn [wstep] in HS.
  - destruct (negb (may_call s)); [done|]. destruct (negb (alive s)); [done|].
    destruct (over s); [injection HS as <- <-; cbn; by rewrite !app_nil_r|]. apply add_called in HS as (-> & -> & ->). cbn. by rewrite app_nil_r.
  - destruct (negb (may_call s)); [done|]. destruct (negb (alive s)); [done|]. apply add_called in HS as (-> & -> & ->). cbn. by rewrite app_nil_r.
  - destruct (negb (may_call s)); [done|]. destruct (negb (alive s)); [done|]. injection HS as <- <-. cbn. by rewrite !app_nil_r.
  - destruct (ext s); [done|]. destruct (negb (alive s)); [done|]. injection HS as <- <-. cbn. by rewrite !app_nil_r.
  - destruct (thr s !! t) as [[]|]; try done. destruct (negb (alive s)); [done|].
    destruct (head s); [|injection HS as <- <-; cbn; by rewrite !app_nil_r].
    destruct (heap s !! p); [|done]. injection HS as <- <-. cbn. by rewrite !app_nil_r.
  - destruct (thr s !! t) as [[]|]; try done. destruct (heap s !! a) as [p|]; [|done]. injection HS as <- <-. cbn. rewrite app_nil_r. by destruct (pwait p).
  - destruct (thr s !! t) as [[]|]; try done. destruct (heap s !! a) as [p|]; [|done]. injection HS as <- <-. cbn. by rewrite !app_nil_r.
  - destruct (thr s !! t) as [[]|]; try done. destruct (negb (alive s)); [done|]. injection HS as <- <-. cbn. by rewrite !app_nil_r.
Qed.
(** the ghost lists are what the schedule shows: the jobs of successful submissions, and the callback calls *)
Fixpoint submitted (es : list wev) (os : list wout) : list nat :=
  match es, os with
  | WTry j _ _ :: es, OBool true :: os => j :: submitted es os
  | WStart j _ :: es, _ :: os => j :: submitted es os
  | _ :: es, _ :: os => submitted es os
  | _, _ => []
  end.
Theorem C32_trace mw mq es s os : run (wstep alloc) (ws_init mw mq) es = Ok s os ->
  accepted s = submitted es os /\ called s = calls os.
Proof.
  intros HR. assert (Hgen : forall es s0 s os, run (wstep alloc) s0 es = Ok s os -> accepted s = accepted s0 ++ submitted es os /\ called s = called s0 ++ calls os).
  { clear. induction es as [|e es IH]; intros s0 s os HR; cbn in HR; [simplify_eq; cbn; by rewrite !app_nil_r|].
    destruct (wstep alloc s0 e) as [| |s1 o] eqn:E; try done. destruct (run (wstep alloc) s1 es) as [| |s2 os2] eqn:ER; try done. injection HR as <- <-.
    destruct (step_called _ _ _ _ E) as [E1 E2]. destruct (IH _ _ _ ER) as [-> ->]. rewrite E1, E2, <- !app_assoc. split.
    - f_equal. destruct e; [|done..]. by destruct o as [|[]|].
    - f_equal. unfold calls. by rewrite <- omap_app. }
  by apply Hgen in HR.
Qed.
Theorem C32_rejected s j high ok s' : wstep alloc s (WTry j high ok) = Ok s' (OBool false) -> s' = s.
Proof.
  cbn. destruct (negb (may_call s)); [done|]. destruct (negb (alive s)); [done|]. destruct (over s); [by intros [= <-]|].
  intros H. by apply add_called in H as (_ & ? & _).
Qed.
(** normal jobs are dequeued in submission order, whatever high jobs do *)
Theorem C32_order mw mq s : reached mw mq s -> exists rest, accn s = takenn s ++ rest.
Proof. intros HR. destruct (reached_WI _ _ _ HR) as (l & HI & _). eexists. apply HI. Qed.
(** nothing is stranded: while a job is queued some thread is still in its loop, and the worker threads alone
    can always bring every accepted job to its call *)
Theorem C32_not_stranded mw mq s : 1 <= mw -> reached mw mq s -> head s <> None -> exists t p, thr s !! t = Some p /\ working p = true.
Proof.
  intros Hm HR Hh. destruct (reached_WI _ _ _ HR) as (l & HI & Em & _).
  assert (Hl : l <> []). { intros ->. by pose proof (WI_chain _ _ _ _ HI). }
  pose proof (WI_one _ _ _ _ HI Hl ltac:(lia)) as H1. rewrite (WI_worker _ _ _ _ HI) in H1. unfold count in H1.
  destruct (filter (λ p, working p = true) (thr s)) as [|p k] eqn:E; [cbn in H1; lia|].
  assert (Hp : p ∈ filter (λ p, working p = true) (thr s)) by (rewrite E; set_solver). apply elem_of_list_filter in Hp as [Hw Hp].
  apply elem_of_list_lookup in Hp as [t Ht]. eauto.
Qed.
Definition by_worker (e : wev) : Prop := match e with WTake _ | WCall _ | WDone _ => True | _ => False end.
Definition wt (p : wpc) : nat := match p with WRun _ _ => 2 | WCb _ _ => 1 | _ => 0 end.
Fixpoint wts (l : list wpc) : nat := match l with [] => 0 | p :: l => wt p + wts l end.
Lemma wts_upd l t p q : l !! t = Some p -> (wts (<[t := q]> l) + wt p = wts l + wt q)%nat.
Proof.
  revert t. induction l as [|x l IH]; intros [|t] H; try done.
  - injection H as ->. change (<[0%nat := q]> (p :: l)) with (q :: l). cbn [wts]. lia.
  - change (<[S t := q]> (x :: l)) with (x :: <[t := q]> l). cbn [wts]. specialize (IH t H). lia.
Qed.
Lemma all_executed hi lo n : forall s l, WI hi lo s l -> 1 <= lo -> (3 * length l + wts (thr s) = n)%nat ->
  exists es s' os, Forall by_worker es /\ run (wstep alloc) s es = Ok s' os /\ accepted s' = accepted s /\ called s' ≡ₚ accepted s.
Proof.
  induction n as [n IH] using lt_wf_ind. intros s l HI Hm Hn.
  assert (Hgo : forall e s1 o l1, wstep alloc s e = Ok s1 o -> by_worker e -> WI hi lo s1 l1 -> max_worker s1 = max_worker s -> accepted s1 = accepted s ->
     (3 * length l1 + wts (thr s1) < n)%nat ->
     exists es s' os, Forall by_worker es /\ run (wstep alloc) s es = Ok s' os /\ accepted s' = accepted s /\ called s' ≡ₚ accepted s).
  { intros e s1 o l1 E Hb H1 HM HAc Hlt. destruct (IH _ Hlt s1 l1 H1 ltac:(lia) eq_refl) as (es & s' & os & A & B & C & D).
    exists (e :: es), s', (o :: os). cbn. rewrite E, B. split_and!; [by constructor|done|congruence|by rewrite D, HAc]. }
  destruct (decide (Forall (λ p, wt p = 0%nat) (thr s))) as [Hz|Hz].
  - destruct l as [|c l].
    + exists [], s, []. split_and!; [constructor|done|done|]. rewrite (WI_acc _ _ _ _ HI). assert (omap owes (thr s) = []) as ->; [|cbn; by rewrite app_nil_r].
      clear -Hz. induction (thr s) as [|p k IHk]; [done|]. apply Forall_cons in Hz as [H1 H2]. rewrite omap_cons. destruct p; try done; cbn; by apply IHk.
    + pose proof (WI_one _ _ _ _ HI ltac:(done) Hm) as H1. rewrite (WI_worker _ _ _ _ HI) in H1. unfold count in H1.
      destruct (filter (λ p, working p = true) (thr s)) as [|p k] eqn:E; [cbn in H1; lia|].
      assert (Hp : p ∈ filter (λ p, working p = true) (thr s)) by (rewrite E; set_solver). apply elem_of_list_filter in Hp as [Hw Hp].
      apply elem_of_list_lookup in Hp as [t Ht]. pose proof (Forall_lookup_1 _ _ _ _ Hz Ht) as Hp0. destruct p; try done.
      pose proof (WI_alive_thr _ _ _ _ _ _ HI Ht eq_refl) as Hal. pose proof (WI_chain _ _ _ _ HI) as [Hh (nx & Hc & Hch)].
      destruct (wstep alloc s (WTake t)) as [| |s1 o] eqn:ES; [cbn in ES; rewrite Ht, Hal, Hh in ES; cbn in ES; by rewrite Hc in ES|by eapply WI_safe in ES|].
      destruct (WI_step alloc HA _ _ _ _ (WTake t) _ _ HI Logic.I ES) as [l1 H2]. destruct (max_step alloc _ _ _ _ ES) as [M1 _].
      destruct (step_called _ _ _ _ ES) as [_ HAc]. cbn in HAc. rewrite app_nil_r in HAc.
      assert (Hlen : length l1 = length l /\ thr s1 = <[t := WRun (ca c) (cj c)]> (thr s)).
      { cbn in ES. rewrite Ht, Hal, Hh in ES. cbn in ES. rewrite Hc in ES. injection ES as <- <-. split; [|done].
        pose proof (WI_queue _ _ _ _ H2) as Q2. pose proof (WI_queue _ _ _ _ HI) as Q1. cbn in Q1, Q2. lia. }
      destruct Hlen as [Hlen Hth]. eapply (Hgo (WTake t) s1 o l1); [done|done|done|done|done|]. rewrite Hlen, Hth.
      pose proof (wts_upd _ _ _ (WRun (ca c) (cj c)) Ht). cbn in *. lia.
  - apply not_Forall_Exists, Exists_exists in Hz as (p & Hp & Hz); [|solve_decision]. apply elem_of_list_lookup in Hp as [t Ht].
    destruct p as [|a j|a j| |]; try (cbn in Hz; lia).
    + destruct (held_heap _ _ _ _ _ _ _ HI Ht eq_refl) as [q Hq].
      destruct (wstep alloc s (WCall t)) as [| |s1 o] eqn:ES; [cbn in ES; by rewrite Ht, Hq in ES|by eapply WI_safe in ES|].
      destruct (WI_step alloc HA _ _ _ _ (WCall t) _ _ HI Logic.I ES) as [l1 H2]. destruct (max_step alloc _ _ _ _ ES) as [M1 _].
      destruct (step_called _ _ _ _ ES) as [_ HAc]. cbn in HAc. rewrite app_nil_r in HAc.
      assert (Hlen : length l1 = length l /\ thr s1 = <[t := WCb a j]> (thr s)).
      { cbn in ES. rewrite Ht, Hq in ES. injection ES as <- <-. pose proof (WI_queue _ _ _ _ H2) as Q2. pose proof (WI_queue _ _ _ _ HI) as Q1.
        destruct (pwait q); cbn in *; (split; [lia|done]). }
      destruct Hlen as [Hlen Hth]. eapply (Hgo (WCall t) s1 o l1); [done|done|done|done|done|]. rewrite Hlen, Hth.
      pose proof (wts_upd _ _ _ (WCb a j) Ht). cbn [wt] in *. lia.
    + destruct (held_heap _ _ _ _ _ _ _ HI Ht eq_refl) as [q Hq].
      destruct (wstep alloc s (WDone t)) as [| |s1 o] eqn:ES; [cbn in ES; by rewrite Ht, Hq in ES|by eapply WI_safe in ES|].
      destruct (WI_step alloc HA _ _ _ _ (WDone t) _ _ HI Logic.I ES) as [l1 H2]. destruct (max_step alloc _ _ _ _ ES) as [M1 _].
      destruct (step_called _ _ _ _ ES) as [_ HAc]. cbn in HAc. rewrite app_nil_r in HAc.
      assert (Hlen : length l1 = length l /\ thr s1 = <[t := WLoop]> (thr s)).
      { cbn in ES. rewrite Ht, Hq in ES. injection ES as <- <-. pose proof (WI_queue _ _ _ _ H2) as Q2. pose proof (WI_queue _ _ _ _ HI) as Q1.
        cbn in *; (split; [lia|done]). }
      destruct Hlen as [Hlen Hth]. eapply (Hgo (WDone t) s1 o l1); [done|done|done|done|done|]. rewrite Hlen, Hth.
      pose proof (wts_upd _ _ _ WLoop Ht). cbn [wt] in *. lia.
Qed.
Theorem C32_all_executed mw mq s : 1 <= mw -> reached mw mq s ->
  exists es s' os, Forall by_worker es /\ run (wstep alloc) s es = Ok s' os /\ accepted s' = accepted s /\ called s' ≡ₚ accepted s.
Proof. intros Hm HR. destruct (reached_WI _ _ _ HR) as (l & HI & Em & _). eapply all_executed; [done|exact Hm|done]. Qed.
(** a submitter of kasync_worker_start blocked on a full queue is released exactly when its own job is about to be called *)
Theorem C32_blocked mw mq s a : reached mw mq s -> a ∈ blocked s ->
  exists p, heap s !! a = Some p /\ pwait p = true /\ pjob p ∈ accepted s.
Proof.
  intros HR Hb. destruct (reached_WI _ _ _ HR) as (l & HI & _). pose proof (proj1 (WI_blk _ _ _ _ HI a) Hb) as [(c & Hc & Eca & Hw)|(t & j & p & Ht & Hp & Hw)].
  1: subst a.
  - assert (exists nx, heap s !! ca c = Some (mkp nx (cj c) (cw c) (ch c))) as [nx Hp].
    { pose proof (WI_chain _ _ _ _ HI) as Hch. clear -Hc Hch. revert Hch. generalize (head s) (heap s). intros o h. revert o. induction l as [|d l IH]; intros o; [by apply elem_of_nil in Hc|].
      intros [_ (nx & Hd & Hl)]. apply elem_of_cons in Hc as [->|Hc]; [eauto|eauto]. }
    eexists. split; [exact Hp|]. split; [done|]. cbn. rewrite (WI_acc _ _ _ _ HI). rewrite !elem_of_app. right. right. by apply elem_of_list_fmap_1.
  - exists p. split_and!; [done|done|]. destruct (WI_job _ _ _ _ HI _ _ _ Ht) as (p' & Hp' & Ej). rewrite Hp in Hp'. injection Hp' as <-.
    rewrite (WI_acc _ _ _ _ HI), !elem_of_app. right. left. apply elem_of_list_omap. exists (WRun a j). split; [by eapply elem_of_list_lookup_2|by rewrite Ej].
Qed.

(** C33: thread limit, queue length field, object lifetime *)
Theorem C33_limits mw mq s : reached mw mq s ->
  Z.of_nat (length (filter (λ p, working p = true) (thr s))) <= Z.max 0 mw /\
  (exists l, chain (heap s) (head s) l /\ queue s = Z.of_nat (length l)).
Proof.
  intros HR. destruct (reached_WI _ _ _ HR) as (l & HI & Em & _). split.
  - pose proof (WI_max _ _ _ _ HI) as H. rewrite (WI_worker _ _ _ _ HI) in H. exact H.
  - exists l. split; apply HI.
Qed.
(** freed once, exactly when neither an owner nor a thread that has not released it is left *)
Theorem C33_lifetime mw mq s : reached mw mq s ->
  (alive s = true <-> ext s <> 0%nat \/ exists t p, thr s !! t = Some p /\ p <> WGone) /\
  frees s = (if alive s then 0 else 1)%nat /\ (alive s = false -> 1 <= mw -> called s ≡ₚ accepted s).
Proof.
  intros HR. destruct (reached_WI _ _ _ HR) as (l & HI & Em & _).
  assert (Hp : (0 < count present (thr s))%nat <-> exists t p, thr s !! t = Some p /\ p <> WGone).
  { split.
    - unfold count. intros H. destruct (filter (λ p, present p = true) (thr s)) as [|p k] eqn:E; [cbn in H; lia|].
      assert (Hp : p ∈ filter (λ p, present p = true) (thr s)) by (rewrite E; set_solver). apply elem_of_list_filter in Hp as [Hw Hp].
      apply elem_of_list_lookup in Hp as [t Ht]. exists t, p. split; [done|]. by destruct p.
    - intros (t & p & Ht & Hp). eapply present_pos; [done|]. by destruct p. }
  split_and!.
  - rewrite <- Hp. rewrite (WI_alive _ _ _ _ HI), (WI_refs _ _ _ _ HI). lia.
  - apply HI.
  - intros Ha Hm. assert (Hr : ~ 0 < refs s) by (rewrite <- (WI_alive _ _ _ _ HI); congruence). rewrite (WI_refs _ _ _ _ HI) in Hr.
    assert (Hc0 : count present (thr s) = 0%nat) by lia.
    assert (Hall : forall t p, thr s !! t = Some p -> p = WGone).
    { intros t p Ht. destruct (decide (present p = true)) as [Hq|Hq]; [|by destruct p]. pose proof (present_pos _ _ _ Ht Hq). lia. }
    rewrite (WI_acc _ _ _ _ HI). assert (omap owes (thr s) = []) as ->.
    { destruct (omap owes (thr s)) as [|j k] eqn:E; [done|]. assert (Hj : j ∈ omap owes (thr s)) by (rewrite E; set_solver).
      apply elem_of_list_omap in Hj as (p & Hpp & Ej). apply elem_of_list_lookup in Hpp as [t Hpp]. rewrite (Hall _ _ Hpp) in Ej. done. }
    destruct l as [|c l]; [cbn; by rewrite app_nil_r|]. pose proof (WI_one _ _ _ _ HI ltac:(done) ltac:(lia)) as H1. rewrite (WI_worker _ _ _ _ HI) in H1.
    exfalso. unfold count in H1. destruct (filter (λ p, working p = true) (thr s)) as [|p k] eqn:E; [cbn in H1; lia|].
    assert (Hq : p ∈ filter (λ p, working p = true) (thr s)) by (rewrite E; set_solver). apply elem_of_list_filter in Hq as [Hw Hq].
    apply elem_of_list_lookup in Hq as [t Ht]. by rewrite (Hall _ _ Ht) in Hw.
Qed.

(** C34 in the form the code has: a successful try_start leaves at most max_queue + 1 jobs queued *)
Theorem C34_capacity_partial mw mq s j high ok s' : reached mw mq s -> 0 < mq -> good (WTry j high ok) ->
  wstep alloc s (WTry j high ok) = Ok s' (OBool true) -> exists l, chain (heap s') (head s') l /\ Z.of_nat (length l) <= mq + 1.
Proof.
  intros HR Hm Hg HS. destruct (reached_WI _ _ _ HR) as (l & HI & _ & Em). destruct (WI_step alloc HA _ _ _ _ _ _ _ HI Hg HS) as [l' H'].
  exists l'. split; [apply H'|]. rewrite <- (WI_queue _ _ _ _ H'). cbn in HS. destruct (negb (may_call s)); [done|].
  destruct (alive s) eqn:Ea; [|done]. cbn in HS. destruct (over s) eqn:Eo; [done|].
  assert (queue s <= mq).
  { unfold over in Eo. rewrite Em in Eo. apply andb_false_iff in Eo as [Eo|Eo]; apply bool_decide_eq_false in Eo; lia. }
  destruct (add_ok alloc HA _ _ s l j false high ok HI Ea (or_introl Hg)) as (s2 & c & E & H2 & _). rewrite E in HS. injection HS as <-.
  rewrite (WI_queue _ _ _ _ H2). pose proof (WI_queue _ _ _ _ HI). destruct high; rewrite ?app_length; cbn; lia.
Qed.
End props.
Print Assumptions C32_safe.
Print Assumptions C32_exactly_once.
Print Assumptions C32_trace.
Print Assumptions C32_order.
Print Assumptions C32_not_stranded.
Print Assumptions C32_all_executed.
Print Assumptions C32_blocked.
Print Assumptions C33_limits.
Print Assumptions C33_lifetime.
Print Assumptions C34_capacity_partial.

Definition walloc (k : nat) (X : gset positive) : positive := fresh X.
Lemma walloc_fresh k X : walloc k X ∉ X.
Proof. apply is_fresh. Qed.
(** max_queue = 1, one worker busy with job 1: jobs 2 and 3 are both accepted and queued *)
Theorem C34_capacity_refuted : exists es s os, Forall good es /\ run (wstep walloc) (ws_init 1 1) es = Ok s os /\
  Forall (λ o, o <> OBool false) os /\ queue s = 2.
Proof.
  eexists [WTry 1 false true; WTake 0; WTry 2 false true; WTry 3 false true], _, _. split; [repeat constructor|].
  split; [vm_compute; reflexivity|]. split; [repeat constructor; done|done].
Qed.
Print Assumptions C34_capacity_refuted.
(** a failed thread start executes "worker--" on the pointer: undefined behaviour *)
Theorem C32_start_failure_refuted : run (wstep walloc) (ws_init 1 0) [WTry 1 false false] = Crash.
Proof. vm_compute. reflexivity. Qed.
Print Assumptions C32_start_failure_refuted.
(** two workers, a high job overtaking, a job submitted from a callback, a submitter that has to wait, the owner leaving early *)
Definition wdemo : list wev :=
  [WTry 1 false true; WTry 2 false true; WTry 3 false true; WTry 4 true true; WTake 0; WCall 0; WStart 5 true; WStart 6 true; WRelease;
   WTry 7 true true; WDone 0; WTake 1; WCall 1; WTake 0; WCall 0; WDone 0; WTake 0; WCall 0; WDone 0; WDone 1; WTake 1; WCall 1; WDone 1;
   WTake 0; WCall 0; WDone 0; WTake 0; WFin 0; WTake 1; WFin 1].
Example C32_demo : match run (wstep walloc) (ws_init 2 3) wdemo with
  | Ok s _ => called s = [4; 1; 2; 3; 5; 6]%nat /\ accepted s = [1; 2; 3; 4; 5; 6]%nat /\ accn s = [1; 2; 3; 5; 6]%nat /\ alive s = false /\ frees s = 1%nat
  | _ => False end.
Proof. vm_compute. done. Qed.
Example C32_demo_blocked : match run (wstep walloc) (ws_init 2 3) (take 8 wdemo) with Ok s _ => length (blocked s) = 1%nat /\ queue s = 5 | _ => False end.
Proof. vm_compute. done. Qed.
Example C32_demo_good : Forall good wdemo.
Proof. repeat constructor. Qed.
