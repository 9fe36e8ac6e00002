(** No crash, order of events, progress. *)
From Verif Require Export IocpProof10.
Local Open Scope Z_scope.

(** ** no crash *)
Lemma waiting_no_loc s o x : Inv s -> objs s !! o = Some x -> ~ waiting (hist s) o R -> ~ waiting (hist s) o W -> loc x = None.
Proof.
  intros HI E H1 H2. destruct (loc x) eqn:El; [|done]. destruct (l_busy _ _ _ (inv_l _ HI _ _ E)) as (d & Hb & _); [by rewrite El|].
  pose proof (busy_waiting _ _ _ _ (inv_i _ HI) E Hb). by destruct d.
Qed.
Lemma safe s e : Inv s -> duty s e -> step s e <> Crash.
Proof.
  intros HV HD. pose proof (inv_i _ HV) as HI. destruct e; cbn [step duty] in *.
  - by destruct (objs s !! o).
  - destruct (thread_free s); [|done]. cbn. destruct (objs s !! o) as [x|] eqn:E; [|done]. destruct HD as [H1 H2].
    destruct (not_waiting _ _ _ _ HI E H1) as [B1 _], (not_waiting _ _ _ _ HI E H2) as [B2 _]. cbn in B1, B2. rewrite B1, B2, (waiting_no_loc _ _ _ HV E H1 H2). by destruct (kd x).
  - destruct (thread_free s); [|done]. cbn. destruct (objs s !! o) as [x|] eqn:E; [|done]. destruct HD as [H1 H2]. destruct (not_waiting _ _ _ _ HI E H1) as [B1 _]. cbn in B1. rewrite B1.
    cbn in H2. destruct (kd x) eqn:Ek; try done. destruct b; [done|]. destruct H2; congruence.
  - destruct (thread_free s); [|done]. cbn. destruct (objs s !! o) as [x|] eqn:E; [|done]. destruct (not_waiting _ _ _ _ HI E HD) as [B1 B2]. cbn in B1, B2. rewrite B1, B2. by destruct (kd x).
  - destruct (thread_free s); [|done]. cbn. destruct (objs s !! o) as [x|] eqn:E; [|done]. destruct (not_waiting _ _ _ _ HI E HD) as [B1 B2]. cbn in B1, B2. rewrite B1. by destruct (kd x).
  - destruct (thread_free s); [|done]. cbn. destruct (objs s !! o) as [x|] eqn:E; [|done]. destruct HD as [H1 H2]. destruct (not_waiting _ _ _ _ HI E H2) as [B1 B2]. cbn in B1, B2.
    rewrite B1, (waiting_no_loc _ _ _ HV E H1 H2). rewrite bool_decide_false by (intros Hx; by apply Hx). rewrite andb_false_r. by destruct (kd x).
  - destruct (thread_free s); [|done]. cbn. destruct (objs s !! o) as [x|] eqn:E; [|done]. destruct HD as [H1 H2].
    destruct (not_waiting _ _ _ _ HI E H1) as [B1 _], (not_waiting _ _ _ _ HI E H2) as [B2 _]. cbn in B1, B2. rewrite B1, B2. by destruct (kd x).
  - destruct (thread_free s); [|done]. cbn. destruct (objs s !! o) as [x|] eqn:E; [|done]. destruct (not_waiting _ _ _ _ HI E HD) as [B1 B2]. rewrite B1, B2. by destruct (kd x).
  - destruct (thread_free s); [|done]. cbn. destruct (objs s !! o) as [x|] eqn:E; [|done]. destruct (kd x); try done. by destruct (srv x).
  - destruct (acc s) as [[o k]|] eqn:Ea; [|done]. destruct (i_acc _ HI _ _ Ea) as (x & E & _ & _ & _ & En). rewrite E, En. cbn. destruct sok; cbn; [destruct aok; cbn|]; try done; by destruct (srv x).
  - by destruct (objs s !! o).
  - destruct (thread_free s); [|done]. cbn. destruct (objs s !! o) as [x|] eqn:E; [|done]. by destruct (kd x).
  - by destruct ok.
  - destruct (pend s !! i) as [p|] eqn:Ep; [|done]. rewrite decide_False; [done|]. intros E. destruct (objs s !! p.1.1) as [x|] eqn:Ex; [|done]. cbn in E. injection E as E. by apply (i_udp _ HI _ _ Ex).
  - destruct (thread_free s && pc_idle s); [|done]. cbn. destruct (cq s) as [|[[[o d] k] v|k v] l] eqn:Ec; [done|..].
    + assert (Hf : flight s o d = Some k). { apply (p_el _ _ (i_p _ HI)). rewrite Ec. cbn. apply elem_of_app. right. left. }
      unfold flight in Hf. unfold handle. cbn [objs s_cq]. destruct (objs s !! o) as [x|]; [|done]. destruct (bz (sid x d)) eqn:Eb; [|done]. destruct (f2 (sid x d)) eqn:Ef; [done|].
      destruct d; cbn in Eb, Ef; rewrite Eb, Ef; cbn; repeat case_match; cbn in *; rewrite ?Eb, ?Ef in *; try done; congruence.
    + rewrite decide_True; [done|]. apply (i_heap _ HI). rewrite Ec. cbn. left.
  - destruct (thread_free s && pc_idle s); [|done]. cbn. destruct (objs s !! o) as [x|]; [|done]. by destruct (decide _).
  - destruct (thread_free s); [|done]. cbn. pose proof (i_pc _ HI) as HP. unfold pcok, alive_bz, alive_f2 in HP. destruct (pc s) as [|o r w r2 w2|o r w r2|o r w]; [done|..].
    + destruct (w2 && w) eqn:Ew; [|done]. apply andb_true_iff in Ew as [-> ->]. destruct HP as (_ & HP & _). destruct (HP eq_refl) as (x & E & _). unfold ready_event. by rewrite E.
    + destruct (r2 && r) eqn:Ew; [|done]. apply andb_true_iff in Ew as [-> ->]. destruct HP as (HP & _). destruct (HP eq_refl) as (x & E & _). unfold ready_event. by rewrite E.
    + destruct (r || w) eqn:Ew; [|done]. assert (exists x, objs s !! o = Some x) as (x & E). { destruct HP as [P1 P2]. apply orb_true_iff in Ew as [->| ->]; [destruct (P1 eq_refl) as (x & E & _)|destruct (P2 eq_refl) as (x & E & _)]; eauto. } by rewrite E.
  - destruct (thread_free s && pc_idle s); [|done]. cbn. destruct (objs s !! o) as [x|]; [|done]. destruct (loc x) as [[]|]; try done; (destruct lf; [done|]; by destruct (rto x && bz (sr x))).
Qed.

(** ** order of events: every answer and every timeout notice comes after its request, and while it is open *)
Definition Pf (h : list obs) : Prop := forall h1 e h2, h = h1 ++ e :: h2 ->
  match e with OCb k v => okcb h1 k v /\ unanswered h1 k | OFail k | OTmo k => unanswered h1 k | _ => True end.
Definition late (l : list obs) : Prop := forall l1 e l2, l = l1 ++ e :: l2 -> (exists k v, e = OCb k v) \/ (exists k, e = OFail k) \/ (exists k, e = OTmo k) -> l2 = [].
Lemma late_nil : late [].
Proof. intros [] e l2 E; done. Qed.
Lemma late_cons e l : late l -> (match e with OCb _ _ | OFail _ | OTmo _ => l = [] | _ => True end) -> late (e :: l).
Proof.
  intros H He l1 e' l2 E Hc. destruct l1 as [|a l1]; cbn in E; injection E as -> E; [|by eapply H]. subst. by destruct Hc as [(k & v & ->)|[(k & ->)|(k & ->)]].
Qed.
Lemma tr_late s s' : tr s s' -> exists l, hist s' = hist s ++ l /\ late l.
Proof.
  intros T. destruct T; try (eexists; split; [reflexivity|]; repeat (apply late_cons; [|done]); apply late_nil);
    try (exists []; split; [cbn; by rewrite app_nil_r|apply late_nil]).
  - eexists. split; [reflexivity|]. subst l. apply late_cons; [|done]. destruct (acs x); [apply late_cons; [|done]|]; apply late_nil.
  - eexists. split; [reflexivity|]. apply late_cons; [|done]. apply late_cons; [|done]. apply late_cons; [apply late_nil|]. by destruct H4 as [-> | ->].
  - eexists. split; [reflexivity|]. subst l. destruct (acs x); [|apply late_nil]. apply late_cons; [apply late_nil|]. by destruct g.
Qed.
Lemma tr_tmo s s' l k : I s -> tr s s' -> hist s' = hist s ++ l -> OTmo k ∈ l -> unanswered (hist s) k /\ l = [OTmo k].
Proof.
  intros HI T E H. destruct T; cbn in E; (first [apply app_inv_head in E|rewrite <- (app_nil_r (hist s)) in E at 1; apply app_inv_head in E]); try subst l; try subst;
    try (rewrite ?elem_of_cons, ?elem_of_nil in H; repeat case_match; rewrite ?elem_of_cons, ?elem_of_nil in H; naive_solver).
  apply elem_of_list_singleton in H as [= ->]. split; [|done]. apply (k_open _ _ _ (i_k _ HI)). exists (HS o R). rewrite (val_at s o x R H0). cbn. by rewrite H1.
Qed.
Lemma Pf_tr s s' : Inv s -> Inv s' -> tr s s' -> Pf (hist s) -> Pf (hist s').
Proof.
  intros HI HI' T HP h1 e h2 E. destruct (tr_late _ _ T) as (l & El & Hl).
  assert (Hc : (exists m, hist s = h1 ++ e :: m) \/ (exists l1, h1 = hist s ++ l1 /\ l = l1 ++ e :: h2)).
  { rewrite El in E. apply app_eq_inv in E as [(m & E1 & E2)|(m & E1 & E2)]; [|right; eauto]. destruct m as [|a m]; cbn in E2.
    - right. exists []. rewrite app_nil_r in *. cbn. done.
    - injection E2 as <- E2. left. eauto. }
  destruct Hc as [(m & Em)|(l1 & -> & El1)]; [by apply (HP _ _ _ Em)|].
  assert (Hlast : (exists k v, e = OCb k v) \/ (exists k, e = OFail k) \/ (exists k, e = OTmo k) -> hist s' = (hist s ++ l1) ++ [e]).
  { intros He. rewrite E. by rewrite (Hl _ _ _ El1 He). }
  assert (Hun : forall k, is_ans k e = true -> hist s' = (hist s ++ l1) ++ [e] -> unanswered (hist s ++ l1) k).
  { intros k He Eh. pose proof (k_one _ _ _ (i_k _ (inv_i _ HI')) k) as H1. assert (Ha : answers (hist s') k <> 0%nat) by (rewrite Eh; eapply ans_in; [apply elem_of_app; right; left|done]).
    assert (Hm : made (hist s') k) by by apply (k_ans _ _ _ (i_k _ (inv_i _ HI'))). rewrite Eh in H1, Hm. rewrite answers_app in H1. assert (Ha1 : answers [e] k <> 0%nat) by (eapply ans_in; [left|done]).
    split; [|lia]. apply made_app in Hm as [?|Hm]; [done|]. destruct e; try done; destruct Hm as [(?&?&Hm%elem_of_list_singleton)|(?&Hm%elem_of_list_singleton)]; done. }
  destruct e; try done.
  - assert (Eh : hist s' = (hist s ++ l1) ++ [OCb k v]) by (apply Hlast; eauto). split; [|apply Hun; [cbn; by rewrite bool_decide_true|done]].
    assert (Hx : okcb (hist s') k v) by (apply (v_cb _ (inv_v _ HI')); rewrite Eh; apply elem_of_app; right; left). rewrite Eh in Hx.
    assert (Hd : forall z, z ∈ (hist s ++ l1) ++ [OCb k v] -> z <> OCb k v -> z ∈ hist s ++ l1) by (intros z; rewrite elem_of_app, elem_of_list_singleton; tauto).
    destruct Hx as [(o & c & w & ? & ? & ? & ?)|[(o & c & ? & ? & ? & ?)|[(o & d & ? & ?)|?]]]; [left; exists o, c, w|right;left; exists o, c|right;right;left; exists o, d|right;right;right]; split_and?; try done; by apply Hd.
  - apply Hun; [cbn; by rewrite bool_decide_true|apply Hlast; eauto].
  - assert (Hin : OTmo k ∈ l) by (rewrite El1; apply elem_of_app; right; left). destruct (tr_tmo _ _ _ _ (inv_i _ HI) T El Hin) as [Hu Eq].
    rewrite El1 in Eq. destruct l1 as [|a l1]; [by rewrite app_nil_r|]. exfalso. cbn in Eq. injection Eq as _ Eq. symmetry in Eq. by apply app_cons_not_nil in Eq.
Qed.
Lemma Pf_rtc s s' : rtc tr s s' -> Inv s -> Pf (hist s) -> Pf (hist s').
Proof. induction 1 as [|s t u T _ IH]; [done|]. intros HI HP. pose proof (Inv_tr _ _ HI T) as HI'. apply IH; [exact HI'|]. exact (Pf_tr _ _ HI HI' T HP). Qed.
Lemma Pf_run es s s' os : Inv s -> Pf (hist s) -> keeps s es -> run step s es = Ok s' os -> Pf (hist s').
Proof.
  revert s os. induction es as [|e es IH]; intros s os HI HP HK E; cbn in E; [by injection E as <- _|]. destruct HK as [HD HK].
  destruct (step s e) as [| |t u] eqn:Es; try done. destruct (run step t es) as [| |t' os'] eqn:Er; try done. injection E as -> _.
  eapply IH; [by eapply Inv_step| |done|done]. eapply Pf_rtc; [|done|done]. eapply step_tr; [apply HI|apply HI|done|done].
Qed.
Lemma Pf_reach s : reach s -> Pf (hist s).
Proof. intros (es & os & HK & E). eapply (Pf_run es init); [apply Inv_init| |done|done]. intros [] e h2 Ex; done. Qed.

(** ** progress *)
Definition rdy (m : gmap nat ob) : nat := size (filter (λ p, loc p.2 = Some LReady) m).
Definition pcm (p : pcs) : nat := match p with PIdle => 0 | PE _ _ _ => 1 | PR _ _ _ _ => 2 | PW _ _ _ _ _ => 3 end.
Definition meas (s : sys) : nat := (2 * length (pend s) + length (cq s) + pcm (pc s) + 4 * rdy (objs s))%nat.
Lemma rdy_put m o x x' : m !! o = Some x -> (loc x' = Some LReady -> loc x = Some LReady) -> (rdy (<[o:=x']> m) <= rdy m)%nat.
Proof.
  intros E H. unfold rdy. destruct (decide (loc x' = Some LReady)) as [Hl|Hl].
  - rewrite map_filter_insert_True by done. assert (Hf : filter (λ p, loc p.2 = Some LReady) m !! o = Some x) by (apply map_filter_lookup_Some; split; [done|by apply H]).
    rewrite map_size_insert, Hf. done.
  - rewrite map_filter_insert_False by done. rewrite map_filter_delete. rewrite map_size_delete. case_match; [|done]. etrans; [apply Nat.le_pred_l|]. apply Nat.le_refl.
Qed.
Lemma rdy_del m o x x' : m !! o = Some x -> loc x = Some LReady -> loc x' <> Some LReady -> rdy m = S (rdy (<[o:=x']> m)).
Proof.
  intros E H Hl. unfold rdy. rewrite (map_filter_insert_False _ m o x') by done. rewrite map_filter_delete.
  assert (Hf : filter (λ p, loc p.2 = Some LReady) m !! o = Some x) by (by apply map_filter_lookup_Some). rewrite map_size_delete, Hf.
  assert (size (filter (λ p : nat * ob, loc p.2 = Some LReady) m) <> 0%nat); [|lia]. intros Hz. apply map_size_empty_inv in Hz. rewrite Hz in Hf. by rewrite lookup_empty in Hf.
Qed.
Lemma loc_set x d y : loc (set_sid x d y) = loc x.
Proof. by destruct d. Qed.
Lemma meas_dec s e s' u : internal e = true -> step s e = Ok s' u -> (meas s' < meas s)%nat.
Proof.
  intros Hi E. destruct e; try done; cbn [step] in E; unfold meas.
  - destruct (pend s !! i) as [p|] eqn:Ep; [|done]. destruct (decide _) in E; [done|]. injection E as <- _. cbn. rewrite app_length. cbn.
    pose proof (f_equal length (take_drop_middle _ _ _ Ep)) as Hl. rewrite delete_take_drop. rewrite app_length in *. cbn in Hl. lia.
  - destruct (thread_free s && pc_idle s); [|done]. cbn [negb] in E. destruct (cq s) as [|[[[o d] k] v|k v] l] eqn:Ec; [done|..].
    + unfold handle in E. cbn [objs s_cq] in E. destruct (objs s !! o) as [x|] eqn:Eo; [|done].
      destruct (negb _ || _) in E; [done|]. injection E as <- _. cbn [pend cq pc objs log put s_objs s_cq length].
      match goal with |- context [rdy (<[o:=?y]> _)] => pose proof (rdy_put (objs s) o x y Eo) as Hr end. assert (rdy _ <= _)%nat as Hr' by (apply Hr; rewrite loc_set; repeat case_match; done). clear Hr. lia.
    + destruct (decide _) in E; [|done]. injection E as <- _. cbn. lia.
  - destruct (thread_free s && pc_idle s) eqn:Et; [|done]. apply andb_true_iff in Et as [_ Ep]. unfold pc_idle in Ep. destruct (pc s); try done. cbn [negb] in E. destruct (objs s !! o) as [x|] eqn:Eo; [|done]. destruct (decide _) as [Hl|]; [|done]. injection E as <- _.
    cbn [pend cq pc objs s_pc put s_objs pcm]. rewrite (rdy_del (objs s) o x (set_loc x None)); [lia|done|done|done].
  - destruct (thread_free s); [|done]. cbn [negb] in E. destruct (pc s) as [|o r w r2 w2|o r w r2|o r w]; [done|..].
    + destruct (w2 && w); [|injection E as <- _; cbn; lia]. unfold ready_event in E. destruct (objs s !! o) as [x|] eqn:Eo; [|done]. injection E as <- _. cbn [pend cq pc objs s_pc put s_objs log pcm].
      pose proof (rdy_put (objs s) o x (set_sid x W (Sd false false (rq (sid x W)))) Eo (λ h, h)) as Hr. cbn [set_sid sid] in Hr. lia.
    + destruct (r2 && r); [|injection E as <- _; cbn; lia]. unfold ready_event in E. destruct (objs s !! o) as [x|] eqn:Eo; [|done]. injection E as <- _. cbn [pend cq pc objs s_pc put s_objs log pcm].
      pose proof (rdy_put (objs s) o x (set_sid x R (Sd false false (rq (sid x R)))) Eo (λ h, h)) as Hr. cbn [set_sid sid] in Hr. lia.
    + destruct (r || w); [|injection E as <- _; cbn; lia]. destruct (objs s !! o) as [x|] eqn:Eo; [|done]. injection E as <- _. cbn [pend cq pc objs s_pc put s_objs pcm].
      pose proof (rdy_put (objs s) o x (list_rw x) Eo) as Hr. assert (rdy (<[o:=list_rw x]> (objs s)) <= rdy (objs s))%nat by (apply Hr; unfold list_rw; intros Hx; destruct (loc x) eqn:El; cbn in Hx; congruence). lia.
Qed.
Lemma enabled s : Inv s -> acc s = None -> ~ quiet s -> exists e s', internal e = true /\ step s e = Ok s' tt.
Proof.
  intros HI Ha Hq.
  assert (Hx : exists e, internal e = true /\ step s e <> Disabled).
  { destruct (pend s) as [|p l] eqn:Ep.
    - destruct (pc s) eqn:Epc; [|exists EPart; split; [done|]; cbn; unfold thread_free, ready_event; rewrite Ha, Epc; cbn; repeat case_match; congruence..].
      destruct (cq s) as [|c l] eqn:Ec.
      + destruct (decide (filter (λ p, loc p.2 = Some LReady) (objs s) = ∅)) as [He|He].
        * destruct Hq. split_and!; try done. intros o x Eo Hl. assert (Hf : filter (λ p, loc p.2 = Some LReady) (objs s) !! o = Some x) by by apply map_filter_lookup_Some. rewrite He in Hf. by rewrite lookup_empty in Hf.
        * apply map_choose in He as (o & x & Hf). apply map_filter_lookup_Some in Hf as [Eo Hl]. cbn in Hl. exists (EReady o). split; [done|]. cbn. unfold thread_free, pc_idle. rewrite Ha, Epc, Eo. cbn. by rewrite decide_True.
      + exists ESelect. split; [done|]. cbn. unfold thread_free, pc_idle, handle. rewrite Ha, Epc, Ec. cbn. repeat case_match; congruence.
    - exists (EKernel 0 None). split; [done|]. cbn. rewrite Ep. cbn. repeat case_match; congruence. }
  destruct Hx as (e & He & Hn). pose proof (safe s e HI) as Hs. assert (Hd : duty s e) by by destruct e. specialize (Hs Hd). destruct (step s e) as [| |s' []] eqn:E; try done. eauto.
Qed.
Lemma internal_acc s e s' u : internal e = true -> step s e = Ok s' u -> acc s = None -> acc s' = None.
Proof.
  intros Hi E Ha. destruct e; try done; cbn [step] in E; unfold handle, ready_event in E; repeat case_match; simplify_eq; try done.
Qed.
Lemma internal_duty s e : internal e = true -> duty s e.
Proof. by destruct e. Qed.
Lemma drain s : Inv s -> acc s = None -> exists es s' os, Forall (λ e, internal e = true) es /\ run step s es = Ok s' os /\ quiet s'.
Proof.
  remember (meas s) as n eqn:En. revert s En. induction (lt_wf n) as [n _ IH]. intros s -> HI Ha.
  destruct (decide (pend s = [] /\ cq s = [] /\ pc_idle s = true /\ filter (λ p, loc p.2 = Some LReady) (objs s) = ∅)) as [(H1 & H2 & H3 & H4)|Hn].
  - exists [], s, []. split_and!; [done..|]. split_and!; try done; [unfold pc_idle in H3; by destruct (pc s)|]. intros o x Eo Hl.
    assert (Hf : filter (λ p, loc p.2 = Some LReady) (objs s) !! o = Some x) by by apply map_filter_lookup_Some. rewrite H4 in Hf. by rewrite lookup_empty in Hf.
  - assert (Hq : ~ quiet s).
    { intros (Q1 & Q2 & Q3 & Q4 & Q5). apply Hn. split_and!; try done; [unfold pc_idle; by rewrite Q3|]. apply map_empty. intros o. destruct (_ !! o) as [x|] eqn:E; [|done]. apply map_filter_lookup_Some in E as [E1 E2]. by apply Q5 in E1. }
    destruct (enabled _ HI Ha Hq) as (e & t & Hi & Et). destruct (IH (meas t)) with (s := t) as (es & s' & os & Hes & Er & Hqs); [by eapply meas_dec|done|eapply Inv_step; [done|by apply internal_duty|done]|by eapply internal_acc|].
    exists (e :: es), s', (tt :: os). split_and!; [by constructor| |done]. cbn. by rewrite Et, Er.
Qed.
Lemma meas_run es s s' os : Forall (λ e, internal e = true) es -> run step s es = Ok s' os -> (length es + meas s' <= meas s)%nat.
Proof.
  revert s os. induction es as [|e es IH]; intros s os Hf E; cbn in E; [injection E as <- _; cbn; lia|]. apply Forall_cons in Hf as [He Hf].
  destruct (step s e) as [| |t u] eqn:Es; try done. destruct (run step t es) as [| |t' os'] eqn:Er; try done. injection E as -> _. pose proof (meas_dec _ _ _ _ He Es). pose proof (IH _ _ Hf Er). cbn [length]. lia.
Qed.
