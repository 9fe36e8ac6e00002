(** C66: the Windows backend (I/O completion port). *)
From Verif Require Export IocpProof11.
Local Open Scope Z_scope.

(** who is waiting, whose callback is stored *)
Lemma waiting_busy s o d : Inv s -> waiting (hist s) o d -> exists x, objs s !! o = Some x /\ (bz (sid x d) = true \/ (exists k, acc s = Some (o, k) /\ d = R /\ kd x = KListen)).
Proof.
  intros HI (k & c & Hm & Hc & Ha). pose proof (inv_i _ HI) as Hi. pose proof (inv_v _ HI) as HV.
  assert (exists a, val s a = Some k) as (a & Ea). { apply (k_open _ _ _ (i_k _ Hi)). split; [left; eauto|done]. }
  assert (Hu : forall e, e ∈ hist s -> is_made k e = true -> e = OMade k o c). { intros e He Hk. eapply (two_in _ _ _ _ (v_one _ HV k)); [done|done|done|cbn; by rewrite bool_decide_true]. }
  destruct a as [o' d'|k'|k'].
  - destruct (i_made _ Hi _ _ _ Ea) as (c' & Hc' & Hm'). apply Hu in Hm'; [|cbn; by rewrite bool_decide_true]. injection Hm' as -> ->. rewrite Hc in Hc'. subst d'.
    cbn in Ea. destruct (objs s !! o) as [x|] eqn:Eo; [|done]. exists x. split; [done|]. destruct (bz (sid x d)); [by left|]. right. cbn in Ea. destruct (accp s o d) eqn:Ep; [|done].
    unfold accp in Ep. destruct (acc s) as [[o' j]|] eqn:Eacc; [|done]. destruct d; [|done]. apply bool_decide_eq_true in Ep as ->. destruct (i_acc _ Hi _ _ Eacc) as (y & Ey & Ek & _). exists j. split_and!; [done..|]. congruence.
  - cbn in Ea. destruct (decide _) as [Hn|]; [|done]. injection Ea as ->. unfold nexts in Hn. apply elem_of_list_omap in Hn as (e & He & E). destruct e as [|j v]; [done|]. injection E as ->.
    apply (v_nx _ HV) in He. apply Hu in He; [done|cbn; by rewrite bool_decide_true].
  - cbn in Ea. destruct (decide _) as [Hn|]; [|done]. injection Ea as ->. destruct (v_drop _ HV _ Hn) as (v & He). apply Hu in He; [done|cbn; by rewrite bool_decide_true].
Qed.

(** *** a request is answered at most once, only after it was made; so are notices of a timeout *)
Theorem C66_once s k : reach s -> (answers (hist s) k <= 1)%nat.
Proof. intros H. apply (k_one _ _ _ (i_k _ (inv_i _ (Inv_reach _ H)))). Qed.
Theorem C66_order s h1 e h2 k : reach s -> hist s = h1 ++ e :: h2 -> (exists v, e = OCb k v) \/ e = OFail k \/ e = OTmo k -> unanswered h1 k.
Proof. intros H E He. pose proof (Pf_reach _ H _ _ _ E) as Hp. destruct He as [(v & ->)|[-> | ->]]; [by destruct Hp|done..]. Qed.

(** *** what the callback gets *)
Theorem C66_value s h1 h2 k v o c : reach s -> hist s = h1 ++ OCb k v :: h2 -> OMade k o c ∈ hist s ->
  match c with
  | CNextR | CNextW => v = 0
  | _ => (exists w, OKern k w ∈ h1 /\ ONoStart k ∉ hist s /\ v = match w with Some n => n | None => -1 end) \/ (ONoStart k ∈ h1 /\ (forall w, OKern k w ∉ hist s) /\ v = -1)
  end.
Proof.
  intros H E Hm. pose proof (Inv_reach _ H) as HI. destruct (Pf_reach _ H _ _ _ E) as [Hok _]. pose proof (inv_v _ HI) as HV.
  assert (Hs : h1 ⊆ hist s) by (rewrite E; set_solver).
  assert (Hu : forall e, e ∈ h1 -> is_made k e = true -> e = OMade k o c). { intros e He%Hs Hk. eapply (two_in _ _ _ _ (v_one _ HV k)); [done|done|done|cbn; by rewrite bool_decide_true]. }
  assert (Hb : bool_decide (k = k) = true) by by apply bool_decide_true.
  destruct Hok as [(o' & c' & w & Hm' & Hn & Hk & ->)|[(o' & c' & Hm' & Hn & Hk & ->)|[(o' & d & Hm' & ->)|Hp]]].
  - apply Hu in Hm'; [|done]. injection Hm' as -> ->. assert ((exists w0, OKern k w0 ∈ h1 /\ ONoStart k ∉ hist s /\ got w = match w0 with Some n => n | None => -1 end)) as Hx.
    { exists w. split_and!; [done| |done]. intros Hns. destruct (n_ns _ (inv_n _ HI) _ Hns) as [_ Hz]. apply Hs, kern_in in Hk. done. }
    destruct c; try done; by left.
  - apply Hu in Hm'; [|done]. injection Hm' as -> ->. assert (ONoStart k ∈ h1 /\ (forall w, OKern k w ∉ hist s) /\ -1 = -1) as Hx.
    { split_and!; [done| |done]. intros w Hw. destruct (n_ns _ (inv_n _ HI) k) as [_ Hz]; [by apply Hs|]. apply kern_in in Hw. done. }
    destruct c; try done; by right.
  - apply Hu in Hm'; [|by destruct d]. injection Hm' as -> <-. by destruct d.
  - apply Hu in Hp; done.
Qed.
Theorem C66_next_value s k v w : reach s -> OPost k w ∈ hist s -> OCb k v ∈ hist s -> v = w.
Proof.
  intros H Hp Hc. pose proof (Inv_reach _ H) as HI. pose proof (inv_v _ HI) as HV.
  assert (Hu : forall e, e ∈ hist s -> is_made k e = true -> e = OPost k w). { intros e He Hk. eapply (two_in _ _ _ _ (v_one _ HV k)); [done|done|done|cbn; by rewrite bool_decide_true]. }
  assert (Hb : bool_decide (k = k) = true) by by apply bool_decide_true.
  destruct (v_cb _ HV _ _ Hc) as [(o' & c' & x & Hm' & _)|[(o' & c' & Hm' & _)|[(o' & d & Hm' & _)|Hm']]]; [by apply Hu in Hm'..|]. apply Hu in Hm'; [|done]. congruence.
Qed.
(** the kernel speaks once about an operation *)
Theorem C66_kernel_once s k : reach s -> (kerns (hist s) k <= 1)%nat.
Proof. intros H. apply (n_one _ (inv_n _ (Inv_reach _ H))). Qed.
(** a call returns false only when the kernel refused the operation, or, for accept, when the server was stopped *)
Theorem C66_fail s k : reach s -> OFail k ∈ hist s -> ONoStart k ∈ hist s \/ exists o, OMade k o CAccept ∈ hist s /\ OStop o ∈ hist s.
Proof. intros H. apply (v_fail _ (inv_v _ (Inv_reach _ H))). Qed.

(** *** nothing is forgotten *)
Theorem C66_not_forgotten s k : reach s -> quiet s -> made (hist s) k -> answers (hist s) k = 1%nat \/ ODrop k ∈ hist s.
Proof.
  intros H (Q1 & Q2 & Q3 & Q4 & Q5) Hm. pose proof (Inv_reach _ H) as HI. pose proof (inv_i _ HI) as Hi. pose proof (C66_once s k H) as H1.
  destruct (decide (answers (hist s) k = 0%nat)) as [Ha|Ha]; [|left; lia].
  assert (exists a, val s a = Some k) as ([o d|j|j] & Ea) by by apply (k_open _ _ _ (i_k _ Hi)).
  - exfalso. cbn in Ea. destruct (objs s !! o) as [x|] eqn:Eo; [|done]. unfold accp in Ea. rewrite Q4, orb_false_r in Ea. destruct (bz (sid x d)) eqn:Eb; [|done].
    destruct (f2 (sid x d)) eqn:Ef.
    + destruct (l_f2 _ _ _ (inv_l _ HI _ _ Eo) d Ef) as [El|El]; [by apply Q5 in Eo|]. by rewrite Q3 in El.
    + assert (Hf : flight s o d = Some (rqo x d)) by (unfold flight; by rewrite Eo, Eb, Ef). apply (p_el _ _ (i_p _ Hi)) in Hf. rewrite Q1, Q2 in Hf. by apply elem_of_nil in Hf.
  - exfalso. cbn in Ea. rewrite Q2 in Ea. destruct (decide _) as [Hx|]; [by apply elem_of_nil in Hx|done].
  - right. cbn in Ea. destruct (decide _) as [Hx|]; [|done]. by injection Ea as ->.
Qed.
(** by itself the loop comes to rest: some step of the kernel or of the loop is always possible until it has, and there are only finitely many *)
Theorem C66_drain s : reach s -> acc s = None -> exists es s' os, Forall (λ e, internal e = true) es /\ run step s es = Ok s' os /\ quiet s'.
Proof. intros H. apply drain. by apply Inv_reach. Qed.
Theorem C66_progress s : reach s -> acc s = None -> ~ quiet s -> exists e s', internal e = true /\ step s e = Ok s' tt.
Proof. intros H. apply enabled. by apply Inv_reach. Qed.
Theorem C66_finite s : exists n, forall es s' os, Forall (λ e, internal e = true) es -> run step s es = Ok s' os -> (length es <= n)%nat.
Proof. exists (meas s). intros es s' os Hf E. pose proof (meas_run _ _ _ _ Hf E). lia. Qed.
(** while a request waits, its object is there; a connection is on a timeout list, on the READY list, or was shut down by a timeout (so that the
    kernel completes the operation) *)
Theorem C66_supervised s o d : reach s -> pc s = PIdle -> waiting (hist s) o d ->
  exists x, objs s !! o = Some x /\ (kd x = KConn \/ (exists b, kd x = KUdp b) -> loc x <> None \/ shut x = true).
Proof.
  intros H Hp Hw. pose proof (Inv_reach _ H) as HI. destruct (waiting_busy _ _ _ HI Hw) as (x & Eo & Hb). exists x. split; [done|]. intros Hn.
  assert (Hb' : bz (sid x d) = true). { destruct Hb as [?|(k & _ & _ & Ek)]; [done|]. destruct Hn as [?|(b & ?)]; congruence. }
  destruct (l_sup _ _ _ (inv_l _ HI _ _ Eo) d Hn Hb') as [?|[?|Hf]]; [auto..|]. by rewrite Hp in Hf.
Qed.
(** nothing that waits for nothing stays on a list *)
Theorem C66_unlisted s o x : reach s -> objs s !! o = Some x -> ~ waiting (hist s) o R -> ~ waiting (hist s) o W -> loc x = None.
Proof. intros H. apply waiting_no_loc. by apply Inv_reach. Qed.

(** *** [next]: first in, first out; its memory *)
Theorem C66_next_order s : reach s -> exists l, posts (hist s) = next_cbs (hist s) ++ l /\ (quiet s -> l = []).
Proof. intros H. exists (nexts (cq s)). split; [apply (inv_f _ (Inv_reach _ H))|]. intros (_ & Q2 & _). by rewrite Q2. Qed.
Theorem C66_next_memory s k : reach s -> k ∈ heap s <-> k ∈ posts (hist s) /\ answers (hist s) k = 0%nat.
Proof.
  intros H. pose proof (Inv_reach _ H) as HI. pose proof (inv_i _ HI) as Hi. pose proof (inv_f _ HI) as HF. unfold F in HF. rewrite (i_heap _ Hi). split.
  - intros Hn. split; [rewrite HF; apply elem_of_app; by right|]. assert (unanswered (hist s) k) as [_ ?]; [|done]. apply (k_open _ _ _ (i_k _ Hi)). exists (HN k). cbn. by rewrite decide_True.
  - intros [Hp Ha]. rewrite HF in Hp. apply elem_of_app in Hp as [Hp|?]; [|done]. exfalso. unfold next_cbs in Hp. apply elem_of_list_omap in Hp as (e & He & E).
    destruct e; try done. destruct (decide _) in E; [|done]. injection E as ->. by eapply (ans_in (hist s) k (OCb k v)); [done|cbn; by rewrite bool_decide_true|].
Qed.

(** *** sockets made for accept are given to the user or closed, once *)
Theorem C66_sockets s o n : reach s -> OSock o n ∈ hist s -> gone (hist s) n = 1%nat \/ (gone (hist s) n = 0%nat /\ exists x, objs s !! o = Some x /\ acs x = Some n).
Proof. intros H. apply (sk_own _ (inv_s _ (Inv_reach _ H))). Qed.

(** *** no assertion fails, no freed memory is touched, as long as the user keeps to the rules *)
Theorem C66_safe_partial s e : reach s -> duty s e -> step s e <> Crash.
Proof. intros H. apply safe. by apply Inv_reach. Qed.

(** ** what is false *)
(** a call of [next] whose post fails is never answered, whatever happens afterwards *)
Theorem C66_next_refuted s k : reach s -> ODrop k ∈ hist s -> answers (hist s) k = 0%nat.
Proof.
  intros H Hd. pose proof (inv_i _ (Inv_reach _ H)) as Hi. assert (unanswered (hist s) k) as [_ ?]; [|done]. apply (k_open _ _ _ (i_k _ Hi)). exists (HD k). cbn. by rewrite decide_True.
Qed.

(** ** examples: a checker for the rules *)
Definition waitingb (h : list obs) (o : nat) (d : dir) : bool :=
  existsb (λ e, match e with OMade k o' c => bool_decide (o' = o) && bool_decide (cside c = d) && bool_decide (answers h k = 0%nat) | _ => false end) h.
Lemma waitingb_sound h o d : waitingb h o d = false -> ~ waiting h o d.
Proof.
  intros Hb (k & c & Hm & Hc & Ha). assert (waitingb h o d = true); [|congruence]. unfold waitingb. apply existsb_exists. exists (OMade k o c). split; [by apply elem_of_list_In|].
  by rewrite !bool_decide_true by done.
Qed.
Definition dutyb (s : sys) (e : ev) : bool :=
  let w o d := waitingb (hist s) o d in
  match e with
  | EOpen _ k _ => bool_decide (k <> KUdp false)
  | EClose o | EConnect o _ | EAio o _ _ => negb (w o R) && negb (w o W)
  | ERead o b _ => negb (w o R) && (b || bool_decide (kd <$> objs s !! o = Some KConn))
  | EWrite o _ _ | ESend o _ => negb (w o W)
  | ENextRW o d => negb (w o d)
  | EAccept o => negb (w o R) && forallb (λ e, match e with OSock o' n => bool_decide (o' = o -> gone (hist s) n = 1%nat) | _ => true end) (hist s)
  | _ => true
  end.
Lemma dutyb_sound s e : dutyb s e = true -> duty s e.
Proof.
  intros H. destruct e; cbn in *; try done; rewrite ?andb_true_iff, ?negb_true_iff in H.
  - by apply bool_decide_eq_true in H.
  - destruct H as [? ?]. by split; apply waitingb_sound.
  - destruct H as [? H]. split; [by apply waitingb_sound|]. apply orb_true_iff in H as [?|H%bool_decide_eq_true]; auto.
  - by apply waitingb_sound.
  - by apply waitingb_sound.
  - destruct H as [? ?]. by split; apply waitingb_sound.
  - destruct H as [? ?]. by split; apply waitingb_sound.
  - by apply waitingb_sound.
  - destruct H as [? H]. split; [by apply waitingb_sound|]. intros n Hn. apply elem_of_list_In in Hn. pose proof (proj1 (forallb_forall _ _) H _ Hn) as Hx. cbn in Hx. apply bool_decide_eq_true in Hx. by apply Hx.
Qed.
Fixpoint keepsb (s : sys) (es : list ev) : bool :=
  match es with [] => true | e :: es => dutyb s e && match step s e with Ok s' _ => keepsb s' es | _ => true end end.
Lemma keepsb_sound es : forall s, keepsb s es = true -> keeps s es.
Proof. induction es as [|e es IH]; intros s H; cbn in *; [done|]. apply andb_true_iff in H as [H1 H2]. split; [by apply dutyb_sound|]. destruct (step s e); [done|done|]. by apply IH. Qed.
Definition final (es : list ev) : sys := match run step init es with Ok s _ => s | _ => init end.
Definition runs (es : list ev) : bool := match run step init es with Ok _ _ => keepsb init es | _ => false end.
Lemma final_reach es : runs es = true -> reach (final es).
Proof. unfold runs, final. destruct (run step init es) as [| |s os] eqn:E; try done. intros H. exists es, os. split; [by apply keepsb_sound|done]. Qed.

(** a connection reads and writes; the kernel completes the write first, then the read fails; a read event is asked for; [next] is called twice; a
    server accepts, its first try failing; all is answered, all is closed *)
Definition demo : list ev :=
  [EOpen 0 KConn true; EOpen 1 KListen false; EOpen 2 KFile false;
   ERead 0 true true; EWrite 0 true true; ENext 7 true; EAio 2 R true; EAio 2 W false; EAccept 1; EAcc true false; EAcc true true; ENext 8 true; ENext 9 false;
   EKernel 1 (Some 10); ETimeout 0 false; ETimeout 0 true; ESelect; ESelect; EKernel 0 None; EKernel 0 (Some 4); EKernel 0 (Some 0); ESelect; ESelect;
   ENextRW 0 W; ESelect; EReady 0; EPart; EPart; EPart; ESelect; ETake 1 true; EConnect 0 false; EClose 0; EClose 2; EStop 1; EAccept 1; EClose 1].
Definition demo1 : list ev := filter (λ e, match e with EAio _ W _ => false | _ => true end = true) demo.
Theorem C66_demo : reach (final demo1) /\ quiet (final demo1) /\ objs (final demo1) = ∅ /\ heap (final demo1) = ∅ /\
  hist (final demo1) =
    [OOpen 0 KConn; OOpen 1 KListen; OOpen 2 KFile; OMade 0 0 CRead; OMade 1 0 CWrite; OPost 2 7; OMade 3 2 CAioR; OMade 4 1 CAccept; OSock 1 0;
     OSockClose 0; OSock 1 1; OPost 5 8; OPost 6 9; ODrop 6; OKern 1 (Some 10); OTmo 0; OCb 2 7; OCb 5 8; OKern 0 None; OKern 3 (Some 4);
     OKern 4 (Some 0); OCb 1 10; OCb 0 (-1); OMade 7 0 CNextW; OCb 3 4; OCb 7 0; OCb 4 0; OHand 1; OMade 8 0 CConnect; ONoStart 8; OFail 8; OClose 0; OClose 2;
     OStop 1; OMade 9 1 CAccept; OFail 9; OClose 1].
Proof.
  assert (H : objs (final demo1) = ∅) by (apply map_to_list_empty_iff; by vm_compute). assert (Hh : heap (final demo1) = ∅) by (apply leibniz_equiv, elements_empty_inv; by vm_compute).
  split; [apply final_reach; by vm_compute|]. split; [|split; [done|split; [done|by vm_compute]]].
  split_and!; [by vm_compute..|]. intros o x E. rewrite H in E. by rewrite lookup_empty in E.
Qed.
(** in the middle: two operations of a connection in flight, [next] posted: a state that is not quiet, with requests waiting *)
Theorem C66_demo_busy : reach (final (take 16 demo1)) /\ waiting (hist (final (take 16 demo1))) 0 R /\ waiting (hist (final (take 16 demo1))) 0 W /\
  (exists x, objs (final (take 16 demo1)) !! 0%nat = Some x /\ loc x = Some LRw) /\ acc (final (take 16 demo1)) = None /\ ~ quiet (final (take 16 demo1)).
Proof.
  split; [apply final_reach; by vm_compute|]. split_and!.
  - exists 0%nat, CRead. split_and!; [|done|by vm_compute]. apply elem_of_list_In. vm_compute. tauto.
  - exists 1%nat, CWrite. split_and!; [|done|by vm_compute]. apply elem_of_list_In. vm_compute. tauto.
  - eexists. split; vm_compute; reflexivity.
  - by vm_compute.
  - intros (H & _). by vm_compute in H.
Qed.
(** the post that failed in the example was never answered *)
Theorem C66_next_refuted_demo : ODrop 6 ∈ hist (final demo1) /\ OPost 6 9 ∈ hist (final demo1).
Proof. split; apply elem_of_list_In; vm_compute; tauto. Qed.

(** accept: when the process cannot make another socket, accept does not return: it retries for ever, and meanwhile the selector thread
    handles nothing, although a completed read is waiting to be called back *)
Definition stuck : list ev := [EOpen 0 KConn false; EOpen 1 KListen false; ERead 0 true true; EKernel 0 (Some 5); EAccept 1].
Theorem C66_accept_refuted : reach (final stuck) /\ waiting (hist (final stuck)) 0 R /\ OKern 0 (Some 5) ∈ hist (final stuck) /\
  forall n, run step (final stuck) (replicate n (EAcc false true)) = Ok (final stuck) (replicate n tt) /\
    step (final stuck) ESelect = Disabled /\ (forall o, step (final stuck) (EReady o) = Disabled) /\ (forall o lf, step (final stuck) (ETimeout o lf) = Disabled).
Proof.
  split; [apply final_reach; by vm_compute|]. split; [|split; [|intros n; split; [|split; [by vm_compute|split; intros; by vm_compute]]]].
  - exists 0%nat, CRead. split_and!; [|done|by vm_compute]. apply elem_of_list_In. vm_compute. tauto.
  - apply elem_of_list_In. vm_compute. tauto.
  - assert (H : step (final stuck) (EAcc false true) = Ok (final stuck) tt) by by vm_compute. induction n as [|n IH]; [done|].
    cbn [replicate run]. rewrite H, IH. done.
Qed.
(** UDP: receiving without packet information hands the kernel the address of a dead local variable; it writes there when the datagram comes *)
Theorem C66_udp_refuted : run step init [EOpen 0 (KUdp false) false; ERead 0 true true; EKernel 0 (Some 5)] = Crash.
Proof. by vm_compute. Qed.
