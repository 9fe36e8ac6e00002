(** C79: the loop of the io_uring selector and notices on it.  Model: UlpModel.v *)
From Verif Require Import NoticeModel NoticeProof NoticeProps UlpModel.

(** * Counting polls *)
Definition qpoll (q : sqe) : nat := match q with QPoll => 1 | _ => 0 end.
Definition cpoll (c : cqe) : nat := match c with CPoll _ => 1 | _ => 0 end.
Fixpoint qpolls (l : list sqe) : nat := match l with [] => 0 | q :: l => qpoll q + qpolls l end.
Fixpoint cpolls (l : list cqe) : nat := match l with [] => 0 | c :: l => cpoll c + cpolls l end.
Lemma qpolls_app l k : qpolls (l ++ k) = qpolls l + qpolls k.
Proof. induction l as [|q l IH]; cbn; [done|]. rewrite IH. lia. Qed.
Lemma cpolls_app l k : cpolls (l ++ k) = cpolls l + cpolls k.
Proof. induction l as [|q l IH]; cbn; [done|]. rewrite IH. lia. Qed.
(** the poll of the eventfd: in the submission ring, in the kernel, or completed and not handled *)
Definition polls (s : ul) : nat := qpolls (sq s) + kpoll s + cpolls (cq s).

Section props.
Context (alloc : nat -> gset positive -> positive) (HA : forall k X, alloc k X ∉ X) (size : nat) (Hsize : 0 < size).

(** * Entries taken by the kernel *)
Record taken (fr : option nat) (l : list sqe) (s s' : ul) : Prop := {
  t_nq : nqs s' = nqs s; t_sq : sq s' = sq s; t_lp : lp s' = lp s; t_rnd : rnd s' = rnd s; t_rf : rflag s' = rflag s;
  t_kp : kpoll s' = kpoll s + qpolls l;
  t_cq : exists k, cq s' = cq s ++ replicate k CTmo;
  t_tmo : forall r sec nsec, QTmo r sec nsec ∈ l -> ktmo s' ≠ 0 \/ cq s' ≠ [];
  t_kt : ktmo s <= ktmo s' }.
Lemma take_one_taken fr q s s' : take_one fr q s = Some s' -> taken fr [q] s s'.
Proof.
  assert (HT : exists k, cq s = cq s ++ replicate k CTmo) by (exists 0; cbn; by rewrite app_nil_r).
  destruct q as [|r sec nsec|id]; cbn; intros H.
  - injection H as <-. constructor; cbn; try first [done | lia]. intros ? ? ? Hx. by apply elem_of_list_singleton in Hx.
  - case_decide; [|done]. injection H as <-. destruct (ts_valid sec nsec).
    + constructor; cbn; try first [done | lia].
    + constructor; cbn; try first [done | lia]; [by exists 1|]. intros; right. by destruct (cq s).
  - injection H as <-. constructor; cbn; try first [done | lia]. intros ? ? ? Hx. by apply elem_of_list_singleton in Hx.
Qed.
Lemma take_all_taken fr l : forall s s', take_all fr l s = Some s' -> taken fr l s s'.
Proof.
  induction l as [|q l IH]; intros s s' H; cbn in H.
  - injection H as <-. constructor; cbn; try first [done | lia].
    + exists 0. cbn. by rewrite app_nil_r.
    + intros ? ? ? Hx. by apply elem_of_nil in Hx.
  - destruct (take_one fr q s) as [s1|] eqn:E; [|done]. apply take_one_taken in E as [A1 A2 A3 A4 A5 A6 (k1 & A7) A8 A9].
    apply IH in H as [B1 B2 B3 B4 B5 B6 (k2 & B7) B8 B9]. constructor; try congruence.
    + rewrite B6, A6. cbn. lia.
    + exists (k1 + k2). by rewrite B7, A7, replicate_add, app_assoc.
    + intros r sec nsec Hx. apply elem_of_cons in Hx as [Hx|Hx]; [|by eapply B8].
      destruct (A8 r sec nsec) as [H0|H0]; [rewrite Hx; by apply elem_of_list_singleton| |].
      * left. lia.
      * right. rewrite B7. by destruct (cq s1).
    + lia.
Qed.
Lemma take_all_some fr l : (forall r sec nsec, QTmo r sec nsec ∈ l -> fr = Some r) -> forall s, exists s', take_all fr l s = Some s'.
Proof.
  induction l as [|q l IH]; intros H s; cbn; [by eexists|].
  assert (Hq : exists s1, take_one fr q s = Some s1).
  { destruct q as [|r sec nsec|id]; cbn; [by eexists| |by eexists]. rewrite decide_True; [by eexists|]. eapply H. apply elem_of_cons. by left. }
  destruct Hq as [s1 ->]. apply IH. intros r sec nsec Hx. eapply H. apply elem_of_cons. by right.
Qed.
Lemma replicate_ctmo k : cpolls (replicate k CTmo) = 0.
Proof. induction k; cbn; done. Qed.
Lemma qpolls_split k l : qpolls (take k l) + qpolls (drop k l) = qpolls l.
Proof. rewrite <- qpolls_app, take_drop. done. Qed.

(** what changes when the selector submits and puts in an entry *)
Record pushed (add : list sqe) (s s' : ul) : Prop := {
  p_nq : nqs s' = nqs s; p_lp : lp s' = lp s; p_rnd : rnd s' = rnd s; p_rf : rflag s' = rflag s;
  p_polls : polls s' = polls s + qpolls add;
  p_cq : exists k, cq s' = cq s ++ replicate k CTmo;
  p_kt : ktmo s <= ktmo s';
  p_in : forall q, q ∈ sq s' -> q ∈ sq s \/ q ∈ add }.
Lemma submit_pushed fr k s s' : submit fr k s = Some s' -> pushed [] s s' /\ sq s' = drop k (sq s).
Proof.
  unfold submit. intros H. apply take_all_taken in H as [B1 B2 B3 B4 B5 B6 (n & B7) B8 B9]. cbn in *. split; [|done]. constructor; try done.
  - unfold polls. rewrite B2, B6, B7, cpolls_app, replicate_ctmo. cbn. pose proof (qpolls_split k (sq s)). lia.
  - by exists n.
  - intros q Hq. rewrite B2 in Hq. left. rewrite <- (take_drop k (sq s)). apply elem_of_app. by right.
Qed.
Lemma get_seq_pushed fr d q s s' : get_seq size fr d q s = Got ul s' -> pushed [q] s s' /\ length (sq s') <= size.
Proof.
  unfold get_seq. case_decide as Hl.
  - intros [= <-]. split; [|cbn; rewrite app_length; cbn; lia]. constructor; try done; cbn.
    + unfold polls. cbn. rewrite qpolls_app. cbn. lia.
    + exists 0. cbn. by rewrite app_nil_r.
    + intros x Hx. apply elem_of_app in Hx. tauto.
  - destruct d as [k|]; [|done]. destruct (submit fr k s) as [s1|] eqn:E; [|done]. case_decide as Hl1; [|done]. intros [= <-].
    apply submit_pushed in E as [[A1 A2 A3 A4 A5 (n & A6) A7 A8] A9]. split; [|cbn; rewrite app_length; cbn; lia].
    constructor; try done; cbn.
    + unfold polls in *. cbn in *. rewrite qpolls_app. cbn. lia.
    + by exists n.
    + intros x Hx. apply elem_of_app in Hx as [Hx|Hx]; [|by right]. destruct (A8 x Hx) as [?|Hy]; [by left|by apply elem_of_nil in Hy].
Qed.

(** * The invariant of every run *)
Definition todo (p : lpc) : nat := match p with LOut | LWait => 0 | LHandle n | LOther n | LNotice n => n end.
Definition in_notice (p : lpc) : bool := match p with LNotice _ => true | _ => false end.
Record GI (s : ul) : Prop := {
  g_nq : reachable (nstep alloc) nq_init (nqs s);
  g_polls : polls s = if rflag s then 1 else 0;
  g_ready : forall res, CPoll res ∈ cq s -> (res < 0)%Z \/ 0 < ev (nqs s);
  g_pc : if in_notice (lp s) then pc (nqs s) ≠ SIdle /\ rflag s = false else pc (nqs s) = SIdle;
  g_todo : todo (lp s) <= length (cq s);
  g_len : length (sq s) <= size }.
Lemma GI_init : GI ul_init.
Proof. constructor; cbn; try done; [apply reach_init|intros res Hx; by apply elem_of_nil in Hx]. Qed.
Lemma replicate_ready k res c : CPoll res ∈ c ++ replicate k CTmo -> CPoll res ∈ c.
Proof. intros H. apply elem_of_app in H as [H|H]; [done|]. by apply elem_of_replicate in H as [? _]. Qed.
(** adding to the rings *)
Lemma GI_pushed add s s' : GI s -> pushed add s s' -> qpolls add = 0 -> length (sq s') <= size -> GI s'.
Proof.
  intros [G1 G2 G3 G4 G5 G6] [A1 A2 A3 A4 A5 (n & A6) A7 A8] H0 Hl. constructor; try congruence.
  - rewrite A5, A4, H0. lia.
  - rewrite A1, A6. intros res Hx. apply replicate_ready in Hx. by apply G3.
  - by rewrite A1, A2, A4.
  - rewrite A2, A6, app_length. lia.
Qed.
(** moves of the loop *)
Lemma GI_lp p s : GI s -> in_notice p = in_notice (lp s) -> todo p <= length (cq s) -> GI (set_lp p s).
Proof. intros [G1 G2 G3 G4 G5 G6] H0 H1. constructor; cbn; try done. by rewrite H0. Qed.
(** a step of the notice queue by a poster or in the callback loop *)
Lemma ev_keeps q e q' o : nstep alloc q e = Ok q' o -> by_poster e = true \/ by_drain e = true -> ev q <= ev q'.
Proof.
  intros H He. destruct e as [t i|t| | | |]; cbn in He, H; try (by destruct He).
  - case_decide; [done|]. injection H as <- _. done.
  - case_decide; [|done]. injection H as <- _. cbn. lia.
  - destruct (pc q) as [|[|v]|]; try done. destruct (head q) as [a|]; [|done]. destruct (heap q !! a); [|done]. injection H as <- _. done.
  - destruct (pc q) as [| |a v]; try done. destruct (heap q !! a); [|done]. injection H as <- _. done.
Qed.
Lemma pc_idle q e q' o : nstep alloc q e = Ok q' o -> by_poster e = true -> pc q' = pc q.
Proof.
  intros H He. destruct e as [t i|t| | | |]; cbn in He, H; try done.
  - case_decide; [done|]. by injection H as <- _.
  - case_decide; [|done]. by injection H as <- _.
Qed.
Lemma pc_busy q e q' o : nstep alloc q e = Ok q' o -> by_drain e = true -> pc q' ≠ SIdle.
Proof.
  intros H He. destruct e as [t i|t| | | |]; cbn in He, H; try done.
  - destruct (pc q) as [|[|v]|]; try done. destruct (head q) as [a|]; [|done]. destruct (heap q !! a); [|done]. by injection H as <- _.
  - destruct (pc q) as [| |a v]; try done. destruct (heap q !! a); [|done]. by injection H as <- _.
Qed.
Lemma GI_step s e s' o : GI s -> ustep alloc size s e = Ok s' o -> GI s'.
Proof.
  intros G H. pose proof G as [G1 G2 G3 G4 G5 G6]. destruct e as [n|id d|tmo d1 d2|intr| | |n|d|res| |id]; cbn [ustep] in H.
  - destruct (by_poster n) eqn:Hb; [|done]. destruct (nstep alloc (nqs s) n) as [| |q o1] eqn:E; try done. injection H as <- _.
    constructor; cbn; try done.
    + by eapply reach_step.
    + intros res Hx. destruct (G3 res Hx) as [?|?]; [by left|]. right. pose proof (ev_keeps _ _ _ _ E (or_introl Hb)). lia.
    + rewrite (pc_idle _ _ _ _ E Hb). done.
  - destruct (in_user_code s); [|done]. destruct (get_seq size None d (QOther id) s) as [| |s1] eqn:E; try done; injection H as <- _; [done|].
    apply get_seq_pushed in E as [E El]. by eapply GI_pushed.
  - destruct (lp s) eqn:El; try done. set (s0 := mkul _ _ _ _ _ _ _ _ _) in H.
    assert (G0 : GI s0).
    { subst s0. constructor; cbn; done. }
    destruct (get_seq size (Some (S (rnd s))) d1 _ s0) as [| |s1] eqn:E; try done.
    apply get_seq_pushed in E as [E Ll]. pose proof (GI_pushed _ _ _ G0 E eq_refl Ll) as GG1.
    destruct d2 as [k|].
    + destruct (submit (Some (S (rnd s))) k s1) as [s2|] eqn:E2; [|done]. apply submit_pushed in E2 as [E2 Es].
      assert (L2 : length (sq s2) <= size) by (rewrite Es, drop_length; lia). pose proof (GI_pushed _ _ _ GG1 E2 eq_refl L2) as GG2.
      assert (Elp : lp s2 = LOut) by (rewrite (p_lp _ _ _ E2), (p_lp _ _ _ E); done).
      case_decide; injection H as <- _; (apply GI_lp; [done|by rewrite Elp|cbn; lia]).
    + injection H as <- _. apply GI_lp; [done|by rewrite (p_lp _ _ _ E)|cbn; lia].
  - destruct (lp s) eqn:El; try done. case_decide; [done|]. injection H as <- _. apply GI_lp; [done|by rewrite El|cbn; lia].
  - destruct (lp s) as [| |[|n]|n|n] eqn:El; try done.
    + injection H as <- _. apply GI_lp; [done|by rewrite El|cbn; lia].
    + destruct (cq s) as [|[res| |id] c] eqn:Ec; [done| | |].
      * assert (Hp : rflag s = true /\ qpolls (sq s) = 0 /\ kpoll s = 0 /\ cpolls c = 0).
        { unfold polls in G2. rewrite Ec in G2. cbn in G2. destruct (rflag s); [|lia]. split; [done|lia]. }
        destruct Hp as (Hr & P1 & P2 & P3). rewrite Hr in H. cbn in G4.
        case_decide as Hres.
        -- injection H as <- _. constructor; cbn; try done.
           ++ unfold polls. cbn. lia.
           ++ intros r Hx. apply G3. apply elem_of_cons. by right.
           ++ cbn in G5. lia.
        -- destruct (nstep alloc (nqs (set_rflag false (set_cq c s))) NRead) as [| |q o1] eqn:E; try done. injection H as <- _.
           change (nqs (set_rflag false (set_cq c s))) with (nqs s) in E. constructor; cbn.
           ++ by eapply reach_step.
           ++ unfold polls. cbn. lia.
           ++ intros r Hx. exfalso. clear - P3 Hx. induction c as [|x c IH]; [by apply elem_of_nil in Hx|].
              apply elem_of_cons in Hx as [<-|Hx]; cbn in P3; [lia|]. apply IH; [lia|done].
           ++ split; [|done]. cbn in E. rewrite G4 in E. destruct (ev (nqs s)); [done|]. by injection E as <- _.
           ++ cbn in G5. lia.
           ++ done.
      * injection H as <- _. constructor; cbn; try done.
        -- unfold polls in *. rewrite Ec in G2. cbn in *. lia.
        -- intros r Hx. apply G3. apply elem_of_cons. by right.
        -- cbn in G5. lia.
      * injection H as <- _. constructor; cbn; try done.
        -- unfold polls in *. rewrite Ec in G2. cbn in *. lia.
        -- intros r Hx. apply G3. apply elem_of_cons. by right.
        -- cbn in G5. lia.
  - destruct (lp s) as [| |n|n|n] eqn:El; try done. injection H as <- _. apply GI_lp; [done|by rewrite El|done].
  - destruct (lp s) as [| |m|m|m] eqn:El; try done. destruct (by_drain n) eqn:Hb; [|done].
    destruct (nstep alloc (nqs s) n) as [| |q o1] eqn:E; try done. injection H as <- _. cbn in G4. destruct G4 as [G4 Gr].
    constructor; cbn; try done.
    + by eapply reach_step.
    + intros res Hx. destruct (G3 res Hx) as [?|?]; [by left|]. right. pose proof (ev_keeps _ _ _ _ E (or_intror Hb)). lia.
    + rewrite El. cbn. split; [by eapply pc_busy|done].
    + by rewrite El.
  - destruct (lp s) as [| |m|m|m] eqn:El; try done. destruct (nstep alloc (nqs s) NLoopEnd) as [| |q o1] eqn:E; try done.
    cbn in G4. destruct G4 as [G4 Gr]. rewrite Gr in G2.
    assert (Hq : pc q = SIdle /\ ev q = ev (nqs s)).
    { cbn in E. destruct (pc (nqs s)) as [|[|v]|]; try done. by injection E as <- _. }
    destruct Hq as [Hq1 Hq2].
    assert (GG : GI (set_lp (LHandle m) (set_nq q s))).
    { constructor; cbn; try done; [by eapply reach_step|by rewrite Gr|by rewrite Hq2]. }
    destruct (get_seq size None d QPoll (set_lp (LHandle m) (set_nq q s))) as [| |s1] eqn:E1; try done; injection H as <- _; [done|].
    apply get_seq_pushed in E1 as [[A1 A2 A3 A4 A5 (n & A6) A7 A8] Ll]. destruct GG as [H1 H2 H3 H4 H5 H6]. constructor; cbn.
    + by rewrite A1.
    + unfold polls in *. cbn in *. rewrite Gr in H2. lia.
    + rewrite A1, A6. intros res Hx. apply replicate_ready in Hx. by apply H3.
    + rewrite A2. cbn. by rewrite A1.
    + rewrite A2, A6, app_length. cbn in *. lia.
    + done.
  - destruct (kpoll s) as [|n] eqn:Ek; [done|]. case_decide as Hd; [|done]. injection H as <- _. constructor; cbn; try done.
    + unfold polls in *. cbn. rewrite cpolls_app. cbn. lia.
    + intros r Hx. apply elem_of_app in Hx as [Hx|Hx]; [by apply G3|]. apply elem_of_list_singleton in Hx as [= ->]. tauto.
    + rewrite app_length. lia.
  - destruct (ktmo s) as [|n] eqn:Ek; [done|]. injection H as <- _. constructor; cbn; try done.
    + unfold polls in *. cbn. rewrite cpolls_app. cbn. lia.
    + intros r Hx. apply elem_of_app in Hx as [Hx|Hx]; [by apply G3|]. by apply elem_of_list_singleton in Hx.
    + rewrite app_length. lia.
  - case_decide; [|done]. injection H as <- _. constructor; cbn; try done.
    + unfold polls in *. cbn. rewrite cpolls_app. cbn. lia.
    + intros r Hx. apply elem_of_app in Hx as [Hx|Hx]; [by apply G3|]. by apply elem_of_list_singleton in Hx.
    + rewrite app_length. lia.
Qed.

(** C79, every run.  What has run together with what is pending is exactly what was posted: nothing runs twice, nothing unposted runs. *)
Lemma GI_run s : reachable (ustep alloc size) ul_init s -> GI s.
Proof. intros H. eapply reach_inv; [apply GI_init| |exact H]. intros s0 e s1 o. apply GI_step. Qed.
Theorem C79_exactly_once s : reachable (ustep alloc size) ul_init s ->
  exists pending, posted (nqs s) ≡ₚ ran (nqs s) ++ pending /\ (NoDup (posted (nqs s)) -> NoDup (ran (nqs s))).
Proof. intros H. apply GI_run in H as [H _ _ _ _ _]. by eapply C30_exactly_once. Qed.
(** and when the selector handles a successful completion of the poll of the eventfd, reading it does not block and the assertion on
    the flags of the selectable holds, whatever the kernel did before *)
Theorem C79_never_blocks s n res c : reachable (ustep alloc size) ul_init s -> lp s = LHandle (S n) -> cq s = CPoll res :: c ->
  (0 <= res)%Z -> 0 < ev (nqs s) /\ exists s', ustep alloc size s UHandle = Ok s' tt /\ lp s' = LNotice n.
Proof.
  intros H El Ec Hres. apply GI_run in H as [G1 G2 G3 G4 G5 G6].
  assert (He : 0 < ev (nqs s)). { destruct (G3 res) as [?|?]; [rewrite Ec; apply elem_of_cons; by left|lia|done]. }
  split; [done|]. cbn. rewrite El, Ec. unfold polls in G2. rewrite Ec in G2. cbn in G2. destruct (rflag s); [|lia].
  rewrite decide_False by lia. rewrite El in G4. cbn in G4. rewrite G4. destruct (ev (nqs s)); [lia|]. by eexists.
Qed.
(** a notice callback is never entered while another completion handler of the selector is on the stack *)
Theorem C79_notices_in_loop s : reachable (ustep alloc size) ul_init s -> pc (nqs s) ≠ SIdle -> exists n, lp s = LNotice n.
Proof.
  intros H Hp. apply GI_run in H as [G1 G2 G3 G4 G5 G6]. destruct (lp s) eqn:El; cbn in G4; try done. by eexists.
Qed.

(** * When the kernel takes every entry it is given and does not fail the poll *)
Definition all_taken (d : option nat) : Prop := exists k, d = Some k /\ size <= k.
Definition kernel_ok (e : uev) : Prop :=
  match e with
  | UAdd _ d | URearm d => all_taken d
  | USelect _ d1 d2 => all_taken d1 /\ all_taken d2
  | KPoll res => (0 < res)%Z
  | _ => True
  end.
Definition kreach (s : ul) : Prop := exists es os, run (ustep alloc size) ul_init es = Ok s os /\ Forall kernel_ok es.
Definition notmo (l : list sqe) : Prop := forall r sec nsec, QTmo r sec nsec ∉ l.
Record KI (s : ul) : Prop := {
  k_gi : GI s;
  k_rf : in_notice (lp s) = false -> rflag s = true;
  k_tmo : notmo (sq s);
  k_res : forall res, CPoll res ∈ cq s -> (0 < res)%Z;
  k_wait : lp s = LWait -> sq s = [] /\ (ktmo s ≠ 0 \/ cq s ≠ []) }.
Lemma KI_init : KI ul_init.
Proof.
  constructor; [apply GI_init| | | |]; cbn; try done.
  - intros r sec nsec Hx. by apply elem_of_list_singleton in Hx.
  - intros res Hx. by apply elem_of_nil in Hx.
Qed.
Lemma get_seq_all fr d q s : (forall r sec nsec, QTmo r sec nsec ∈ sq s -> fr = Some r) -> all_taken d -> length (sq s) <= size ->
  exists s', get_seq size fr d q s = Got ul s' /\ q ∈ sq s'.
Proof.
  intros Hf (k & -> & Hk) Hl. unfold get_seq. case_decide as Hd.
  - eexists. split; [done|]. cbn. apply elem_of_app. right. by apply elem_of_list_singleton.
  - unfold submit. destruct (take_all_some fr (take k (sq s))) with (s := set_sq (drop k (sq s)) s) as [s1 E1].
    { intros r sec nsec Hx. eapply Hf. rewrite <- (take_drop k (sq s)). apply elem_of_app. left. exact Hx. }
    rewrite E1. apply take_all_taken in E1. pose proof (t_sq _ _ _ _ E1) as Es. cbn in Es. rewrite drop_ge in Es by lia.
    rewrite Es. cbn. rewrite decide_True by lia. eexists. split; [done|]. cbn. by apply elem_of_list_singleton.
Qed.
Lemma notmo_none l : notmo l -> forall r sec nsec, QTmo r sec nsec ∈ l -> @None nat = Some r.
Proof. intros H r sec nsec Hx. by apply H in Hx. Qed.
Lemma notmo_pushed add s s' : notmo (sq s) -> notmo add -> pushed add s s' -> notmo (sq s').
Proof. intros H1 H2 P r sec nsec Hx. destruct (p_in _ _ _ P _ Hx) as [Hy|Hy]; [by eapply H1|by eapply H2]. Qed.
Lemma res_pushed add s s' : (forall res, CPoll res ∈ cq s -> (0 < res)%Z) -> pushed add s s' -> forall res, CPoll res ∈ cq s' -> (0 < res)%Z.
Proof. intros H [A1 A2 A3 A4 A5 (n & A6) A7 A8] res Hx. rewrite A6 in Hx. apply replicate_ready in Hx. by apply H. Qed.
Lemma notmo_other id : notmo [QOther id].
Proof. intros r sec nsec Hx. by apply elem_of_list_singleton in Hx. Qed.
Lemma notmo_poll : notmo [QPoll].
Proof. intros r sec nsec Hx. by apply elem_of_list_singleton in Hx. Qed.
(** the call of select up to the wait *)
Lemma select_ok tmo d1 d2 s : KI s -> lp s = LOut -> all_taken d1 -> all_taken d2 ->
  exists s', ustep alloc size s (USelect tmo d1 d2) = Ok s' tt /\ lp s' = LWait /\ sq s' = [] /\ (ktmo s' ≠ 0 \/ cq s' ≠ []) /\
    nqs s' = nqs s /\ rflag s' = rflag s /\ (forall res, CPoll res ∈ cq s' -> (0 < res)%Z).
Proof.
  intros [G K1 K2 K3 K4] El H1 H2. cbn [ustep]. rewrite El. set (s0 := mkul _ _ _ _ _ _ _ _ _).
  destruct (get_seq_all (Some (S (rnd s))) d1 (QTmo (S (rnd s)) (ts tmo).1 (ts tmo).2) s0) as (s1 & E1 & Hin); [|done|by apply (g_len _ G)|].
  { intros r sec nsec Hx. by apply K2 in Hx. }
  rewrite E1. apply get_seq_pushed in E1 as [P1 L1]. destruct H2 as (k & -> & Hk).
  assert (Hall : forall r sec nsec, QTmo r sec nsec ∈ sq s1 -> Some (S (rnd s)) = Some r).
  { intros r sec nsec Hx. destruct (p_in _ _ _ P1 _ Hx) as [Hy|Hy]; [by apply K2 in Hy|]. by apply elem_of_list_singleton in Hy as [= -> _ _]. }
  unfold submit. rewrite (take_ge (sq s1)) by lia.
  destruct (take_all_some (Some (S (rnd s))) (sq s1) Hall (set_sq (drop k (sq s1)) s1)) as [s2 E2]. rewrite E2.
  apply take_all_taken in E2 as [B1 B2 B3 B4 B5 B6 (n & B7) B8 B9]. cbn in B1, B2, B5, B7. rewrite drop_ge in B2 by lia.
  rewrite decide_True by done. eexists. split; [done|]. cbn. split_and!; try done.
  - by eapply B8.
  - by rewrite B1, (p_nq _ _ _ P1).
  - by rewrite B5, (p_rf _ _ _ P1).
  - rewrite B7. intros res Hx. apply replicate_ready in Hx. exact (res_pushed _ s0 s1 K3 P1 res Hx).
Qed.
Lemma KI_step s e s' o : KI s -> kernel_ok e -> ustep alloc size s e = Ok s' o -> KI s'.
Proof.
  intros K He H. pose proof K as [G K1 K2 K3 K4]. pose proof (GI_step _ _ _ _ G H) as G'.
  destruct e as [n|id d|tmo d1 d2|intr| | |n|d|res| |id]; cbn [kernel_ok] in He; cbn [ustep] in H.
  - destruct (by_poster n) eqn:Hb; [|done]. destruct (nstep alloc (nqs s) n) as [| |q o1] eqn:E; try done. injection H as <- _.
    constructor; cbn; try done.
  - destruct (in_user_code s) eqn:Hu; [|done].
    destruct (get_seq_all None d (QOther id) s) as (s1 & E & _); [by apply notmo_none|done|by apply (g_len _ G)|].
    rewrite E in H. injection H as <- _. apply get_seq_pushed in E as [P Pl]. constructor; [done| | | |].
    + by rewrite (p_lp _ _ _ P), (p_rf _ _ _ P).
    + eapply notmo_pushed; [done| |done]. apply notmo_other.
    + by eapply res_pushed.
    + rewrite (p_lp _ _ _ P). intros Hw. unfold in_user_code in Hu. by rewrite Hw in Hu.
  - destruct (lp s) eqn:El; try done. destruct He as [H1 H2].
    destruct (select_ok tmo d1 d2 s K El H1 H2) as (s1 & E & Q1 & Q2 & Q3 & Q4 & Q5 & Q6). cbn [ustep] in E. rewrite El in E. rewrite E in H.
    injection H as <- _. constructor; [done| | | |]; try done.
    + rewrite Q5. intros _. by apply K1.
    + rewrite Q2. intros r sec nsec Hx. by apply elem_of_nil in Hx.
  - destruct (lp s) eqn:El; try done. case_decide; [done|]. injection H as <- _. constructor; cbn; try done.
  - destruct (lp s) as [| |[|n]|n|n] eqn:El; try done.
    + injection H as <- _. constructor; cbn; try done.
    + destruct (cq s) as [|[res| |id] c] eqn:Ec; [done| | |].
      * assert (Hr : rflag s = true) by (by apply K1). rewrite Hr in H.
        assert (Hp : (0 < res)%Z). { apply K3. apply elem_of_cons. by left. }
        rewrite decide_False in H by lia. destruct (nstep alloc (nqs (set_rflag false (set_cq c s))) NRead) as [| |q o1] eqn:E; try done.
        injection H as <- _. constructor; cbn; try done. intros r Hx. apply K3. apply elem_of_cons. by right.
      * injection H as <- _. constructor; cbn; try done. intros r Hx. apply K3. apply elem_of_cons. by right.
      * injection H as <- _. constructor; cbn; try done. intros r Hx. apply K3. apply elem_of_cons. by right.
  - destruct (lp s) as [| |n|n|n] eqn:El; try done. injection H as <- _. constructor; cbn; try done.
  - destruct (lp s) as [| |m|m|m] eqn:El; try done. destruct (by_drain n) eqn:Hb; [|done].
    destruct (nstep alloc (nqs s) n) as [| |q o1] eqn:E; try done. injection H as <- _. constructor; cbn; try done; by rewrite El.
  - destruct (lp s) as [| |m|m|m] eqn:El; try done. destruct (nstep alloc (nqs s) NLoopEnd) as [| |q o1] eqn:E; try done.
    destruct (get_seq_all None d QPoll (set_lp (LHandle m) (set_nq q s))) as (s1 & E1 & _); [by apply notmo_none|done|by apply (g_len _ G)|].
    rewrite E1 in H. injection H as <- _. apply get_seq_pushed in E1 as [P Pl]. constructor; [done| | | |]; cbn; try done.
    + eapply notmo_pushed; [| |done]; [done|apply notmo_poll].
    + by eapply res_pushed; [|done].
    + rewrite (p_lp _ _ _ P). done.
  - destruct (kpoll s) as [|n] eqn:Ek; [done|]. case_decide as Hd; [|done]. injection H as <- _. constructor; cbn; try done.
    + intros r Hx. apply elem_of_app in Hx as [Hx|Hx]; [by apply K3|]. by apply elem_of_list_singleton in Hx as [= ->].
    + intros Hw. destruct (K4 Hw) as [? _]. split; [done|]. right. by destruct (cq s).
  - destruct (ktmo s) as [|n] eqn:Ek; [done|]. injection H as <- _. constructor; cbn; try done.
    + intros r Hx. apply elem_of_app in Hx as [Hx|Hx]; [by apply K3|]. by apply elem_of_list_singleton in Hx.
    + intros Hw. destruct (K4 Hw) as [? _]. split; [done|]. right. by destruct (cq s).
  - case_decide; [|done]. injection H as <- _. constructor; cbn; try done.
    + intros r Hx. apply elem_of_app in Hx as [Hx|Hx]; [by apply K3|]. by apply elem_of_list_singleton in Hx.
    + intros Hw. destruct (K4 Hw) as [? _]. split; [done|]. right. by destruct (cq s).
Qed.
Lemma KI_runs es : forall s s' os, KI s -> Forall kernel_ok es -> run (ustep alloc size) s es = Ok s' os -> KI s'.
Proof.
  induction es as [|e es IH]; intros s s' os K HF H; cbn in H; [by injection H as <- _|].
  apply Forall_cons in HF as [He HF]. destruct (ustep alloc size s e) as [| |s1 o] eqn:E; try done.
  destruct (run (ustep alloc size) s1 es) as [| |s2 os2] eqn:E2; try done. injection H as <- _.
  eapply IH; [|done|done]. by eapply KI_step.
Qed.
Lemma KI_run s : kreach s -> KI s.
Proof. intros (es & os & H & HF). eapply KI_runs; [apply KI_init|done|done]. Qed.
Lemma KI_safe s e : KI s -> kernel_ok e -> ustep alloc size s e ≠ Crash.
Proof.
  intros K He H. pose proof K as [G K1 K2 K3 K4]. pose proof G as [G1 G2 G3 G4 G5 G6].
  destruct (NI_run alloc HA _ G1) as [l Hl].
  destruct e as [n|id d|tmo d1 d2|intr| | |n|d|res| |id]; cbn [kernel_ok] in He; cbn [ustep] in H.
  - destruct (by_poster n) eqn:Hb; [|done]. destruct (nstep alloc (nqs s) n) as [| |q o1] eqn:E; try done. by eapply NI_safe.
  - destruct (in_user_code s) eqn:Hu; [|done].
    destruct (get_seq_all None d (QOther id) s) as (s1 & E & _); [by apply notmo_none|done|done|]. by rewrite E in H.
  - destruct (lp s) eqn:El; try done. destruct He as [H1 H2].
    destruct (select_ok tmo d1 d2 s K El H1 H2) as (s1 & E & _). cbn [ustep] in E. rewrite El in E. by rewrite E in H.
  - destruct (lp s) eqn:El; try done. by case_decide.
  - destruct (lp s) as [| |[|n]|n|n] eqn:El; try done. destruct (cq s) as [|[res| |id] c] eqn:Ec; try done.
    assert (Hr : rflag s = true) by (by apply K1). rewrite Hr in H. case_decide as Hd; [done|].
    destruct (G3 res) as [?|He2]; [apply elem_of_cons; by left|done|]. cbn in H. cbn in G4. rewrite G4 in H. by destruct (ev (nqs s)); [lia|].
  - by destruct (lp s).
  - destruct (lp s) as [| |m|m|m] eqn:El; try done. destruct (by_drain n) eqn:Hb; [|done].
    destruct (nstep alloc (nqs s) n) as [| |q o1] eqn:E; try done. by eapply NI_safe.
  - destruct (lp s) as [| |m|m|m] eqn:El; try done. destruct (nstep alloc (nqs s) NLoopEnd) as [| |q o1] eqn:E; try done; [by eapply NI_safe|].
    destruct (get_seq_all None d QPoll (set_lp (LHandle m) (set_nq q s))) as (s1 & E1 & _); [by apply notmo_none|done|done|]. by rewrite E1 in H.
  - destruct (kpoll s) as [|n]; [done|]. by case_decide.
  - by destruct (ktmo s).
  - by case_decide.
Qed.
(** no run crashes: the loop never dereferences a missing submission entry, the kernel never reads a timespec of a returned call, the
    notice callback never finds the list empty *)
Theorem C79_safe_partial es : Forall kernel_ok es -> run (ustep alloc size) ul_init es ≠ Crash.
Proof.
  assert (HG : forall es s, KI s -> Forall kernel_ok es -> run (ustep alloc size) s es ≠ Crash).
  { clear es. induction es as [|e es IH]; intros s K HF; cbn; [done|]. apply Forall_cons in HF as [He HF].
    destruct (ustep alloc size s e) as [| |s1 o] eqn:E; [done|by apply KI_safe in E|].
    specialize (IH s1 (KI_step _ _ _ _ K He E) HF). by destruct (run (ustep alloc size) s1 es). }
  apply HG. apply KI_init.
Qed.
(** outside the notice callback exactly one poll of the eventfd is on its way *)
Theorem C79_armed_partial s : kreach s -> polls s = if in_notice (lp s) then 0 else 1.
Proof.
  intros H. apply KI_run in H as [[G1 G2 G3 G4 G5 G6] K1 K2 K3 K4]. rewrite G2. destruct (in_notice (lp s)); [|by rewrite K1].
  destruct G4 as [_ ->]. done.
Qed.
(** a wait of the selector ends: everything is submitted, a timeout is pending unless something has completed; and with a notice
    posted, the poll that reports it is pending or has completed *)
Theorem C79_wait_partial s : kreach s -> lp s = LWait ->
  sq s = [] /\ (cq s = [] -> exists s1, ustep alloc size s KTmo = Ok s1 tt /\ cq s1 = [CTmo]) /\
  (0 < ev (nqs s) -> (exists res, CPoll res ∈ cq s) \/ exists s1, ustep alloc size s (KPoll 1) = Ok s1 tt /\ CPoll 1 ∈ cq s1).
Proof.
  intros H El. pose proof (C79_armed_partial s H) as HP. apply KI_run in H as [G K1 K2 K3 K4]. destruct (K4 El) as [E1 E2]. split_and!; [done| |].
  - intros Ec. destruct E2 as [E2|]; [|done]. cbn. destruct (ktmo s); [done|]. eexists. split; [done|]. cbn. by rewrite Ec.
  - intros Hev. rewrite El in HP. unfold polls in HP. rewrite E1 in HP. cbn in HP. destruct (kpoll s) as [|k] eqn:Ek.
    + left. clear - HP. induction (cq s) as [|x c IH]; cbn in HP; [lia|]. destruct x as [res| |].
      * exists res. apply elem_of_cons. by left.
      * cbn in HP. destruct (IH HP) as [res Hx]. exists res. apply elem_of_cons. by right.
      * cbn in HP. destruct (IH HP) as [res Hx]. exists res. apply elem_of_cons. by right.
    + right. cbn. rewrite Ek. rewrite decide_True by lia. eexists. split; [done|]. cbn. apply elem_of_app. right. by apply elem_of_list_singleton.
Qed.

(** * Everything posted runs *)
(** steps of the selector thread and of the kernel only, starting nothing new *)
Definition quiet (e : uev) : Prop := kernel_ok e /\ match e with UPost _ | UAdd _ _ => False | _ => True end.
(** s becomes s' by quiet steps; the posters do nothing meanwhile *)
Definition quietly (s s' : ul) : Prop := exists es os, run (ustep alloc size) s es = Ok s' os /\ Forall quiet es.
Lemma quietly_refl s : quietly s s.
Proof. exists [], []. split; [done|constructor]. Qed.
Lemma quietly_step s e s1 s' : quiet e -> ustep alloc size s e = Ok s1 tt -> quietly s1 s' -> quietly s s'.
Proof.
  intros He E (es & os & H & HF). exists (e :: es), (tt :: os). split; [cbn [run]; by rewrite E, H|by apply Forall_cons].
Qed.
Lemma quietly_trans s s1 s' : quietly s s1 -> quietly s1 s' -> quietly s s'.
Proof.
  intros (es & os & H & HF) (es' & os' & H' & HF'). exists (es ++ es'), (os ++ os'). rewrite run_app, H, H'. split; [done|by apply Forall_app].
Qed.
Lemma kernel_ok_size : all_taken (Some size).
Proof. exists size. done. Qed.
(** the callbacks owed are run *)
Lemma drain_u n v : forall s, KI s -> lp s = LNotice n -> pc (nqs s) = SDrain v -> writing (nqs s) = [] ->
  exists s', quietly s s' /\ KI s' /\ lp s' = LNotice n /\ pc (nqs s') = SDrain 0 /\ writing (nqs s') = [] /\
    ev (nqs s') = ev (nqs s) /\ posted (nqs s') = posted (nqs s) /\ cq s' = cq s.
Proof.
  induction v as [|v IH]; intros s K El Ep Ew.
  { exists s. split_and!; try done. apply quietly_refl. }
  destruct (NI_run alloc HA _ (g_nq _ (k_gi _ K))) as [l Hl].
  destruct (nstep alloc (nqs s) NPop) as [| |q o] eqn:E1; [|by apply (NI_safe alloc HA _ _ _ Hl) in E1|].
  { cbn in E1. rewrite Ep in E1. destruct (head (nqs s)); [|done]. by destruct (heap (nqs s) !! p). }
  assert (F1 : ustep alloc size s (UNotice NPop) = Ok (set_nq q s) tt) by (cbn [ustep]; rewrite El; cbn [by_drain]; by rewrite E1).
  pose proof (KI_step _ (UNotice NPop) _ _ K I F1) as Kq.
  assert (Hq : exists a, pc q = SRun a v /\ writing q = [] /\ ev q = ev (nqs s) /\ posted q = posted (nqs s)).
  { cbn in E1. rewrite Ep in E1. destruct (head (nqs s)) as [a|]; [|done]. destruct (heap (nqs s) !! a); [|done]. injection E1 as <- _. by exists a. }
  destruct Hq as (a & Q1 & Q2 & Q3 & Q4).
  destruct (NI_run alloc HA _ (g_nq _ (k_gi _ Kq))) as [l2 Hl2].
  destruct (nstep alloc q NReturn) as [| |q2 o2] eqn:E2; [|by apply (NI_safe alloc HA _ _ _ Hl2) in E2|].
  { cbn in E2. rewrite Q1 in E2. by destruct (heap q !! a). }
  assert (F2 : ustep alloc size (set_nq q s) (UNotice NReturn) = Ok (set_nq q2 (set_nq q s)) tt).
  { cbn [ustep]. change (lp (set_nq q s)) with (lp s). rewrite El. cbn [by_drain]. change (nqs (set_nq q s)) with q. by rewrite E2. }
  pose proof (KI_step _ (UNotice NReturn) _ _ Kq I F2) as Kq2.
  assert (Hq : pc q2 = SDrain v /\ writing q2 = [] /\ ev q2 = ev (nqs s) /\ posted q2 = posted (nqs s)).
  { cbn in E2. rewrite Q1 in E2. destruct (heap q !! a); [|done]. injection E2 as <- _. done. }
  destruct Hq as (R1 & R2 & R3 & R4).
  destruct (IH (set_nq q2 (set_nq q s)) Kq2 El R1 R2) as (s' & Z1 & Z2 & Z3 & Z4 & Z5 & Z6 & Z7 & Z8).
  exists s'. split_and!; try done.
  - eapply quietly_step; [|exact F1|]; [done|]. eapply quietly_step; [|exact F2|]; done.
  - rewrite Z6. exact R3.
  - rewrite Z7. exact R4.
Qed.
(** from inside the notice callback back to the loop *)
Lemma leave_notice n s : KI s -> lp s = LNotice n -> writing (nqs s) = [] ->
  exists s', quietly s s' /\ KI s' /\ lp s' = LHandle n /\ writing (nqs s') = [] /\
    ev (nqs s') = ev (nqs s) /\ posted (nqs s') = posted (nqs s) /\ exists k, cq s' = cq s ++ replicate k CTmo.
Proof.
  intros K El Ew.
  assert (Hd : forall s v, KI s -> lp s = LNotice n -> writing (nqs s) = [] -> pc (nqs s) = SDrain v ->
    exists s', quietly s s' /\ KI s' /\ lp s' = LHandle n /\ writing (nqs s') = [] /\
    ev (nqs s') = ev (nqs s) /\ posted (nqs s') = posted (nqs s) /\ exists k, cq s' = cq s ++ replicate k CTmo).
  { clear s K El Ew. intros s v K El Ew Ep. destruct (drain_u n v s K El Ep Ew) as (s1 & Z1 & Z2 & Z3 & Z4 & Z5 & Z6 & Z7 & Z8).
    destruct (get_seq_all None (Some size) QPoll (set_lp (LHandle n) (set_nq (mknq (heap (nqs s1)) (head (nqs s1)) (ev (nqs s1)) SIdle
      (writing (nqs s1)) (posted (nqs s1)) (ran (nqs s1))) s1))) as (s2 & E & _).
    { apply notmo_none. apply (k_tmo _ Z2). } { apply kernel_ok_size. } { apply (g_len _ (k_gi _ Z2)). }
    assert (F : ustep alloc size s1 (URearm (Some size)) = Ok (set_rflag true s2) tt).
    { cbn [ustep]. rewrite Z3. cbn [nstep]. rewrite Z4, E. done. }
    apply get_seq_pushed in E as [P Pl]. exists (set_rflag true s2). cbn. split_and!.
    - eapply quietly_trans; [exact Z1|]. eapply quietly_step; [|exact F|apply quietly_refl]. split; [apply kernel_ok_size|done].
    - eapply KI_step; [exact Z2| |exact F]. apply kernel_ok_size.
    - by rewrite (p_lp _ _ _ P).
    - by rewrite (p_nq _ _ _ P).
    - by rewrite (p_nq _ _ _ P).
    - by rewrite (p_nq _ _ _ P).
    - destruct (p_cq _ _ _ P) as [k Hk]. exists k. rewrite Hk. cbn. by rewrite Z8. }
  destruct (pc (nqs s)) as [|v|a v] eqn:Ep; [|by eapply Hd|].
  { pose proof (g_pc _ (k_gi _ K)) as HG. rewrite El in HG. cbn in HG. by destruct HG. }
  destruct (NI_run alloc HA _ (g_nq _ (k_gi _ K))) as [l Hl].
  destruct (nstep alloc (nqs s) NReturn) as [| |q o] eqn:E; [|by apply (NI_safe alloc HA _ _ _ Hl) in E|].
  { cbn in E. rewrite Ep in E. by destruct (heap (nqs s) !! a). }
  assert (F : ustep alloc size s (UNotice NReturn) = Ok (set_nq q s) tt) by (cbn [ustep]; rewrite El; cbn [by_drain]; by rewrite E).
  assert (Hq : pc q = SDrain v /\ writing q = [] /\ ev q = ev (nqs s) /\ posted q = posted (nqs s)).
  { cbn in E. rewrite Ep in E. destruct (heap (nqs s) !! a); [|done]. injection E as <- _. done. }
  destruct Hq as (R1 & R2 & R3 & R4).
  destruct (Hd (set_nq q s) v (KI_step _ (UNotice NReturn) _ _ K I F) El R2 R1) as (s' & Z1 & Z2 & Z3 & Z4 & Z5 & Z6 & Z7).
  exists s'. split_and!; try done; [eapply quietly_step; [|exact F|exact Z1]; done|rewrite Z5; exact R3|rewrite Z6; exact R4].
Qed.
(** the completions seen are handled; the notices too if the poll is among them *)
Lemma handle_u n : forall s, KI s -> lp s = LHandle n -> writing (nqs s) = [] ->
  exists s', quietly s s' /\ KI s' /\ lp s' = LOut /\ writing (nqs s') = [] /\ posted (nqs s') = posted (nqs s) /\
    ev (nqs s') <= ev (nqs s) /\ (cpolls (take n (cq s)) ≠ 0 -> ev (nqs s') = 0).
Proof.
  induction n as [|n IH]; intros s K El Ew.
  { assert (F : ustep alloc size s UHandle = Ok (set_lp LOut s) tt) by (cbn [ustep]; by rewrite El).
    exists (set_lp LOut s). split_and!; try done; [eapply quietly_step; [|exact F|apply quietly_refl]; done|by eapply (KI_step _ UHandle)]. }
  pose proof (g_todo _ (k_gi _ K)) as Ht. rewrite El in Ht. cbn [todo] in Ht.
  destruct (cq s) as [|c0 c] eqn:Ec; [cbn in Ht; lia|]. cbn in Ht.
  destruct c0 as [res| |id].
  - assert (Hres : (0 < res)%Z). { apply (k_res _ K). rewrite Ec. apply elem_of_cons. by left. }
    assert (Hr : rflag s = true). { apply (k_rf _ K). by rewrite El. }
    assert (Hev : 0 < ev (nqs s)). { destruct (g_ready _ (k_gi _ K) res) as [?|?]; [rewrite Ec; apply elem_of_cons; by left|lia|done]. }
    assert (Hp : pc (nqs s) = SIdle). { pose proof (g_pc _ (k_gi _ K)) as HG. by rewrite El in HG. }
    destruct (ev (nqs s)) as [|v] eqn:Ev; [lia|].
    set (q := mknq (heap (nqs s)) (head (nqs s)) 0 (SDrain (S v)) (writing (nqs s)) (posted (nqs s)) (ran (nqs s))).
    assert (F : ustep alloc size s UHandle = Ok (set_lp (LNotice n) (set_nq q (set_rflag false (set_cq c s)))) tt).
    { cbn [ustep]. rewrite El, Ec, Hr, decide_False by lia. change (nqs (set_rflag false (set_cq c s))) with (nqs s). cbn [nstep]. rewrite Hp, Ev. done. }
    pose proof (KI_step _ UHandle _ _ K I F) as K1.
    destruct (leave_notice n _ K1 eq_refl Ew) as (s1 & Z1 & Z2 & Z3 & Z4 & Z5 & Z6 & k & Z7).
    destruct (IH s1 Z2 Z3 Z4) as (s' & Y1 & Y2 & Y3 & Y4 & Y5 & Y6 & Y7). cbn in Z5, Z6.
    exists s'. split_and!; try done.
    + eapply quietly_step; [|exact F|]; [done|]. by eapply quietly_trans.
    + by rewrite Y5, Z6.
    + lia.
    + intros _. lia.
  - assert (F : ustep alloc size s UHandle = Ok (set_lp (LHandle n) (set_cq c s)) tt) by (cbn [ustep]; by rewrite El, Ec).
    destruct (IH _ (KI_step _ UHandle _ _ K I F) eq_refl Ew) as (s' & Y1 & Y2 & Y3 & Y4 & Y5 & Y6 & Y7).
    exists s'. split_and!; try done. eapply quietly_step; [|exact F|eassumption]; done.
  - assert (F : ustep alloc size s UHandle = Ok (set_lp (LOther n) (set_cq c s)) tt) by (cbn [ustep]; by rewrite El, Ec).
    pose proof (KI_step _ UHandle _ _ K I F) as K1.
    assert (F2 : ustep alloc size (set_lp (LOther n) (set_cq c s)) UReturn = Ok (set_lp (LHandle n) (set_lp (LOther n) (set_cq c s))) tt) by done.
    destruct (IH _ (KI_step _ UReturn _ _ K1 I F2) eq_refl Ew) as (s' & Y1 & Y2 & Y3 & Y4 & Y5 & Y6 & Y7).
    exists s'. split_and!; try done. eapply quietly_step; [|exact F|]; [done|]. eapply quietly_step; [|exact F2|exact Y1]; done.
Qed.
(** a wait ends and its completions are handled *)
Lemma wait_u s : KI s -> lp s = LWait -> writing (nqs s) = [] ->
  exists s', quietly s s' /\ KI s' /\ lp s' = LOut /\ writing (nqs s') = [] /\ posted (nqs s') = posted (nqs s) /\
    ev (nqs s') <= ev (nqs s) /\ (cpolls (cq s) ≠ 0 -> ev (nqs s') = 0).
Proof.
  intros K El Ew.
  assert (Hw : forall s, KI s -> lp s = LWait -> writing (nqs s) = [] -> cq s ≠ [] ->
    exists s', quietly s s' /\ KI s' /\ lp s' = LOut /\ writing (nqs s') = [] /\ posted (nqs s') = posted (nqs s) /\
    ev (nqs s') <= ev (nqs s) /\ (cpolls (cq s) ≠ 0 -> ev (nqs s') = 0)).
  { clear s K El Ew. intros s K El Ew Ec.
    assert (F : ustep alloc size s (UWake false) = Ok (set_lp (LHandle (length (cq s))) s) tt).
    { cbn [ustep]. rewrite El, decide_False; [done|]. by intros [? _]. }
    destruct (handle_u (length (cq s)) _ (KI_step _ (UWake false) _ _ K I F) eq_refl Ew) as (s' & Y1 & Y2 & Y3 & Y4 & Y5 & Y6 & Y7).
    exists s'. split_and!; try done; [eapply quietly_step; [|exact F|eassumption]; done|]. intros Hc. apply Y7. cbn. by rewrite take_ge. }
  destruct (decide (cq s = [])) as [Ec|Ec]; [|by apply Hw].
  destruct (k_wait _ K El) as [_ [Hk|Hk]]; [|done]. destruct (ktmo s) as [|m] eqn:Ek; [done|].
  assert (F : ustep alloc size s KTmo = Ok (mkul (nqs s) (sq s) (kpoll s) m (kother s) (cq s ++ [CTmo]) (lp s) (rnd s) (rflag s)) tt)
    by (cbn [ustep]; by rewrite Ek).
  destruct (Hw _ (KI_step _ KTmo _ _ K I F) El Ew) as (s' & Y1 & Y2 & Y3 & Y4 & Y5 & Y6 & Y7); [cbn; by rewrite Ec|].
  exists s'. split_and!; try done; [eapply quietly_step; [|exact F|eassumption]; done|]. intros Hc. by rewrite Ec in Hc.
Qed.
(** from anywhere the selector comes back out of select *)
Lemma out_u s : KI s -> writing (nqs s) = [] ->
  exists s', quietly s s' /\ KI s' /\ lp s' = LOut /\ writing (nqs s') = [] /\ posted (nqs s') = posted (nqs s).
Proof.
  intros K Ew. destruct (lp s) as [| |n|n|n] eqn:El.
  - exists s. split_and!; try done. apply quietly_refl.
  - destruct (wait_u s K El Ew) as (s' & Y1 & Y2 & Y3 & Y4 & Y5 & _). by exists s'.
  - destruct (handle_u n s K El Ew) as (s' & Y1 & Y2 & Y3 & Y4 & Y5 & _). by exists s'.
  - assert (F : ustep alloc size s UReturn = Ok (set_lp (LHandle n) s) tt) by (cbn [ustep]; by rewrite El).
    destruct (handle_u n _ (KI_step _ UReturn _ _ K I F) eq_refl Ew) as (s' & Y1 & Y2 & Y3 & Y4 & Y5 & _).
    exists s'. split_and!; try done. eapply quietly_step; [|exact F|eassumption]; done.
  - destruct (leave_notice n s K El Ew) as (s1 & Z1 & Z2 & Z3 & Z4 & Z5 & Z6 & _).
    destruct (handle_u n s1 Z2 Z3 Z4) as (s' & Y1 & Y2 & Y3 & Y4 & Y5 & _). exists s'. split_and!; try done; [by eapply quietly_trans|congruence].
Qed.
(** from every such state, with no thread inside the posting function, the selector thread and the kernel alone get every posted
    callback run: no notice is lost and the loop is never stuck *)
Theorem C79_all_run_partial s : kreach s -> writing (nqs s) = [] ->
  exists es s' os, run (ustep alloc size) s es = Ok s' os /\ Forall quiet es /\
    posted (nqs s') = posted (nqs s) /\ ran (nqs s') ≡ₚ posted (nqs s) /\ lp s' = LOut.
Proof.
  intros HR Ew. apply KI_run in HR as K. destruct (out_u s K Ew) as (s1 & A1 & A2 & A3 & A4 & A5).
  destruct (select_ok 0 (Some size) (Some size) s1 A2 A3 kernel_ok_size kernel_ok_size) as (s2 & F & Q1 & Q2 & Q3 & Q4 & Q5 & Q6).
  assert (K2 : KI s2). { eapply KI_step; [exact A2| |exact F]. split; apply kernel_ok_size. }
  assert (S2 : quietly s s2).
  { eapply quietly_trans; [exact A1|]. eapply quietly_step; [|exact F|apply quietly_refl]. split; [split; apply kernel_ok_size|done]. }
  assert (HP : polls s2 = 1). { rewrite (g_polls _ (k_gi _ K2)), (k_rf _ K2); [done|by rewrite Q1]. }
  assert (W2 : writing (nqs s2) = []) by (by rewrite Q4).
  assert (Hfin : exists s', quietly s2 s' /\ KI s' /\ lp s' = LOut /\ writing (nqs s') = [] /\ posted (nqs s') = posted (nqs s2) /\ ev (nqs s') = 0).
  { destruct (decide (cpolls (cq s2) = 0)) as [Hc|Hc].
    - unfold polls in HP. rewrite Q2, Hc in HP. cbn in HP. destruct (kpoll s2) as [|k] eqn:Ek; [lia|].
      destruct (ev (nqs s2)) as [|v] eqn:Ev.
      + destruct (wait_u s2 K2 Q1 W2) as (s' & Y1 & Y2 & Y3 & Y4 & Y5 & Y6 & Y7). exists s'. split_and!; try done. lia.
      + assert (F2 : ustep alloc size s2 (KPoll 1) = Ok (mkul (nqs s2) (sq s2) k (ktmo s2) (kother s2) (cq s2 ++ [CPoll 1]) (lp s2) (rnd s2) (rflag s2)) tt).
        { cbn [ustep]. rewrite Ek, decide_True by lia. done. }
        assert (Hk : kernel_ok (KPoll 1)) by (cbn; lia).
        destruct (wait_u _ (KI_step _ _ _ _ K2 Hk F2) Q1 W2) as (s' & Y1 & Y2 & Y3 & Y4 & Y5 & Y6 & Y7).
        exists s'. split_and!; try done; [eapply quietly_step; [|exact F2|exact Y1]; done|]. apply Y7. cbn. rewrite cpolls_app. cbn. lia.
    - destruct (wait_u s2 K2 Q1 W2) as (s' & Y1 & Y2 & Y3 & Y4 & Y5 & Y6 & Y7). exists s'. split_and!; try done. by apply Y7. }
  destruct Hfin as (s' & B1 & B2 & B3 & B4 & B5 & B6).
  destruct (quietly_trans _ _ _ S2 B1) as (es & os & HE & HF). exists es, s', os.
  assert (HPo : posted (nqs s') = posted (nqs s)) by congruence. split_and!; try done. rewrite <- HPo.
  pose proof (g_nq _ (k_gi _ B2)) as HN.
  assert (Hpc : pc (nqs s') = SIdle). { pose proof (g_pc _ (k_gi _ B2)) as HG. by rewrite B3 in HG. }
  pose proof (C30_readable alloc HA _ HN Hpc B4) as HC. destruct (C30_exactly_once alloc HA _ HN) as (l & HL & _).
  pose proof (Permutation_length HL) as HLl. rewrite app_length in HLl. destruct l; [|cbn in HLl; lia]. by rewrite app_nil_r in HL.
Qed.

(** * When it does not *)
(** with no poll of the eventfd on its way and the selector outside the notice callback, no callback ever runs again *)
Definition deaf (s : ul) : Prop := GI s /\ rflag s = false /\ in_notice (lp s) = false.
Lemma post_ran q e q' o : nstep alloc q e = Ok q' o -> by_poster e = true -> ran q' = ran q.
Proof.
  intros H He. destruct e as [t i|t| | | |]; cbn in He, H; try done.
  - case_decide; [done|]. by injection H as <- _.
  - case_decide; [|done]. by injection H as <- _.
Qed.
Lemma get_seq_deaf fr d q s s' : deaf s -> qpoll q = 0 -> get_seq size fr d q s = Got ul s' -> ran (nqs s') = ran (nqs s) /\ rflag s' = false /\ lp s' = lp s.
Proof.
  intros (G & Hr & Hn) Hq E. apply get_seq_pushed in E as [P _]. by rewrite (p_nq _ _ _ P), (p_rf _ _ _ P), (p_lp _ _ _ P).
Qed.
Lemma deaf_step s e s' o : deaf s -> ustep alloc size s e = Ok s' o -> deaf s' /\ ran (nqs s') = ran (nqs s).
Proof.
  intros D H. pose proof D as (G & Hr & Hn). pose proof (GI_step _ _ _ _ G H) as G'. unfold deaf.
  destruct e as [n|id d|tmo d1 d2|intr| | |n|d|res| |id]; cbn [ustep] in H.
  - destruct (by_poster n) eqn:Hb; [|done]. destruct (nstep alloc (nqs s) n) as [| |q o1] eqn:E; try done. injection H as <- _.
    split; [done|]. by eapply post_ran.
  - destruct (in_user_code s); [|done]. destruct (get_seq size None d (QOther id) s) as [| |s1] eqn:E; try done; injection H as <- _; [done|].
    apply get_seq_deaf in E as (E1 & E2 & E3); [|done|done]. by rewrite E3.
  - destruct (lp s) eqn:El; try done. set (s0 := mkul _ _ _ _ _ _ _ _ _) in H.
    destruct (get_seq size (Some (S (rnd s))) d1 _ s0) as [| |s1] eqn:E; try done.
    apply get_seq_pushed in E as [P1 _]. destruct d2 as [k|].
    + destruct (submit (Some (S (rnd s))) k s1) as [s2|] eqn:E2; [|done]. apply submit_pushed in E2 as [P2 _].
      assert (X : nqs s2 = nqs s /\ rflag s2 = false) by (by rewrite (p_nq _ _ _ P2), (p_nq _ _ _ P1), (p_rf _ _ _ P2), (p_rf _ _ _ P1)).
      destruct X as [X1 X2]. case_decide; injection H as <- _; cbn; by rewrite X1.
    + assert (X : nqs s1 = nqs s /\ rflag s1 = false) by (by rewrite (p_nq _ _ _ P1), (p_rf _ _ _ P1)).
      destruct X as [X1 X2]. injection H as <- _. cbn. by rewrite X1.
  - destruct (lp s) eqn:El; try done. case_decide; [done|]. injection H as <- _. done.
  - destruct (lp s) as [| |[|n]|n|n] eqn:El; try done; [by injection H as <- _|].
    destruct (cq s) as [|[res| |id] c] eqn:Ec; [done| | |].
    + by rewrite Hr in H.
    + by injection H as <- _.
    + by injection H as <- _.
  - destruct (lp s) as [| |n|n|n] eqn:El; try done. by injection H as <- _.
  - by destruct (lp s) as [| |m|m|m] eqn:El.
  - by destruct (lp s) as [| |m|m|m] eqn:El.
  - destruct (kpoll s) as [|n] eqn:Ek; [done|]. case_decide as Hd; [|done]. by injection H as <- _.
  - destruct (ktmo s) as [|n] eqn:Ek; [done|]. by injection H as <- _.
  - case_decide; [|done]. by injection H as <- _.
Qed.
Lemma deaf_forever es : forall s s' os, deaf s -> run (ustep alloc size) s es = Ok s' os -> ran (nqs s') = ran (nqs s).
Proof.
  induction es as [|e es IH]; intros s s' os D H; cbn in H; [by injection H as <- _|].
  destruct (ustep alloc size s e) as [| |s1 o] eqn:E; try done. destruct (run (ustep alloc size) s1 es) as [| |s2 os2] eqn:E2; try done.
  injection H as <- _. apply deaf_step in E as [D1 E1]; [|done]. by rewrite (IH _ _ _ D1 E2).
Qed.
(** in general: once the loop is outside the notice callback with no poll armed *)
Theorem C79_deaf_forever s : reachable (ustep alloc size) ul_init s -> (forall n, lp s ≠ LNotice n) -> polls s = 0 ->
  forall es s' os, run (ustep alloc size) s es = Ok s' os -> ran (nqs s') = ran (nqs s).
Proof.
  intros H Hn Hp es s' os. apply GI_run in H as G. apply deaf_forever. split_and!; [done| |].
  - pose proof (g_polls _ G) as HG. rewrite Hp in HG. by destruct (rflag s).
  - destruct (lp s) eqn:El; try done. by edestruct Hn.
Qed.
End props.

(** the library's ring: URING_COUNT entries *)
Definition lib_size : nat := 128.
Definition deaf_check (s : ul) : bool :=
  (match lp s with LNotice _ => false | _ => true end) && bool_decide (polls s = 0) && bool_decide (writing (nqs s) = []).
(** one notice whose callback starts as many operations as the ring holds; io_uring_submit fails once when the poll is armed again: it is
    only logged.  The next notice, and every later one, never runs, in any continuation. *)
Definition rearm_run : list uev :=
  [UPost (NPush 1 10); UPost (NWrite 1); USelect 100 (Some 128) (Some 128); KPoll 1; UWake false; UHandle; UNotice NPop]
  ++ ((λ i, UAdd i (Some 128)) <$> seq 0 128) ++ [UNotice NReturn; URearm None; UHandle; UPost (NPush 1 20); UPost (NWrite 1)].
Lemma rearm_run_ok : match run (ustep nalloc lib_size) ul_init rearm_run with
  Ok s _ => deaf_check s && bool_decide (ran (nqs s) = [10]) && bool_decide (posted (nqs s) = [10; 20]) | _ => false end = true.
Proof. vm_compute. reflexivity. Qed.
Lemma deaf_check_forever es b (f : nq -> bool) :
  match run (ustep nalloc lib_size) ul_init es with Ok s _ => deaf_check s && f (nqs s) | _ => false end = b -> b = true ->
  exists s os, run (ustep nalloc lib_size) ul_init es = Ok s os /\ f (nqs s) = true /\ writing (nqs s) = [] /\
    forall es' s' os', run (ustep nalloc lib_size) s es' = Ok s' os' -> ran (nqs s') = ran (nqs s).
Proof.
  intros H Hb. destruct (run (ustep nalloc lib_size) ul_init es) as [| |s os] eqn:E; [by subst b|by subst b|].
  subst b. apply andb_prop in Hb as [Hc Hf]. apply andb_prop in Hc as [Hc Hw]. apply andb_prop in Hc as [Hl Hp].
  apply bool_decide_eq_true in Hw, Hp. exists s, os. split_and!; [done|done|done|].
  eapply C79_deaf_forever; [unfold lib_size; lia|by exists es, os| |done].
  intros n Hn. by rewrite Hn in Hl.
Qed.
Theorem C79_rearm_refuted : exists s os, run (ustep nalloc lib_size) ul_init rearm_run = Ok s os /\
  posted (nqs s) = [10; 20] /\ writing (nqs s) = [] /\
  forall es s' os', run (ustep nalloc lib_size) s es = Ok s' os' -> ran (nqs s') = [10].
Proof.
  pose proof rearm_run_ok as H.
  destruct (deaf_check_forever rearm_run _ (λ q, bool_decide (ran q = [10]) && bool_decide (posted q = [10; 20]))
    ltac:(destruct (run (ustep nalloc lib_size) ul_init rearm_run); [done|done|rewrite andb_assoc; exact H]) eq_refl) as (s & os & E & Hf & Hw & HF).
  apply andb_prop in Hf as [H1 H2]. apply bool_decide_eq_true in H1, H2. exists s, os. split_and!; [exact E|exact H2|exact Hw|].
  intros es s' os' HR. by rewrite (HF _ _ _ HR).
Qed.
(** the kernel completes the poll once with an error (its own allocation fails): the same *)
Definition poll_error_run : list uev :=
  [USelect 100 (Some 128) (Some 128); KPoll (-12); UWake false; UHandle; UHandle; UPost (NPush 1 10); UPost (NWrite 1)].
Lemma poll_error_run_ok : match run (ustep nalloc lib_size) ul_init poll_error_run with
  Ok s _ => deaf_check s && bool_decide (ran (nqs s) = []) && bool_decide (posted (nqs s) = [10]) | _ => false end = true.
Proof. vm_compute. reflexivity. Qed.
Theorem C79_poll_error_refuted : exists s os, run (ustep nalloc lib_size) ul_init poll_error_run = Ok s os /\
  posted (nqs s) = [10] /\ writing (nqs s) = [] /\
  forall es s' os', run (ustep nalloc lib_size) s es = Ok s' os' -> ran (nqs s') = [].
Proof.
  pose proof poll_error_run_ok as H.
  destruct (deaf_check_forever poll_error_run _ (λ q, bool_decide (ran q = []) && bool_decide (posted q = [10]))
    ltac:(destruct (run (ustep nalloc lib_size) ul_init poll_error_run); [done|done|rewrite andb_assoc; exact H]) eq_refl) as (s & os & E & Hf & Hw & HF).
  apply andb_prop in Hf as [H1 H2]. apply bool_decide_eq_true in H1, H2. exists s, os. split_and!; [exact E|exact H2|exact Hw|].
  intros es s' os' HR. by rewrite (HF _ _ _ HR).
Qed.
(** the ring is full when select is called and io_uring_submit fails: a NULL entry is written to *)
Theorem C79_null_sqe_refuted :
  run (ustep nalloc lib_size) ul_init (((λ i, UAdd i None) <$> seq 0 127) ++ [USelect 100 None None]) = Crash.
Proof. vm_compute. reflexivity. Qed.
(** io_uring_submit_and_wait takes nothing once (EAGAIN, EBUSY): the timeout stays in the ring and points into the frame of a call that
    returns; a later submission hands it to the kernel *)
Theorem C79_dead_frame_refuted :
  run (ustep nalloc lib_size) ul_init ([USelect 100 None None; UHandle] ++ ((λ i, UAdd i (Some 128)) <$> seq 0 126) ++ [UAdd 126 (Some 128)]) = Crash /\
  (exists s os, run (ustep nalloc lib_size) ul_init ([USelect 100 None None; UHandle] ++ ((λ i, UAdd i (Some 128)) <$> seq 0 126)) = Ok s os).
Proof.
  split; [vm_compute; reflexivity|].
  assert (H : match run (ustep nalloc lib_size) ul_init ([USelect 100 None None; UHandle] ++ ((λ i, UAdd i (Some 128)) <$> seq 0 126)) with Ok _ _ => true | _ => false end = true)
    by (vm_compute; reflexivity).
  destruct (run _ _ _); [done|done|by eexists _, _].
Qed.

(** * The timeout *)
Local Open Scope Z_scope.
(** up to 2147 ms the timespec is valid and is exactly the timeout *)
Theorem C79_timespec tmo : 0 <= tmo <= 2147 ->
  0 <= (ts tmo).1 /\ 0 <= (ts tmo).2 < 1000000000 /\ (ts tmo).1 * 1000000000 + (ts tmo).2 = tmo * 1000000 /\
  ts_valid (ts tmo).1 (ts tmo).2 = true.
Proof.
  intros H. unfold ts, int32. cbn [fst snd]. rewrite Z.quot_div_nonneg by lia.
  rewrite (Z.mod_small (tmo * 1000000 + 2 ^ 31)) by (change (2 ^ 31) with 2147483648; change (2 ^ 32) with 4294967296; lia).
  replace (tmo * 1000000 + 2 ^ 31 - 2 ^ 31) with (tmo * 1000000) by lia.
  pose proof (Z.div_mod tmo 1000 ltac:(lia)). pose proof (Z.mod_pos_bound tmo 1000 ltac:(lia)). pose proof (Z.div_pos tmo 1000 ltac:(lia) ltac:(lia)).
  split_and!; try lia. unfold ts_valid. rewrite !andb_true_iff, !Z.leb_le, Z.ltb_lt. lia.
Qed.
(** the product overflows from 2148 ms on: undefined behaviour, and with wrapping arithmetic a value the kernel refuses *)
Theorem C79_timespec_refuted : ts_valid (ts 2148).1 (ts 2148).2 = false /\ 2148 * 1000000 > 2 ^ 31 - 1.
Proof. split; [vm_compute; reflexivity|lia]. Qed.
Local Close Scope Z_scope.

(** * Example: two threads post, one of them while the selector waits; another operation completes in between; all is run *)
Definition ulp_demo : list uev :=
  [UPost (NPush 1 10); UAdd 5 (Some 128); USelect 100 (Some 128) (Some 128); UPost (NPush 2 20); UPost (NWrite 1); UPost (NWrite 2); KOther 5; KPoll 1;
   UWake false; UHandle; UAdd 6 (Some 128); UReturn; UHandle; UNotice NPop; UPost (NPush 3 30); UNotice NReturn; UNotice NPop; UNotice NReturn; URearm (Some 128);
   UHandle; UPost (NWrite 3)].
Definition ulp_demo_end (es : list uev) : bool := match run (ustep nalloc lib_size) ul_init es with
  Ok s _ => bool_decide (ran (nqs s) = [20; 30]) && bool_decide (posted (nqs s) = [10; 20; 30]) && bool_decide (writing (nqs s) = []) && bool_decide (polls s = 1)
  | _ => false end.
Lemma ulp_demo_runs : ulp_demo_end ulp_demo = true.
Proof. vm_compute. reflexivity. Qed.
Lemma ulp_demo_gen es0 : (forall s os, run (ustep nalloc lib_size) ul_init es0 = Ok s os -> kreach nalloc lib_size s) ->
  ulp_demo_end es0 = true ->
  exists s, kreach nalloc lib_size s /\ ran (nqs s) = [20; 30] /\ posted (nqs s) = [10; 20; 30] /\ writing (nqs s) = [] /\
  exists es s' os, run (ustep nalloc lib_size) s es = Ok s' os /\ Forall (quiet lib_size) es /\ ran (nqs s') ≡ₚ [10; 20; 30].
Proof.
  intros HK H. unfold ulp_demo_end in H. destruct (run (ustep nalloc lib_size) ul_init es0) as [| |s os] eqn:E; [done|done|].
  apply andb_prop in H as [H H4]. apply andb_prop in H as [H H3]. apply andb_prop in H as [H1 H2].
  apply bool_decide_eq_true in H1, H2, H3.
  assert (HA : forall k X, nalloc k X ∉ X) by (intros k X; apply nalloc_fresh).
  pose proof (HK _ _ eq_refl) as K.
  exists s. split_and!; [exact K|exact H1|exact H2|exact H3|].
  destruct (C79_all_run_partial nalloc HA lib_size ltac:(unfold lib_size; lia) s K H3) as (es & s' & os' & A & B & C & D & _).
  exists es, s', os'. rewrite H2 in D. exact (conj A (conj B D)).
Qed.
Theorem C79_example : exists s, kreach nalloc lib_size s /\ ran (nqs s) = [20; 30] /\ posted (nqs s) = [10; 20; 30] /\ writing (nqs s) = [] /\
  exists es s' os, run (ustep nalloc lib_size) s es = Ok s' os /\ Forall (quiet lib_size) es /\ ran (nqs s') ≡ₚ [10; 20; 30].
Proof.
  apply (ulp_demo_gen ulp_demo); [|exact ulp_demo_runs].
  intros s os E. exists ulp_demo, os. split; [exact E|]. unfold ulp_demo. repeat (apply Forall_cons; split); try constructor; try (cbn; lia);
    first [exists 128; split; [done|unfold lib_size; lia] | done].
Qed.
