(** Invariants of the epoll socket model: readiness is not lost. *)
From Verif Require Import EpollModel EpollProof.
Local Open Scope Z_scope.

(** epoll_ctl succeeds *)
Definition okev (e : ev) : Prop :=
  match e with
  | ERead _ _ _ ok _ | EWrite _ _ _ _ ok _ | EConnect _ ok | EReadhup _ ok | EWEv ok _ | EREv ok _ => ok = true
  | _ => True
  end.
(** readhup is asked for before the peer has closed, or on a socket not yet registered *)
Definition hupev (s : ep) (e : ev) : Prop :=
  match e with EReadhup _ _ => lhup s = false \/ rev s = false | _ => True end.

Definition prog_r (s : ep) : bool := match pc s with PW n | PR n => n_rd n && n_r n | _ => false end.
Definition prog_w (s : ep) : bool := match pc s with PW n => n_wr n && n_w n | _ => false end.
Definition prog_h (s : ep) : bool := match pc s with PW n => n_hup n && n_w n | _ => false end.
Definition keep_r (s : ep) : bool := match pc s with PW n | PR n | PF n => n_rd n | PIdle => false end.
Definition keep_w (s : ep) : bool := match pc s with PW n | PR n | PF n => n_wr n | PIdle => false end.
Record inv2 (s : ep) : Prop := mkinv2 {
  j_reg : reg s = if rev s then Some (wev s) else None;
  j_er : rev s = true -> rrdy s = false -> lin s = true -> edge s = true;
  j_ew : wev s = true -> wrdy s = false -> lout s = true -> edge s = true;
  j_read : rd s = true -> (loc s = LReady /\ (rrdy s = true \/ rrdy2 s = true)) \/ prog_r s = true \/ (rrdy s = false /\ rrdy2 s = false);
  j_write : wr s = true -> (loc s = LReady /\ wrdy s = true) \/ prog_w s = true \/ (wev s = true /\ (lout s = true -> edge s = true));
  j_lr : rd s = true -> loc s <> LNone \/ shut s = true \/ keep_r s = true;
  j_lw : wr s = true -> loc s <> LNone \/ shut s = true \/ keep_w s = true;
  j_pw : forall n, pc s = PW n -> loc s = LNone }.
Lemma inv2_init : inv2 ep_init.
Proof. constructor; cbn; done. Qed.

Lemma wait_read_ok s : reg s = (if rev s then Some (wev s) else None) -> (wev s = true -> rev s = true) -> wait_read true s =
  s_loc (if decide (loc s = LNone) then LRw else loc s)
    (if rev s then s else s_edge (edge s || lin s || lhup s) (s_reg (Some false) (s_rev true (s_et true (s_wrdy true s))))).
Proof.
  intros Hr Hw. unfold wait_read. destruct (rev s) eqn:E; [by rewrite list_rw_eq|].
  assert (Hv: wev s = false) by (destruct (wev s); [by specialize (Hw eq_refl)|done]).
  unfold add_event. ds s. sm. subst. sm. cbn [Bool.eqb]. rewrite list_rw_eq. sm. rewrite orb_false_r. reflexivity.
Qed.
Lemma wait_write_ok s : reg s = (if rev s then Some (wev s) else None) -> wait_write true s =
  s_loc (if decide (loc s = LNone) then LRw else loc s)
    (if wev s then s else s_edge (edge s || lin s || lhup s || lout s) (s_reg (Some true) (s_wev true (s_rev true (s_et true (s_wrdy true s)))))).
Proof.
  intros Hr. unfold wait_write. destruct (wev s) eqn:E; [by rewrite list_rw_eq|].
  unfold add_event. ds s. sm. subst. sm. destruct rev0; cbn [Bool.eqb]; sm; rewrite list_rw_eq; reflexivity.
Qed.
Lemma loc_rw l : (if decide (l = LNone) then LRw else l) <> LNone.
Proof. destruct (decide _); done. Qed.
Lemma loc_rdy l : (if decide (l = LNone) then LRw else l) = LReady <-> l = LReady.
Proof. destruct (decide _) as [->|]; done. Qed.
Definition rwl (s : ep) : ep := s_loc (if decide (loc s = LNone) then LRw else loc s) s.
Definition regw (s : ep) : ep :=
  if wev s then s else s_edge (edge s || lin s || lhup s || lout s) (s_reg (Some true) (s_wev true (s_rev true (s_et true (s_wrdy true s))))).
Lemma read_event_cases r s s' : core true true s -> reg s = (if rev s then Some (wev s) else None) -> rd s = true -> read_event true r s = Some s' ->
  (exists v l, s' = call (er s) v (s_lin l (s_rrdy2 false (s_rd false s))) /\ (l = true -> lin s = true)) \/
  (lin s = false /\ s' = rwl (s_rrdy2 false (s_rrdy false s))).
Proof.
  intros HC Hj Hrd. unfold read_event. assert (Hret: et s = true) by (rewrite (i_et _ _ _ HC); by apply (i_rd _ _ _ HC)). rewrite Hret.
  assert (Hh: hup s = false) by (destruct (hup s) eqn:E; [|done]; apply (i_hup _ _ _ HC) in E; naive_solver congruence).
  pose proof (i_rd _ _ _ HC eq_refl Hrd) as Hrv.
  assert (Hl: forall s0, s0 = s_lin (lin s0) s0) by (intros []; done).
  sm. destruct (bufr s) eqn:Eb; sm; [|intros [= <-]; left; eexists _, (lin s); split; [rewrite (Hl s) at 1; reflexivity|done]].
  destruct r as [n more|]; cbn [try_in]; sm; [destruct (lin s) eqn:El; sm|].
  - intros [= <-]. left. eexists _, _. split; [reflexivity|]. done.
  - intros [= <-]. right. split; [done|]. rewrite wait_read_ok; [|exact Hj|exact (i_wev _ _ _ HC)]. sm. rewrite Hrv. unfold rwl. sm. ds s. sm. subst. reflexivity.
  - intros [= <-]. left. eexists _, (lin s). split; [rewrite (Hl s) at 1; reflexivity|done].
Qed.
Lemma write_event_cases r s : core true true s -> reg s = (if rev s then Some (wev s) else None) -> wr s || hup s = true -> let s' := write_event true r s in
  (exists v l, s' = call (ew s) v (s_lout l (s_sf false (s_hup false (s_wr false s)))) /\ (l = true -> lout s = true)) \/
  (lout s = false /\ s' = rwl (regw (s_wr true (s_hup false (s_wrdy false s))))).
Proof.
  intros HC Hj Hw. cbv zeta. unfold write_event.
  assert (Hl: forall s0, s0 = s_lout (lout s0) s0) by (intros []; done).
  destruct (negb (sf s) && err _) eqn:E1.
  { left. eexists _, (lout s). split; [rewrite (Hl s) at 1; reflexivity|done]. }
  set (s1 := if sf s then _ else _).
  assert (H1: s1 = s_sf false (s_hup false (s_wr false s))).
  { subst s1. destruct (sf s); [done|]. pose proof (i_w2 _ _ _ HC). ds s. sm. by subst. }
  rewrite H1. clear s1 H1. sm. destruct (bufw s) eqn:Eb; sm.
  - destruct r as [n more|]; cbn [try_out]; sm; [destruct (lout s) eqn:El; sm|].
    + left. eexists _, _. split; [reflexivity|]. done.
    + right. split; [done|]. rewrite wait_write_ok; [|exact Hj]. sm. unfold rwl, regw. sm. destruct (wev s) eqn:Ev; ds s; sm; subst; reflexivity.
    + left. eexists _, (lout s). split; [rewrite (Hl s) at 1; reflexivity|done].
  - left. eexists _, (lout s). split; [rewrite (Hl s) at 1; reflexivity|done].
Qed.
Ltac dj HJ := destruct HJ as [J1 J2 J3 J4 J5 J6 J7 J8].
Ltac un := unfold prog_r, prog_w, keep_r, keep_w, busy, accept, notify in *.
Ltac rl := rewrite ?loc_rdy in *.
Ltac bs := repeat match goal with
  | H : ?x = true |- _ => is_var x; subst x
  | H : ?x = false |- _ => is_var x; subst x
  | H : ?x = true -> _, K : ?x = true |- _ => specialize (H K)
  | H : true = true -> _ |- _ => specialize (H eq_refl)
  | H : false = false -> _ |- _ => specialize (H eq_refl)
  | H : false = true -> _ |- _ => clear H
  | H : true = false -> _ |- _ => clear H
  end.
Ltac ob := try solve [intros; bs; rewrite ?orb_true_r; reflexivity].
Ltac so := solve [rewrite ?orb_true_iff, ?andb_true_iff in *; intuition (try congruence)].
Ltac fin2 := constructor; un; sm; rl; try discriminate; try solve [intros; left; apply loc_rw]; ob; try so;
  try match goal with H : context [match ?p with PIdle => _ | _ => _ end] |- _ => destruct p; try discriminate; ob; try so | |- context [match ?p with PIdle => _ | _ => _ end] => destruct p; try discriminate; ob; try so end.
(** a read that has to wait *)
Lemma read_wait_ok s : core false true s -> inv2 (s_rd false s) -> busy s = false -> rd s = true -> hup s = false -> rrdy s = false -> rrdy2 s = false -> inv2 (wait_read true s).
Proof.
  intros HC HJ Hb H1 H2 H3 H4. rewrite wait_read_ok; [|apply (j_reg _ HJ)|apply (i_wev _ _ _ HC)].
  pose proof (i_wev _ _ _ HC) as G1. clear HC. dj HJ. un. ds s. sm. destruct rev0; sm; bs.
  - fin2.
  - assert (wev0 = false) as -> by (destruct wev0; intuition congruence). fin2.
Qed.
(** a write that has to wait *)
Lemma write_wait_ok s : core true false s -> inv2 (s_wr false s) -> busy s = false -> wr s = true -> hup s = false -> wrdy s = false -> inv2 (wait_write true s).
Proof.
  intros HC HJ Hb H1 H2 H3. rewrite wait_write_ok; [|apply (j_reg _ HJ)].
  pose proof (i_wev _ _ _ HC) as G1. pose proof (i_rr _ _ _ HC) as G2. clear HC. dj HJ. un. ds s. sm. destruct wev0; sm; bs.
  - fin2.
  - fin2.
Qed.
(** the record of a request does not matter *)
Lemma inv2_iss s s0 : inv2 s -> s0 = mkep (rd s) (wr s) (hup s0) (sf s0) (er s0) (ew s0) (bufr s0) (bufw s0) (rev s) (wev s) (et s0) (err s0) (rrdy s) (wrdy s) (rrdy2 s) (wrdy2 s) (loc s) (pc s) (reg s) (lin s) (lout s) (lhup s0) (edge s) (iss s0) (done_ s0) (sup s0) (shut s) -> inv2 s0.
Proof. intros HJ ->. dj HJ. constructor; assumption. Qed.
Lemma step2_read s i direct buf r s' o : inv s -> inv2 s -> rd s = false -> step false s (ERead i direct buf true r) = Ok s' o -> inv2 s'.
Proof.
  intros [HC HP] HJ Hrd. cbn [step]. destruct (busy s || _) eqn:Eb; [done|]. apply orb_false_iff in Eb as [Eb Ei]. rewrite Hrd.
  assert (E7: rrdy2 s = false) by (destruct (rrdy2 s) eqn:E; [|done]; apply (i_r2 _ _ _ HC) in E; naive_solver congruence).
  set (s1 := s_hup _ _).
  assert (H1: core false true s1 /\ (rrdy s = true -> core true true s1)).
  { subst s1. dc HC. unfold accept. split; [|intros Hr; specialize (G10 Hr)]; (ds s; unfold cnt in *; sm; destruct hup0; [destruct G1 as [_ ->]; [done|]|]; subst; fin). }
  destruct H1 as [H1 H2].
  assert (H3: inv2 (s_rd false s1)) by (eapply inv2_iss; [exact HJ|]; subst s1; unfold accept; sm; by rewrite Hrd).
  assert (E: rrdy s1 = rrdy s /\ rd s1 = true /\ hup s1 = false /\ rrdy2 s1 = rrdy2 s /\ pc s1 = pc s /\ wr s1 = wr s) by (subst s1; done).
  destruct E as (E1 & E2 & E3 & E4 & E5 & E6). clearbody s1.
  assert (Eb1: busy s1 = false) by (unfold busy in *; by rewrite E5).
  rewrite E1. destruct (rrdy s) eqn:Er.
  - destruct direct.
    + destruct (read_event _ _ _) as [s2|] eqn:E0; [|done]. intros [= <- <-].
      apply read_event_cases in E0; [|by apply H2|apply (j_reg _ H3)|done]. clear H1 H2 HC HJ HP. dj H3.
      destruct E0 as [(v & l & -> & Hl)|[Hl ->]]; [|unfold rwl]; un; ds s1; sm; bs.
      * fin2.
      * fin2.
    + intros [= <- <-]. clear H1 H2 HC HJ HP. dj H3. un. ds s1; sm; bs. fin2.
  - intros [= <- <-]. apply read_wait_ok; try done. congruence.
Qed.
Lemma step2_write s i direct buf file r s' o : inv s -> inv2 s -> wr s = false -> step false s (EWrite i direct buf file true r) = Ok s' o -> inv2 s'.
Proof.
  intros [HC HP] HJ Hrd. cbn [step]. destruct (busy s || _ || _) eqn:Eb; [done|]. apply orb_false_iff in Eb as [Eb Ef]. apply orb_false_iff in Eb as [Eb Ei]. rewrite Hrd.
  assert (Hsf: sf s = false) by (destruct (sf s) eqn:E; [|done]; apply (i_sf _ _ _ HC) in E; naive_solver congruence). rewrite Hsf.
  rewrite (i_w2 _ _ _ HC), andb_false_r. cbn [orb].
  set (s1 := s_sf _ _).
  assert (H1: core true false s1 /\ (wrdy s = true -> core true true s1)).
  { subst s1. dc HC. unfold accept. split; [|intros Hr; specialize (G11 Hr)]; (ds s; unfold cnt in *; sm; destruct hup0; [destruct G1 as [-> _]; [done|]|]; subst;
    destruct file, buf; try done; fin). }
  destruct H1 as [H1 H2].
  assert (H3: inv2 (s_wr false s1)) by (eapply inv2_iss; [exact HJ|]; subst s1; unfold accept; sm; by rewrite Hrd).
  assert (E: wrdy s1 = wrdy s /\ wr s1 = true /\ hup s1 = false /\ pc s1 = pc s /\ rd s1 = rd s) by (subst s1; done).
  destruct E as (E1 & E2 & E3 & E5 & E6). clearbody s1.
  assert (Eb1: busy s1 = false) by (unfold busy in *; by rewrite E5).
  rewrite E1. destruct (wrdy s) eqn:Er.
  - destruct direct.
    + intros [= <- <-].
      destruct (write_event_cases r s1) as [(v & l & -> & Hl)|[Hl ->]]; [by apply H2|apply (j_reg _ H3)|by rewrite E2| |unfold rwl, regw]; pose proof (i_rr _ _ _ H1) as G2; clear H1 H2 HC HJ HP; dj H3; un; ds s1; sm; bs.
      * fin2.
      * destruct wev0; sm; fin2.
    + intros [= <- <-]. clear H1 H2 HC HJ HP. dj H3. un. ds s1; sm; bs. fin2.
  - intros [= <- <-]. apply write_wait_ok; done.
Qed.

Lemma step2_ok s e s' o : inv s -> inv2 s -> normal s e -> okev e -> step false s e = Ok s' o -> inv2 s'.
Proof.
  intros HI HJ Hn Ho. pose proof HI as [HC HP]. destruct e; cbn [okev] in Ho; subst.
  - by apply step2_read.
  - by apply step2_write.
  - cbn [step]. destruct (busy s || _) eqn:Eb; [done|]. apply orb_false_iff in Eb as [Eb Ei]. destruct Hn as (N1 & N2 & N3 & N4).
    assert (N5: wev s = false) by (destruct (wev s) eqn:E; [|done]; apply (i_wev _ _ _ HC) in E; congruence).
    pose proof (i_rr _ _ _ HC) as G1. pose proof (i_r2 _ _ _ HC) as G2. clear HI HC HP. dj HJ. unfold add_event. ds s. un. sm. bs. sm. subst. cbn [Bool.eqb]. intros [= <- <-]. fin2.
  - cbn [step]. destruct (busy s || _) eqn:Eb; [done|]. apply orb_false_iff in Eb as [Eb Ei].
    destruct (rd s || wr s) eqn:Ep; [by intros [= <- <-]|]. apply orb_false_iff in Ep as [N1 N2].
    pose proof (i_wev _ _ _ HC) as G1. clear HI HC HP. dj HJ. unfold add_event. ds s. un. sm. bs. sm.
    destruct (rev0 || wev0) eqn:Er; [intros [= <- <-]; fin2|]. apply orb_false_iff in Er as [-> ->]. sm. subst. cbn [Bool.eqb]. intros [= <- <-]. fin2.
  - cbn [step]. destruct (busy s) eqn:Eb; [done|]. destruct (hup s) eqn:Eh; sm; [|by intros [= <- <-]].
    destruct (i_hup _ _ _ HC Eh) as [N1 N2]. rewrite N1, N2. sm. unfold remove.
    clear HI HC HP. dj HJ. ds s. un. sm. bs. sm. destruct (rev0 || wev0); sm; intros [= <- <-]; fin2.
  - cbn [step]. destruct (busy s) eqn:Eb; [done|]. destruct Hn as (N1 & N2 & N3). unfold remove.
    clear HI HC HP. dj HJ. ds s. un. sm. bs. sm. destruct (rev0 || wev0); sm; intros [= <- <-]; fin2.
  - cbn [step]. destruct (busy s || _) eqn:Eb; [done|]. apply orb_false_iff in Eb as [Eb Ei]. destruct Hn as [N1 N2]. rewrite N1.
    assert (E7: rrdy2 s = false) by (destruct (rrdy2 s) eqn:E; [|done]; apply (i_r2 _ _ _ HC) in E; naive_solver congruence). rewrite E7. sm.
    clear HI HC HP. dj HJ. ds s. un. sm. bs. sm. intros [= <- <-]. fin2.
  - done.
  - cbn [step]. destruct (pc s) eqn:Ep; try done. destruct (reg s) as [out|] eqn:Er; [|done]. destruct (edge s) eqn:Ee; [|done].
    pose proof (report_eq false s out Ep Er Ee) as Hq. cbn [step] in Hq. rewrite Ep, Er, Ee in Hq. rewrite Hq. clear Hq. intros [= <- <-].
    pose proof (i_hup _ _ _ HC) as G1. clear HI HC HP. dj HJ. unfold reported, to_ready. ds s. un. sm. bs. subst pc0. sm.
    destruct rev0; [|congruence]. assert (wev0 = out) as -> by congruence.
    clear - J1 J4 J5 J6 J7. set (tr := (_ || _) || (lin0 && rd0)).
    constructor; un; sm.
    + done.
    + intros _ H1 ->. by rewrite orb_true_r in H1.
    + intros -> H1 ->. by rewrite orb_true_r in H1.
    + intros ->. destruct lin0.
      * left. subst tr. rewrite !orb_true_r. auto.
      * rewrite orb_false_r. destruct J4 as [[-> H]|H]; [done| |by right]. left. split; [by destruct tr|done].
    + intros ->. destruct (lhup0 || (out && lout0)) eqn:E.
      * left. replace (wrdy0 || lhup0 || (out && lout0)) with true by (by rewrite <- orb_assoc, E, orb_true_r).
        split; [|done]. subst tr. destruct lhup0; [done|]. by destruct out, lout0.
      * apply orb_false_iff in E as [-> E]. rewrite E, !orb_false_r. destruct J5 as [[-> H]|[H|[-> H]]]; [done| |done|].
        -- left. split; [by destruct tr|done].
        -- right; right. cbn [andb] in E. by rewrite E.
    + intros H. destruct tr; [by left|auto].
    + intros H. destruct tr; [by left|auto].
    + done.
  - cbn [step]. destruct (pc s) eqn:Ep; try done. destruct (decide _) as [El|]; [|done]. intros [= <- <-].
    pose proof (i_w2 _ _ _ HC) as G1. clear HI HC HP. dj HJ. unfold take_snap. ds s. un. sm. subst. sm.
    constructor; un; sm; rewrite ?andb_true_iff, ?orb_true_iff, ?orb_false_iff in *; try so; try (destruct rrdy0, rrdy20; so).
  - cbn [step]. destruct (pc s) as [|n| |] eqn:Ep; try done. unfold pcok in HP. rewrite Ep in HP. subst n. unfold take_snap. sm.
    destruct (_ && _) eqn:E.
    + apply andb_prop in E as [_ E]. intros [= <- <-].
      pose proof (i_rr _ _ _ HC) as G2. pose proof (i_wev _ _ _ HC) as G3. 
      destruct (write_event_cases r s) as [(v & l & -> & Hl)|[Hl ->]]; [done|apply (j_reg _ HJ)|done| |unfold rwl, regw].
      all: clear HI HC; dj HJ; unfold take_snap in *; ds s; un; sm; subst; sm.
      * fin2.
      * destruct wev0; sm; fin2.
    + intros [= <- <-]. pose proof (i_w2 _ _ _ HC) as G1. clear HI HC. dj HJ. unfold take_snap in *. ds s. un. sm. subst. sm.
      constructor; un; sm; try so. intros; subst. sm. rewrite ?orb_false_r in *. destruct wrdy0; sm; so.
  - cbn [step]. destruct (pc s) as [| |n|] eqn:Ep; try done. unfold pcok in HP. rewrite Ep in HP. destruct HP as (P1 & P2 & P3).
    destruct (_ && _) eqn:E.
    + apply andb_prop in E as [E0 E]. destruct (read_event _ _ _) as [s2|] eqn:E2; [|done]. intros [= <- <-].
      apply read_event_cases in E2; [|done|apply (j_reg _ HJ)|by apply P1]. clear HI HC. dj HJ.
      destruct E2 as [(v & l & -> & Hl)|[Hl ->]]; [|unfold rwl]; ds s; un; sm; subst; sm; fin2.
    + intros [= <- <-]. clear HI HC. dj HJ. ds s; un; sm; subst; sm. constructor; un; sm; try so.
      intros Hr. destruct (J4 Hr) as [H|[H|H]]; [so| |so]. rewrite andb_comm in H. congruence.
  - cbn [step]. destruct (pc s) as [| | |n] eqn:Ep; try done. unfold pcok in HP. rewrite Ep in HP. destruct HP as (P1 & P2 & P3).
    intros [= <- <-]. clear HI HC. dj HJ. ds s; un; sm; subst; sm.
    destruct (_ && _ && _) eqn:E.
    { apply andb_prop in E as [_ E]. apply bool_decide_eq_true_1 in E. clear P1 P2 P3. subst. constructor; un; sm; try so. }
    constructor; un; sm; try so; intros Hr.
    + destruct (J6 Hr) as [H|[H|H]]; [so|so|]. rewrite H in *. sm. rewrite (P3 eq_refl) in E. sm. left. intros ->. by rewrite bool_decide_true in E.
    + destruct (J7 Hr) as [H|[H|H]]; [so|so|]. rewrite H, orb_true_r in *. rewrite (P3 eq_refl) in E. sm. left. intros ->. by rewrite bool_decide_true in E.
  - cbn [step]. destruct (pc s) eqn:Ep; try done. destruct (decide _) as [El|]; [|done]. sm. intros [= <- <-].
    pose proof (i_wev _ _ _ HC) as G3. clear HI HC HP. dj HJ. ds s; un; sm; subst; sm.
    destruct rev0; sm; constructor; un; sm; rewrite ?orb_true_r; try so; destruct wev0; so.
  - intros [= <- <-]. pose proof (i_wev _ _ _ HC) as G3. clear HI HC HP. dj HJ. ds s; un; sm; subst; sm.
    destruct rev0; sm; constructor; un; sm; rewrite ?orb_true_r; try so.
  - cbn [step]. intros [= <- <-]. pose proof (i_wev _ _ _ HC) as G3. clear HI HC HP. dj HJ. ds s; un; sm; subst; sm.
    destruct rev0, wev0; sm; constructor; un; sm; rewrite ?orb_true_r; try so.
  - intros [= <- <-]. pose proof (i_wev _ _ _ HC) as G3. clear HI HC HP. dj HJ. ds s; un; sm; subst; sm.
    destruct rev0; sm; constructor; un; sm; rewrite ?orb_true_r; try so.
  - intros [= <- <-]. clear HI HC HP. dj HJ. ds s; un; sm; subst; sm.
    destruct rev0; sm; constructor; un; sm; rewrite ?orb_true_r, ?orb_false_r; try so.
Qed.
