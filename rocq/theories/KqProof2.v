(** Invariants of the kqueue socket model: readiness is not lost. *)
From Verif Require Import KqModel KqProof.
Local Open Scope Z_scope.

(** kevent accepts every change *)
Definition okev (e : ev) : Prop :=
  match e with
  | ERead _ _ _ ok _ | EREv ok _ => ok = true
  | EWrite _ _ _ okr okw _ | EConnect _ okr okw | EWEv okr okw _ => okr = true /\ okw = true
  | _ => True
  end.
Definition prog_r (s : kq) : bool := match pc s with PW n | PR n => n_rd n && n_r n | _ => false end.
Definition prog_w (s : kq) : bool := match pc s with PW n => n_wr n && n_w n | _ => false end.
Definition keep_r (s : kq) : bool := match pc s with PW n | PR n | PF n => n_rd n && n_et n | PIdle => false end.
Definition keep_w (s : kq) : bool := match pc s with PW n => n_wr n && (n_w n || n_et n) | PR n | PF n => n_wr n && n_et n | PIdle => false end.
Record inv2 (s : kq) : Prop := mkinv2 {
  j_kr : kr s = rev s;
  j_kw : kw s = wev s;
  j_er : rev s = true -> rrdy s = false -> lin s = true -> pr s = true;
  j_ew : wev s = true -> wrdy s = false -> lout s = true -> pw s = true;
  j_read : rd s = true -> (loc s = LReady /\ (rrdy s = true \/ rrdy2 s = true)) \/ prog_r s = true \/ (rrdy s = false /\ rrdy2 s = false);
  j_write : wr s = true -> (loc s = LReady /\ (wrdy s = true \/ wrdy2 s = true)) \/ prog_w s = true \/ (wrdy2 s = false /\ wev s = true /\ (lout s = true -> pw s = true));
  j_lr : rd s = true -> loc s <> LNone \/ shut s = true \/ keep_r s = true;
  j_lw : wr s = true -> loc s <> LNone \/ shut s = true \/ keep_w s = true }.
Lemma inv2_init : inv2 kq_init.
Proof. constructor; cbn; done. Qed.
Ltac dj HJ := destruct HJ as [J1 J2 J3 J4 J5 J6 J7 J8].
Lemma wait_read_ok s : wait_read true s = s_loc (lset (loc s)) (if rev s then s else add_r true s).
Proof. rewrite wait_read_cases. by destruct (rev s). Qed.
Lemma wait_write_ok s : wait_write true true s = s_loc (lset (loc s)) (if wev s then s else add_w true (if rev s then s else add_r true s)).
Proof. rewrite wait_write_cases. by destruct (wev s), (rev s). Qed.
Lemma lset_some l : lset l <> LNone. Proof. unfold lset. destruct (decide _); done. Qed.
Lemma lset_rdy l : lset l = LReady <-> l = LReady. Proof. unfold lset. destruct (decide _) as [->|]; done. Qed.
Lemma read_event_cases r s : core s -> rd s = true -> 
  (exists v l, read_event true r s = Some (call (er s) v (s_lin l (s_rrdy2 false (s_rd false s)))) /\ (l = true -> lin s = true)) \/
  (lin s = false /\ br s = true /\ read_event true r s = Some (s_loc (lset (loc s)) (s_rrdy2 false (s_rrdy false s)))).
Proof.
  intros HC Hrd. unfold read_event. assert (Hret: et s = true) by (rewrite (i_et _ HC); by apply (i_rd _ HC)). rewrite Hret.
  pose proof (i_rd _ HC Hrd) as Hrv.
  assert (Hl: forall s0, s0 = s_lin (lin s0) s0) by (intros []; done).
  sm. destruct (br s) eqn:Eb; sm; [|left; eexists _, (lin s); split; [rewrite (Hl s) at 1; reflexivity|done]].
  destruct r as [n more|n|]; cbn [try_in]; sm; [destruct (lin s) eqn:El; sm..|].
  - left. eexists _, _. split; [reflexivity|]. done.
  - right. split; [done|split; [done|]]. rewrite wait_read_ok. sm. rewrite Hrv. ds s. sm. subst. reflexivity.
  - left. eexists _, _. split; [reflexivity|]. done.
  - right. split; [done|split; [done|]]. rewrite wait_read_ok. sm. rewrite Hrv. ds s. sm. subst. reflexivity.
  - left. eexists _, (lin s). split; [rewrite (Hl s) at 1; reflexivity|done].
Qed.
Ltac un := unfold prog_r, prog_w, keep_r, keep_w in *; sm.
Ltac rl := rewrite ?lset_rdy in *.
Ltac t1 := intros; bs; try discriminate; rewrite ?orb_true_r in *; auto; try tauto; try congruence.
Ltac f2 := sm; rl; intros; bs; b1; auto using lset_some; try solve [left; apply lset_some]; b2; rewrite ?orb_true_r, ?orb_false_r; try reflexivity; try solve [right; right; split_and!; t1]; try (do 3 b3; fail).
Ltac fin2 := constructor; un; f2.
(** what happens to the two halves *)
Lemma inv2_rd0 s : inv2 s -> inv2 (s_rd false s).
Proof. intros HJ. dj HJ. ds s. un. constructor; un; auto; done. Qed.
Lemma inv2_wr0 s : inv2 s -> inv2 (s_wr false s).
Proof. intros HJ. dj HJ. ds s. un. constructor; un; auto; done. Qed.
Lemma inv2_rset i b s : inv2 s -> inv2 (s_rd false (setr i b s)).
Proof. intros HJ. dj HJ. unfold setr. ds s. un. constructor; un; auto; done. Qed.
Lemma inv2_wset i b s : inv2 s -> inv2 (s_wr false (setw i b s)).
Proof. intros HJ. dj HJ. unfold setw. destruct b; ds s; un; constructor; un; auto; done. Qed.
Lemma inv2_rdone v l s : inv2 (s_rd false s) -> (l = true -> lin s = true) -> inv2 (call (er s) v (s_lin l (s_rrdy2 false (s_rd false s)))).
Proof. intros HJ H1. dj HJ. ds s. un. fin2. Qed.
Lemma inv2_rwait s : inv2 (s_rd false s) -> lin s = false -> inv2 (s_loc (lset (loc s)) (s_rrdy2 false (s_rrdy false s))).
Proof. intros HJ H1. dj HJ. ds s. un. fin2. Qed.
Lemma inv2_wdone v l d s : inv2 (s_wr false s) -> (l = true -> lout s = true) -> (d = true -> wrdy s = true) -> (d = false -> l = true -> wrdy s = false) ->
  inv2 (call (ew s) v (s_lout l (s_wrdy d (s_wrdy2 false (s_sf false (s_wr false s)))))).
Proof. intros HJ H1 H2 H3. dj HJ. ds s. un. fin2. Qed.
(** the write waits with both filters *)
Lemma inv2_wwait s : inv2 (s_wr false s) -> rev s = true -> wrdy2 s = false -> (lout s = false \/ wrdy s = false) -> inv2 (wait_write true true (s_wrdy false s)).
Proof.
  intros HJ Hr H1 H2. rewrite wait_write_ok. sm. rewrite Hr. dj HJ. destruct (wev s) eqn:Ew; unfold add_w; ds s; un; fin2.
Qed.
(** a new write waits *)
Lemma inv2_wnew i b s : inv2 s -> core s -> wr s = false -> wrdy s = false -> inv2 (wait_write true true (setw i b s)).
Proof.
  intros HJ HC H1 H2. rewrite wait_write_ok. destruct (setw_fields i b s) as (F1 & F2 & F3 & F4 & F5 & F6 & F7 & F8 & F9 & F10 & F11 & F12).
  rewrite F4, F5, F6. pose proof (i_w2 _ HC) as G1. pose proof (i_wev _ HC) as G2. pose proof (i_rr _ HC) as G3. clear HC F1 F2 F3 F4 F5 F6 F7 F8 F9 F10 F11 F12.
  assert (W2: wrdy2 s = false) by (destruct (wrdy2 s); [|done]; destruct (G1 eq_refl); congruence). clear G1.
  dj HJ. destruct (wev s) eqn:Ew; [|destruct (rev s) eqn:Er]; unfold setw, add_w, add_r; destruct b; ds s; un; fin2.
Qed.
Lemma inv2_wready i b s : inv2 s -> wr s = false -> wrdy s = true -> inv2 (s_loc LReady (setw i b s)).
Proof. intros HJ H1 H2. dj HJ. unfold setw. destruct b; ds s; un; fin2. Qed.
Lemma inv2_rnew i b s : inv2 s -> core s -> rd s = false -> rrdy s = false -> inv2 (wait_read true (setr i b s)).
Proof.
  intros HJ HC H1 H2. rewrite wait_read_ok. pose proof (i_r2 _ HC) as G1. pose proof (i_wev _ HC) as G2. clear HC.
  assert (W2: rrdy2 s = false) by (destruct (rrdy2 s); [|done]; destruct (G1 eq_refl); congruence). clear G1.
  dj HJ. change (rev (setr i b s)) with (rev s). destruct (rev s) eqn:Er; unfold setr, add_r; ds s; un; fin2.
Qed.
Lemma inv2_rready i b s : inv2 s -> rd s = false -> rrdy s = true -> inv2 (s_loc LReady (setr i b s)).
Proof. intros HJ H1 H2. dj HJ. unfold setr. ds s; un; fin2. Qed.
Ltac nc Eb Ei Ecl := unfold no_call in Eb; apply orb_false_iff in Eb as [Eb Ei]; apply orb_false_iff in Eb as [Eb Ecl].
Lemma step2_ok s e s' o : inv s -> inv2 s -> normal s e -> okev e -> step false s e = Ok s' o -> inv2 s'.
Proof.
  intros HI HJ Hn Ho. pose proof HI as [HC HP]. destruct e; cbn [okev] in Ho; cbn [step].
  - destruct (no_call i s) eqn:Eb; [done|]. nc Eb Ei Ecl. cbn [normal] in Hn. rewrite Hn. subst ok.
    change (s_rd true _) with (setr i buf s). change (rrdy (setr i buf s)) with (rrdy s).
    destruct (rrdy s) eqn:Er; [destruct direct|].
    + assert (HC1: core (setr i buf s)) by (apply core_setr; [done|done|apply (i_rr _ HC Er)|done]).
      destruct (read_event_cases r (setr i buf s) HC1 eq_refl) as [(v & l & -> & Hl)|(Hl & Hb & ->)]; intros [= <- <-].
      * by apply (inv2_rdone v l (setr i buf s)); [apply inv2_rset|].
      * by apply (inv2_rwait (setr i buf s)); [apply inv2_rset|].
    + intros [= <- <-]. by apply inv2_rready.
    + intros [= <- <-]. by apply inv2_rnew.
  - destruct (no_call i s) eqn:Eb; [done|]. nc Eb Ei Ecl. destruct Hn as [Hn Hf]. destruct Ho as [-> ->]. rewrite Hn.
    destruct (false || _); [done|]. change (match b with BFile => _ | _ => _ end) with (setw i b s).
    destruct (setw_fields i b s) as (F1 & F2 & F3 & F4 & F5 & F6 & F7 & F8 & F9 & F10 & F11 & F12). rewrite F10.
    assert (W2: wrdy2 s = false) by (destruct (wrdy2 s) eqn:E; [|done]; destruct (i_w2 _ HC E); congruence).
    assert (Hsf: sf s = false) by (destruct (sf s) eqn:E; [|done]; destruct (i_sf _ HC E); congruence).
    destruct (wrdy s) eqn:Er; [destruct direct|].
    + assert (HC1: core (setw i b s)) by (apply core_setw; [done|done|apply (i_wrr _ HC Er)|done]).
      destruct (write_event_cases false true true r (setw i b s) HC1 F1) as [(v & l & d & -> & L1 & L2 & L3 & L4)|[(-> & _ & _ & Hl)|(? & ? & _)]]; [| | |done].
      * intros X _. apply Hf; [|done]. rewrite F12, Hsf in X. by destruct b.
      * intros [= <- <-]. apply inv2_wdone; [by apply inv2_wset|done..].
      * intros [= <- <-]. apply inv2_wwait; [by apply inv2_wset|rewrite F4; by apply (i_wrr _ HC)|congruence|]. naive_solver congruence.
    + intros [= <- <-]. by apply inv2_wready.
    + intros [= <- <-]. by apply inv2_wnew.
  - destruct (no_call i s) eqn:Eb; [done|]. nc Eb Ei Ecl. destruct Hn as (N1 & N2 & N3). destruct Ho as [-> ->].
    assert (N5: wev s = false) by (destruct (wev s) eqn:E; [|done]; apply (i_wev _ HC) in E; congruence).
    assert (W2: wrdy2 s = false) by (destruct (wrdy2 s) eqn:E; [|done]; destruct (i_w2 _ HC E); congruence).
    assert (G1: rrdy s = false) by (destruct (rrdy s) eqn:E; [|done]; apply (i_rr _ HC) in E; congruence).
    rewrite N1, N2, N3, N5. cbn [orb]. unfold add_rw, add_r, add_w. clear HI HC HP. dj HJ. ds s. un. subst. intros [= <- <-]. fin2.
  - destruct (busy s || cl s) eqn:Eb; [done|]. destruct Hn as (N1 & N2). destruct (decide _) as [El|El]; [|done].
    clear HI HC HP. dj HJ. ds s. un. subst. destruct (rev0 || wev0) eqn:Er; intros [= <- <-]; [fin2|]. apply orb_false_iff in Er as [-> ->]. fin2.
  - destruct (no_call i s) eqn:Eb; [done|]. nc Eb Ei Ecl. destruct Hn as (N1 & N2). destruct (rd s || rrdy2 s); [done|]. intros [= <- <-].
    clear HI HC HP. dj HJ. ds s. un. subst. fin2.
  - destruct (no_call i s) eqn:Eb; [done|]. nc Eb Ei Ecl. cbn [normal] in Hn. destruct (wr s || wrdy2 s); [done|]. intros [= <- <-].
    clear HI HC HP. dj HJ. ds s. un. subst. fin2.
  - destruct (pc s) eqn:Ep; try done. destruct (pr s) eqn:Er; [|done]. cbn [negb]. intros [= <- <-]. clear HI HC HP. dj HJ. ds s. un. subst.
    destruct rd0; sm; fin2.
  - destruct (pc s) eqn:Ep; try done. destruct (pw s) eqn:Er; [|done]. cbn [negb]. intros [= <- <-]. clear HI HC HP. dj HJ. ds s. un. subst.
    destruct wr0; sm; fin2.
  - destruct (pc s) eqn:Ep; try done. destruct (decide _) as [El|]; [|done]. intros [= <- <-].
    pose proof (i_rd _ HC) as G1. pose proof (i_wr _ HC) as G2. pose proof (i_et _ HC) as G3. pose proof (i_r2 _ HC) as G4. pose proof (i_w2 _ HC) as G5.
    clear HI HC HP. unfold take_snap. dj HJ. ds s. un. subst. constructor; un; try assumption; intros; bs; sm; rewrite ?orb_true_r; auto.
    + destruct rrdy0, rrdy20; auto.
    + destruct wrdy0, wrdy20; auto. right; right. destruct J6 as [[_ [?|?]]|[?|?]]; done.
    + destruct wrdy0, wrdy20; sm; auto. destruct G2; [done|]. auto.
  - destruct (pc s) as [|n| |] eqn:Ep; try done. unfold pcok in HP. rewrite Ep in HP. destruct HP as (-> & Hl & Hcl). unfold take_snap. sm. destruct Ho as [-> ->].
    destruct (_ && _) eqn:E.
    + apply andb_prop in E as [E0 E].
      assert (HB: forall s2, inv2 s2 -> pc s2 = pc s -> (wr s2 = true -> (loc s2 = LReady /\ (wrdy s2 = true \/ wrdy2 s2 = true)) \/ (wrdy2 s2 = false /\ wev s2 = true /\ (lout s2 = true -> pw s2 = true))) ->
        (wr s2 = true -> loc s2 <> LNone) -> inv2 (s_pc (PR (mksn (rd s) false (et s) (rrdy s || rrdy2 s) (wrdy s || wrdy2 s))) s2)).
      { intros s2 H2 Hp2 Hw Hw2. unfold take_snap in Ep. dj H2. unfold prog_r, prog_w, keep_r, keep_w in *. rewrite Hp2, Ep in *. constructor; un; auto. intros X. destruct (Hw X); auto. }
      destruct (write_event_cases true true true r s HC E) as [(v & l & d & -> & L1 & L2 & L3 & L4)|[(-> & W2 & _ & Hlo)|(W1 & W2 & W3 & W4 & ->)]]; [done| | |].
      * intros [= <- <-]. apply HB; sm; try done. apply inv2_wdone; [by apply inv2_wr0|done..].
      * assert (Hrv: rev s = true) by (destruct (i_wr _ HC E); congruence).
        intros [= <- <-]. apply HB.
        -- apply inv2_wwait; [by apply inv2_wr0|done|done|]. naive_solver.
        -- rewrite wait_write_ok. sm. rewrite Hrv. destruct (wev s); [done|]. by unfold add_w; sm.
        -- rewrite wait_write_ok. sm. rewrite Hrv. intros _. right. pose proof (j_ew _ HJ) as X. destruct (wev s) eqn:Ew.
           ++ sm. split_and!; [done|done|]. intros Y. destruct Hlo as [?|[_ ?]]; [congruence|auto].
           ++ unfold add_w. sm. split_and!; [done|done|]. intros ->. by rewrite orb_true_r.
        -- rewrite wait_write_ok. sm. intros _. apply lset_some.
      * intros [= <- <-]. apply HB; sm; auto. clear HB. clear HI HC. dj HJ. ds s. un. subst. fin2.
    + intros [= <- <-]. clear HI HC. unfold take_snap in Ep. dj HJ. ds s. un. subst. sm.
      constructor; un; try assumption; intros; bs; sm; rewrite ?orb_true_r in *; auto.
      * rewrite andb_true_r in E. rewrite E in *. apply orb_false_iff in E as [-> ->]. destruct J6 as [[? _]|[?|?]]; [done|done|auto].
      * rewrite andb_true_r in E. rewrite E in *. apply orb_false_iff in E as [-> ->]. auto.
  - destruct (pc s) as [| |n|] eqn:Ep; try done. unfold pcok in HP. rewrite Ep in HP. destruct HP as (P1 & P2). subst ok.
    destruct (_ && _) eqn:E.
    + apply andb_prop in E as [E0 E]. destruct (P1 E) as [P3 P4]. destruct (cl s) eqn:Ecl; [done|].
      assert (HB: forall s2, inv2 s2 -> pc s2 = pc s -> (rd s2 = true -> rrdy s2 = false /\ rrdy2 s2 = false /\ loc s2 <> LNone) -> inv2 (s_pc (PF (mksn false (n_wr n) (n_et n) (n_r n) (n_w n))) s2)).
      { intros s2 H2 Hp2 Hw. dj H2. unfold prog_r, prog_w, keep_r, keep_w in *. rewrite Hp2, Ep in *. constructor; un; auto; intros X; destruct (Hw X) as (? & ? & ?); auto. }
      destruct (read_event_cases r s HC P3) as [(v & l & -> & Hl)|(Hl & Hb & ->)]; intros [= <- <-].
      * apply HB; [|done|done]. apply inv2_rdone; [by apply inv2_rd0|done].
      * apply HB; [|done|]. { apply inv2_rwait; [by apply inv2_rd0|done]. } sm. intros _. split_and!; [done|done|apply lset_some].
    + intros [= <- <-]. clear HI HC. dj HJ. ds s. un. subst. sm. constructor; un; auto. intros X. destruct (J5 X) as [?|[Y|?]]; auto. rewrite andb_comm in Y. congruence.
  - destruct (pc s) as [| | |n] eqn:Ep; try done. unfold pcok in HP. rewrite Ep in HP. destruct HP as (P1 & P2).
    destruct (_ && _) eqn:E.
    + destruct (cl s); [done|]. intros [= <- <-]. rewrite list_rw_eq. clear HI HC. dj HJ. ds s. un. subst. sm. constructor; un; rl; auto using lset_some.
    + intros [= <- <-]. clear HI HC. dj HJ. ds s. un. subst. sm. constructor; un; auto.
      * intros X. destruct (J7 X) as [?|[?|Y]]; auto. destruct (n_rd n), (n_et n); done.
      * intros X. destruct (J8 X) as [?|[?|Y]]; auto. destruct (n_wr n), (n_et n), (n_rd n); done.
  - destruct (pc s) eqn:Ep; try done. destruct (decide _) as [El|]; [|done]. cbn [andb]. intros [= <- <-].
    clear HI HC HP. dj HJ. ds s. un. subst. sm. constructor; un; auto; try (by destruct El; congruence).
    + intros X. destruct (J5 X) as [[Y _]|[?|?]]; [destruct El; congruence|auto..].
    + intros X. destruct (J6 X) as [[Y _]|[?|(? & ? & _)]]; [destruct El; congruence|auto..].
  - destruct (cl s); [done|]. intros [= <- <-]. clear HI HC HP. dj HJ. ds s. un. subst. constructor; un; auto.
  - destruct (cl s); [done|]. intros [= <- <-]. clear HI HC HP. dj HJ. ds s. un. subst. constructor; un; auto. intros X. destruct (J6 X) as [?|[?|(? & ? & _)]]; auto.
  - destruct (cl s); [done|]. intros [= <- <-]. clear HI HC HP. dj HJ. ds s. un. subst. constructor; un; auto. intros X. destruct (J6 X) as [?|[?|(? & ? & _)]]; auto.
Qed.
