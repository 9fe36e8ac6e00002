(** Invariants of the epoll socket model: the readhup request. *)
From Verif Require Import EpollModel EpollProof EpollProof2.
Local Open Scope Z_scope.

Definition rdleft (s : ep) : bool := rd s && negb (match pc s with PR n => n_rd n && n_r n | _ => false end).
Record inv3 (s : ep) : Prop := mkinv3 {
  k_lr : loc s = LReady -> wr s = true \/ lhup s = true \/ rdleft s = true;
  k_h : forall n, pc s = PW n -> n_hup n = true -> lhup s = true }.
Definition inv4 (s : ep) : Prop := hup s = true -> (loc s = LReady /\ wrdy s = true) \/ prog_h s = true \/ (lhup s = true -> edge s = true).
Lemma inv3_init : inv3 ep_init. Proof. constructor; done. Qed.
Lemma inv4_init : inv4 ep_init. Proof. done. Qed.

Ltac dk HK := destruct HK as [K1 K2].
Ltac un3 := unfold rdleft, prog_h, busy, accept, notify in *.
Ltac fin3 := constructor; un3; sm; rl; try discriminate; try so;
  try match goal with H : context [match ?p with PIdle => _ | _ => _ end] |- _ => destruct p; try discriminate; sm; try so | |- context [match ?p with PIdle => _ | _ => _ end] => destruct p; try discriminate; sm; try so end.

Lemma step3_ok s e s' o : inv s -> inv2 s -> inv3 s -> normal s e -> okev e -> step false s e = Ok s' o -> inv3 s'.
Proof.
  intros HI HJ HK Hn Ho. pose proof HI as [HC HP]. pose proof (j_reg _ HJ) as Hj. destruct e; cbn [okev] in Ho; subst.
  - cbn [step]. destruct (busy s || _) eqn:Eb; [done|]. apply orb_false_iff in Eb as [Eb Ei]. cbn [normal] in Hn. rewrite Hn.
    assert (E7: rrdy2 s = false) by (destruct (rrdy2 s) eqn:E; [|done]; apply (i_r2 _ _ _ HC) in E; naive_solver congruence).
    assert (HP': match pc s with PR n => n_rd n = false | _ => True end).
    { unfold pcok in HP. destruct (pc s); try done. destruct HP as [HP _]. destruct (n_rd n); [|done]. specialize (HP eq_refl). congruence. }
    set (s1 := s_hup _ _).
    assert (H2: rrdy s = true -> core true true s1).
    { subst s1. dc HC. unfold accept. intros Hr; specialize (G10 Hr); (ds s; unfold cnt in *; sm; destruct hup0; [destruct G1 as [_ ->]; [done|]|]; subst; fin). }
    assert (H3: rrdy s1 = rrdy s /\ rd s1 = true /\ loc s1 = loc s /\ pc s1 = pc s /\ wr s1 = wr s /\ lhup s1 = lhup s /\ reg s1 = reg s /\ rev s1 = rev s /\ wev s1 = wev s) by (subst s1; done).
    destruct H3 as (H3 & H4 & H5 & H6 & H7 & H8 & H9 & H10 & H11). clearbody s1. rewrite H3.
    assert (HB: forall b s2, rd s2 = b -> pc s2 = pc s -> wr s2 = wr s -> lhup s2 = lhup s -> (b = false -> loc s2 = LReady -> loc s = LReady) -> inv3 s2).
    { intros b s2 B1 B2 B3 B4 B5. dk HK. constructor; unfold rdleft in *; rewrite B2, ?B3, ?B4.
      - rewrite Hn in K1. cbn [andb] in K1. rewrite B1. destruct b; [|intros L; specialize (K1 (B5 eq_refl L)); tauto].
        intros _. right; right. destruct (pc s); try done. rewrite HP'. done.
      - exact K2. }
    destruct (rrdy s) eqn:Er; [destruct direct|].
    + destruct (read_event _ _ _) as [s2|] eqn:E0; [|done]. intros [= <- <-].
      apply read_event_cases in E0; [|by apply H2|by rewrite H9, H10, H11|done].
      destruct E0 as [(v & l & -> & Hl)|[Hl ->]]; [|unfold rwl]; (eapply HB; [reflexivity|..]); sm; try done; rewrite ?H4; try done. by rewrite H5.
    + intros [= <- <-]. eapply HB; [reflexivity|..]; sm; try done; rewrite ?H4; done.
    + intros [= <- <-]. rewrite wait_read_ok; [|by rewrite H9, H10, H11|rewrite H10, H11; apply (i_wev _ _ _ HC)]. destruct (rev s1); (eapply HB; [reflexivity|..]); sm; try done; rewrite ?H4; done.
  - cbn [step]. destruct (busy s || _ || _) eqn:Eb; [done|]. apply orb_false_iff in Eb as [Eb Ef]. apply orb_false_iff in Eb as [Eb Ei]. cbn [normal] in Hn. rewrite Hn.
    assert (Hsf: sf s = false) by (destruct (sf s) eqn:E; [|done]; apply (i_sf _ _ _ HC) in E; naive_solver congruence). rewrite Hsf.
    rewrite (i_w2 _ _ _ HC), andb_false_r. cbn [orb].
    set (s1 := s_sf _ _).
    assert (H2: wrdy s = true -> core true true s1).
    { subst s1. dc HC. unfold accept. intros Hr; specialize (G11 Hr); (ds s; unfold cnt in *; sm; destruct hup0; [destruct G1 as [-> _]; [done|]|]; subst;
      destruct file, buf; try done; fin). }
    assert (H3: wrdy s1 = wrdy s /\ wr s1 = true /\ loc s1 = loc s /\ pc s1 = pc s /\ rd s1 = rd s /\ lhup s1 = lhup s /\ reg s1 = reg s /\ rev s1 = rev s /\ wev s1 = wev s) by (subst s1; done).
    destruct H3 as (H3 & H4 & H5 & H6 & H7 & H8 & H9 & H10 & H11). clearbody s1. rewrite H3.
    assert (HB: forall b s2, wr s2 = b -> pc s2 = pc s -> rd s2 = rd s -> lhup s2 = lhup s -> (b = false -> loc s2 = LReady -> loc s = LReady) -> inv3 s2).
    { intros b s2 B1 B2 B3 B4 B5. dk HK. constructor; unfold rdleft in *; rewrite B2, ?B3, ?B4.
      - rewrite Hn in K1. rewrite B1. destruct b; [auto|intros L; specialize (K1 (B5 eq_refl L)); tauto].
      - exact K2. }
    destruct (wrdy s) eqn:Er; [destruct direct|].
    + intros [= <- <-].
      destruct (write_event_cases r s1) as [(v & l & -> & Hl)|[Hl ->]]; [by apply H2|by rewrite H9, H10, H11|by rewrite H4| |unfold rwl, regw].
      * eapply HB; [reflexivity|..]; sm; try done. by rewrite H5.
      * sm; destruct (wev s1); (eapply HB; [reflexivity|..]); sm; try done.
    + intros [= <- <-]. eapply HB; [reflexivity|..]; sm; try done. rewrite H4. done.
    + intros [= <- <-]. rewrite wait_write_ok; [|by rewrite H9, H10, H11]. destruct (wev s1); (eapply HB; [reflexivity|..]); sm; try done; rewrite ?H4; done.
  - cbn [step]. destruct (busy s || _) eqn:Eb; [done|]. apply orb_false_iff in Eb as [Eb Ei]. destruct Hn as (N1 & N2 & N3 & N4).
    assert (N5: wev s = false) by (destruct (wev s) eqn:E; [|done]; apply (i_wev _ _ _ HC) in E; congruence).
    clear HI HC HP HJ. dk HK. unfold add_event. ds s. un3. sm. bs. sm. subst. cbn [Bool.eqb]. intros [= <- <-]. fin3.
  - cbn [step]. destruct (busy s || _) eqn:Eb; [done|]. apply orb_false_iff in Eb as [Eb Ei].
    destruct (rd s || wr s) eqn:Ep; [by intros [= <- <-]|]. apply orb_false_iff in Ep as [N1 N2].
    clear HI HC HP HJ. dk HK. unfold add_event. ds s. un3. sm. bs. sm.
    destruct (rev0 || wev0) eqn:Er; [intros [= <- <-]; fin3|]. apply orb_false_iff in Er as [-> ->]. sm. subst. cbn [Bool.eqb]. intros [= <- <-]. fin3.
  - cbn [step]. destruct (busy s) eqn:Eb; [done|]. destruct (hup s) eqn:Eh; sm; [|by intros [= <- <-]].
    destruct (i_hup _ _ _ HC Eh) as [N1 N2]. rewrite N1, N2. sm. unfold remove.
    clear HI HC HP HJ. dk HK. ds s. un3. sm. bs. sm. destruct (rev0 || wev0); sm; intros [= <- <-]; fin3.
  - cbn [step]. destruct (busy s) eqn:Eb; [done|]. destruct Hn as (N1 & N2 & N3). unfold remove.
    clear HI HC HP HJ. dk HK. ds s. un3. sm. bs. sm. destruct (rev0 || wev0); sm; intros [= <- <-]; fin3.
  - cbn [step]. destruct (busy s || _) eqn:Eb; [done|]. apply orb_false_iff in Eb as [Eb Ei]. destruct Hn as [N1 N2]. rewrite N1.
    assert (E7: rrdy2 s = false) by (destruct (rrdy2 s) eqn:E; [|done]; apply (i_r2 _ _ _ HC) in E; naive_solver congruence). rewrite E7. sm.
    assert (HP': match pc s with PR n => n_rd n = false | _ => True end).
    { unfold pcok in HP. destruct (pc s); try done. destruct HP as [HP _]. destruct (n_rd n); [|done]. specialize (HP eq_refl). congruence. }
    clear HI HC HP HJ. dk HK. ds s. un3. sm. bs. sm. intros [= <- <-]. constructor; un3; sm; [|done]. intros _. right; right. destruct pc0; try done. by rewrite HP'.
  - done.
  - cbn [step]. destruct (pc s) eqn:Ep; try done. destruct (reg s) as [out|] eqn:Er; [|done]. destruct (edge s) eqn:Ee; [|done].
    pose proof (report_eq false s out Ep Er Ee) as Hq. cbn [step] in Hq. rewrite Ep, Er, Ee in Hq. rewrite Hq. clear Hq. intros [= <- <-].
    clear HI HC HP HJ. dk HK. unfold reported, to_ready. ds s. un3. sm. subst. sm. clear -K1.
    constructor; un3; sm; [|done]. rewrite !andb_true_r in *. destruct wr0, lhup0, rd0; auto; sm; rewrite ?andb_false_r; auto.
  - cbn [step]. destruct (pc s) eqn:Ep; try done. destruct (decide _) as [El|]; [|done]. intros [= <- <-].
    pose proof (i_hup _ _ _ HC) as G1. clear HI HC HP HJ. dk HK. unfold take_snap. ds s. un3. sm. subst. sm.
    constructor; un3; sm; [done|]. intros n [= <-]. sm. intros ->. destruct G1 as [-> ->]; [done|]. sm. naive_solver.
  - cbn [step]. destruct (pc s) as [|n| |] eqn:Ep; try done. unfold pcok in HP. rewrite Ep in HP. subst n. unfold take_snap. sm.
    pose proof (j_pw _ HJ _ Ep) as Hl0. destruct (_ && _) eqn:E.
    + apply andb_prop in E as [_ E]. intros [= <- <-].
      destruct (write_event_cases r s) as [(v & l & -> & Hl)|[Hl ->]]; [done|done|done| |unfold rwl, regw].
      * constructor; sm; [|done]. by rewrite Hl0.
      * constructor; sm; destruct (wev s); sm; try done; by rewrite Hl0.
    + intros [= <- <-]. constructor; sm; [|done]. by rewrite Hl0.
  - cbn [step]. destruct (pc s) as [| |n|] eqn:Ep; try done. unfold pcok in HP. rewrite Ep in HP. destruct HP as (P1 & P2 & P3). dk HK.
    unfold rdleft in K1. rewrite Ep in K1. rewrite andb_comm. destruct (n_rd n && n_r n) eqn:E.
    + destruct (read_event _ _ _) as [s2|] eqn:E2; [|done]. intros [= <- <-]. rewrite andb_false_r in K1.
      apply andb_prop in E as [E0 E].
      apply read_event_cases in E2; [|done|done|by apply P1].
      destruct E2 as [(v & l & -> & Hl)|[Hl ->]]; [|unfold rwl]; constructor; unfold rdleft; sm; try done; rl; naive_solver.
    + intros [= <- <-]. cbn [negb] in K1. rewrite andb_true_r in K1. constructor; unfold rdleft; sm; [|done]. by rewrite andb_true_r.
  - cbn [step]. destruct (pc s) as [| | |n] eqn:Ep; try done.
    intros [= <- <-]. dk HK. unfold rdleft in K1. rewrite Ep in K1.
    destruct (_ && _ && _) eqn:E; constructor; unfold rdleft; sm; done.
  - cbn [step]. destruct (pc s) eqn:Ep; try done. destruct (decide _) as [El|]; [|done]. sm. intros [= <- <-].
    unfold notify. constructor; sm; done.
  - intros [= <- <-]. dk HK. constructor; unfold rdleft, notify in *; sm; done.
  - cbn [step]. intros [= <- <-]. dk HK. destruct (reg s) as [[]|]; constructor; unfold rdleft, notify in *; sm; done.
  - intros [= <- <-]. dk HK. constructor; unfold rdleft, notify in *; sm; auto.
  - intros [= <- <-]. dk HK. constructor; unfold rdleft, notify in *; sm; done.
Qed.
Lemma step4_ok s e s' o : inv s -> inv2 s -> inv4 s -> normal s e -> okev e -> hupev s e -> step false s e = Ok s' o -> inv4 s'.
Proof.
  intros HI HJ HK Hn Ho Hh Hs. pose proof (step_inv s e HI Hn) as HI'. rewrite Hs in HI'. destruct HI' as [HC' _]. unfold inv4 in *.
  intros Hh'. revert Hs. pose proof HI as [HC HP]. pose proof (j_reg _ HJ) as Hj. destruct e; cbn [okev] in Ho; subst.
  - cbn [step]. destruct (busy s || _) eqn:Eb; [done|]. cbn [normal] in Hn. rewrite Hn. intros Hs. exfalso.
    set (s1 := s_hup _ _) in Hs. assert (H1: hup s1 = false /\ reg s1 = (if rev s1 then Some (wev s1) else None) /\ (wev s1 = true -> rev s1 = true)) by (subst s1; split_and!; [done|done|]; apply (i_wev _ _ _ HC)).
    destruct H1 as (H1 & H2 & H3).
    assert (A: hup (wait_read true s1) = false) by (rewrite wait_read_ok by done; by destruct (rev s1)).
    revert Hs. destruct (rrdy s1); [destruct direct|]; intros Hs.
    + unfold read_event in Hs. clearbody s1. destruct (et s1); sm; destruct (bufr s1); sm; try (injection Hs as <- <-; sm; congruence).
      all: destruct r as [n more|]; cbn [try_in] in Hs; sm; [destruct (lin s1); sm|]; try (injection Hs as <- <-; sm; congruence).
      * rewrite wait_read_ok in Hs; [|done|done]. injection Hs as <- <-. sm. by destruct (rev s1).
      * destruct (rd s1); [done|]. rewrite wait_read_ok in Hs; [|done|done]. injection Hs as <- <-. sm. by destruct (rev s1).
    + injection Hs as <- <-. sm. congruence.
    + injection Hs as <- <-. congruence.
  - cbn [step]. destruct (busy s || _ || _) eqn:Eb; [done|]. destruct (wr s || sf s || negb file && wrdy2 s); [done|]. intros Hs. exfalso.
    set (s1 := s_sf _ _) in Hs. assert (H1: hup s1 = false /\ reg s1 = (if rev s1 then Some (wev s1) else None)) by (subst s1; split_and!; done).
    destruct H1 as (H1 & H2).
    assert (A: hup (wait_write true s1) = false) by (rewrite wait_write_ok by done; by destruct (wev s1)).
    revert Hs. destruct (wrdy s1); [destruct direct|]; intros Hs.
    + clearbody s1. assert (B: hup (write_event true r s1) = false).
      { unfold write_event. sm; destruct (negb (sf s1) && err s1) eqn:E1; [reflexivity|]. set (s2 := if sf s1 then _ else _). assert (hup s2 = false /\ reg s2 = (if rev s2 then Some (wev s2) else None)) as [B1 B2] by (subst s2; destruct (sf s1); split; (reflexivity || exact H2)).
        clearbody s2. destruct (bufw s2); sm; [|done]. destruct r as [n more|]; cbn [try_out]; sm; [destruct (lout s2); sm|]; try done.
        rewrite wait_write_ok; [|done]. sm. by destruct (wev s2). }
      injection Hs as <- <-. congruence.
    + injection Hs as <- <-. sm. congruence.
    + injection Hs as <- <-. congruence.
  - cbn [step]. destruct (busy s || _) eqn:Eb; [done|].  destruct Hn as (N1 & N2 & N3 & N4).
    destruct (rd s || wr s || hup s || rev s || wev s); [done|]. unfold add_event. cbn [andb]. destruct (Bool.eqb _ _); intros [= <- <-]; sm; congruence.
  - cbn [step]. destruct (busy s || _) eqn:Eb; [done|]. apply orb_false_iff in Eb as [Eb Ei].
    destruct (rd s || wr s) eqn:Ep. { intros [= <- <-]. by apply HK. } apply orb_false_iff in Ep as [N1 N2].
    cbn [hupev] in Hh. pose proof (i_wev _ _ _ HC) as G. clear HI HC HP HJ HK HC'. unfold add_event. ds s. un3. sm. bs. sm.
    destruct (rev0 || wev0) eqn:Er; [intros [= <- <-]; sm|].
    + right; right. destruct Hh as [->| ->]; [done|]. sm. subst. specialize (G eq_refl). done.
    + apply orb_false_iff in Er as [-> ->]. sm. subst. cbn [Bool.eqb]. intros [= <- <-]. sm. right; right. intros ->. by rewrite orb_true_r.
  - cbn [step]. destruct (busy s) eqn:Eb; [done|]. destruct (hup s) eqn:Eh; sm; [|intros [= <- <-]; congruence].
    destruct (rd s || wr s); [done|]. unfold remove. sm. destruct (rev s || wev s); sm; [|intros [= <- <-]; sm; done].
    match goal with |- context [if ?b then None else _] => destruct b; [done|] end. intros [= <- <-]; sm; done.
  - cbn [step]. destruct (busy s) eqn:Eb; [done|]. destruct Hn as (N1 & N2 & N3). unfold remove.
    destruct (rev s || wev s); sm; [|intros [= <- <-]; sm; congruence]. match goal with |- context [if ?b then None else _] => destruct b; [done|] end. intros [= <- <-]; sm; congruence.
  - cbn [step]. destruct (busy s || _) eqn:Eb; [done|]. destruct (rd s || rrdy2 s); [done|]. intros [= <- <-]. sm. done.
  - done.
  - cbn [step]. destruct (pc s) eqn:Ep; try done. destruct (reg s) as [out|] eqn:Er; [|done]. destruct (edge s) eqn:Ee; [|done].
    pose proof (report_eq false s out Ep Er Ee) as Hq. cbn [step] in Hq. rewrite Ep, Er, Ee in Hq. rewrite Hq. clear Hq. intros [= <- <-].
    unfold reported in *. sm. specialize (HK Hh'). unfold prog_h in *. rewrite Ep in HK. unfold prog_h, to_ready. sm. rewrite Ep, Hh'. rewrite orb_true_r, andb_true_r.
    destruct (lhup s) eqn:El; [left; sm; by rewrite orb_true_r|]. right; right. done.
  - cbn [step]. destruct (pc s) eqn:Ep; try done. destruct (decide _) as [El|]; [|done]. intros [= <- <-].
    sm. specialize (HK Hh'). unfold prog_h, take_snap in *. sm. rewrite Ep in HK. rewrite Hh'. sm.
    destruct HK as [[_ ->]|[?|?]]; [right; left; done|done|right; right; done].
  - cbn [step]. destruct (pc s) as [|n| |] eqn:Ep; try done. unfold pcok in HP. rewrite Ep in HP. subst n. unfold take_snap. sm.
    destruct (_ && _) eqn:E.
    + apply andb_prop in E as [_ E]. intros [= <- <-].
      destruct (write_event_cases r s) as [(v & l & Hq & Hl)|[Hl Hq]]; [done|done|done|..]; rewrite Hq in *; [sm; done|].
      unfold rwl, regw in *. sm. by destruct (wev s).
    + intros [= <- <-]. sm. specialize (HK Hh'). rewrite Hh', orb_true_r, andb_true_r in E. unfold prog_h in *. sm. rewrite Ep in HK. unfold take_snap in HK. sm.
      rewrite Hh', E in HK. sm. destruct HK as [[A B]|[?|?]]; [|done|auto]. left. done.
  - cbn [step]. destruct (pc s) as [| |n|] eqn:Ep; try done. unfold pcok in HP. rewrite Ep in HP. destruct HP as (P1 & P2 & P3).
    destruct (_ && _) eqn:E.
    + destruct (read_event _ _ _) as [s2|] eqn:E2; [|done]. intros [= <- <-].
      apply andb_prop in E as [E0 E].
      assert (Hh0: hup s = false) by (destruct (hup s) eqn:Eh; [|done]; apply (i_hup _ _ _ HC) in Eh; destruct Eh as [Eh _]; rewrite P1 in Eh; done).
      apply read_event_cases in E2; [|done|done|by apply P1].
      destruct E2 as [(v & l & -> & Hl)|[Hl ->]]; [|unfold rwl in *]; sm; congruence.
    + intros [= <- <-]. sm. specialize (HK Hh'). unfold prog_h in *. sm. rewrite Ep in HK. naive_solver.
  - cbn [step]. destruct (pc s) as [| | |n] eqn:Ep; try done.
    intros [= <- <-]. unfold prog_h in *.
    destruct (_ && _ && _) eqn:E; sm; specialize (HK Hh'); rewrite Ep in HK; [|naive_solver].
    apply andb_prop in E as [_ E]. apply bool_decide_eq_true_1 in E. rewrite E in HK. naive_solver.
  - cbn [step]. destruct (pc s) eqn:Ep; try done. destruct (decide _) as [El|]; [|done]. sm. intros [= <- <-].
    unfold notify, prog_h in *. sm. right; right. intros _. rewrite Hj, (i_hp _ _ _ HC Hh'). by rewrite orb_true_r.
  - intros [= <- <-]. unfold notify, prog_h in *. sm. specialize (HK Hh'). rewrite orb_true_iff. naive_solver.
  - cbn [step]. intros [= <- <-]. unfold notify, prog_h in *. destruct (reg s) as [[]|]; sm; specialize (HK Hh'); rewrite ?orb_true_iff; naive_solver.
  - intros [= <- <-]. unfold notify, prog_h in *. sm. right; right. intros _. rewrite Hj, (i_hp _ _ _ HC Hh'). by rewrite orb_true_r.
  - intros [= <- <-]. unfold notify, prog_h in *. sm. specialize (HK Hh'). rewrite orb_true_iff. naive_solver.
Qed.
