(** Invariants of the epoll socket model. *)
From Verif Require Import EpollModel.
Local Open Scope Z_scope.

(** the caller's obligations: one read and one write at a time; connect and remove on an idle socket; selectable_next_read
    only on a socket that is registered; no selectable_next_write *)
Definition normal (s : ep) (e : ev) : Prop :=
  match e with
  | ERead _ _ _ _ _ => rd s = false
  | EWrite _ _ _ _ _ _ => wr s = false
  | EConnect _ _ => rd s = false /\ wr s = false /\ hup s = false /\ rev s = false
  | ERemove => rd s = false /\ wr s = false /\ hup s = false
  | ENextR _ => rd s = false /\ rev s = true
  | ENextW _ => False
  | _ => True
  end.

Definition pcok (s : ep) : Prop :=
  match pc s with
  | PIdle => True
  | PW n => n = take_snap s
  | PR n | PF n => (n_rd n = true -> rd s = true) /\ (n_wr n = true -> wr s = true) /\ (n_rd n || n_wr n = true -> n_et n = true)
  end.
Definition cnt (x : nat) (s : ep) : Z :=
  occ x ((done_ s).*1) + (if rd s then occ x [er s] else 0) + (if wr s || hup s then occ x [ew s] else 0) + occ x (sup s).
(** [ar] [aw]: a pending read / write is known to be registered *)
Record core (ar aw : bool) (s : ep) : Prop := mkcore {
  i_hup : hup s = true -> rd s = false /\ wr s = false;
  i_sf : sf s = true -> wr s = true /\ bufw s = true;
  i_et : et s = rev s;
  i_wev : wev s = true -> rev s = true;
  i_w2 : wrdy2 s = false;
  i_r2 : rrdy2 s = true -> rd s = true /\ bufr s = false;
  i_rd : ar = true -> rd s = true -> rev s = true;
  i_wr : aw = true -> wr s = true -> rev s = true;
  i_hp : hup s = true -> rev s = true;
  i_rr : rrdy s = true -> rev s = true;
  i_wrr : wrdy s = true -> rev s = true;
  i_reg : reg s <> None -> rev s = true;
  i_cnt : forall x, occ x (iss s) = cnt x s }.
Definition inv (s : ep) : Prop := core true true s /\ pcok s.
Lemma inv_init : inv ep_init.
Proof. split; [constructor; cbn; done|done]. Qed.

Lemma fst_app_one (l : list (nat * Z)) i v x : occ x ((l ++ [(i, v)]).*1) = occ x (l.*1) + occ x [i].
Proof. rewrite fmap_app, !occ_sumz, sumz_app. done. Qed.
Lemma occ_snoc (l : list nat) i x : occ x (l ++ [i]) = occ x l + occ x [i].
Proof. rewrite !occ_sumz, sumz_app. done. Qed.

Ltac sm := cbn [rd wr hup sf er ew bufr bufw rev wev et err rrdy wrdy rrdy2 wrdy2 loc pc reg lin lout lhup edge iss done_ sup shut
  n_rd n_wr n_hup n_et n_r n_w negb andb orb implb fst snd
  s_rd s_wr s_hup s_sf s_er s_ew s_bufr s_bufw s_rev s_wev s_et s_err s_rrdy s_wrdy s_rrdy2 s_wrdy2 s_loc s_pc s_reg s_lin
  s_lout s_lhup s_edge s_iss s_done_ s_sup s_shut call add_list] in *.
Ltac ds s := destruct s as [rd0 wr0 hup0 sf0 er0 ew0 bufr0 bufw0 rev0 wev0 et0 err0 rrdy0 wrdy0 rrdy20 wrdy20 loc0 pc0 reg0 lin0 lout0 lhup0 edge0 iss0 done0 sup0 shut0].
Ltac cn := let x := fresh "x" in intros x; unfold cnt in *; sm; repeat match goal with H : forall y, occ y _ = _ |- _ => specialize (H x) end; rewrite ?fst_app_one, ?occ_snoc in *; sm; try lia.
Ltac fin := constructor; sm; try (cn; fail); try tauto; try (intuition congruence).

(** list_rw and add_list only change the list *)
Lemma list_rw_eq s : list_rw s = s_loc (if decide (loc s = LNone) then LRw else loc s) s.
Proof. unfold list_rw, add_list. destruct (decide _); [done|]. by destruct s. Qed.
Lemma core_loc ar aw l s : core ar aw s -> core ar aw (s_loc l s).
Proof. intros [H1 H2 H3 H4 H5 H6 H7 H8 H9 H10 H11 H13 H12]. constructor; assumption. Qed.
Lemma core_pc ar aw l s : core ar aw s -> core ar aw (s_pc l s).
Proof. intros [H1 H2 H3 H4 H5 H6 H7 H8 H9 H10 H11 H13 H12]. constructor; assumption. Qed.
Lemma core_weak ar aw s : core true true s -> core ar aw s.
Proof. intros [H1 H2 H3 H4 H5 H6 H7 H8 H9 H10 H11 H13 H12]. constructor; auto. Qed.
Lemma add_event_core both ok s : core false false s -> core true true (add_event both ok s).1.
Proof.
  intros [H1 H2 H3 H4 H5 H6 H7 H8 H9 H10 H11 H13 H12]. unfold add_event. destruct (ok && _); ds s; unfold cnt in *; sm; fin.
Qed.
Lemma add_event_frame both ok s : let s' := (add_event both ok s).1 in
  rd s' = rd s /\ wr s' = wr s /\ hup s' = hup s /\ sf s' = sf s /\ er s' = er s /\ ew s' = ew s /\ bufr s' = bufr s /\ bufw s' = bufw s /\
  rrdy2 s' = rrdy2 s /\ rrdy s' = rrdy s /\ loc s' = loc s /\ pc s' = pc s /\ done_ s' = done_ s /\ iss s' = iss s /\ lin s' = lin s /\ lout s' = lout s /\ lhup s' = lhup s /\ rev s' = true
  /\ shut s' = shut s /\ err s' = err s /\ wev s' = both || wev s.
Proof. unfold add_event. destruct (ok && _); ds s; sm; split_and!; reflexivity. Qed.
Lemma wait_read_core ok s : core false true s -> rd s = true -> hup s = false -> rrdy2 s = false ->
  core true true (wait_read ok s) /\ wr (wait_read ok s) = wr s /\ pc (wait_read ok s) = pc s.
Proof.
  intros HC Hrd Hh H2. unfold wait_read. destruct (rev s) eqn:Er.
  - rewrite list_rw_eq. split; [|done]. apply core_loc. destruct HC. constructor; auto.
  - pose proof (add_event_core false ok s) as HA. pose proof (add_event_frame false ok s) as HF. destruct (add_event false ok s) as [s1 r]. cbn [fst] in *.
    assert (HC': core false false s) by (destruct HC; constructor; auto; congruence).
    specialize (HA HC'). destruct r.
    + rewrite list_rw_eq. split; [by apply core_loc|]. sm. naive_solver.
    + cbv zeta in HF. destruct HF as (F1 & F2 & F3 & F4 & F5 & F6 & F7 & F8 & F9 & F10 & F11 & F12 & F13 & F14 & F15 & F16 & F17 & F18 & F19).
      split; [|naive_solver]. destruct HA as [G1 G2 G3 G4 G5 G6 G7 G8 G9 G10 G11 G13 G12]. ds s1. unfold cnt in *. sm. rewrite Hrd in F1. subst. fin.
Qed.
Lemma wait_write_core ok s : core true false s -> wr s = true -> hup s = false ->
  core true true (wait_write ok s) /\ rd (wait_write ok s) = rd s /\ pc (wait_write ok s) = pc s.
Proof.
  intros HC Hrd Hh. unfold wait_write. destruct (wev s) eqn:Er.
  - rewrite list_rw_eq. split; [|done]. apply core_loc. destruct HC. constructor; auto.
  - pose proof (add_event_core true ok s) as HA. pose proof (add_event_frame true ok s) as HF. destruct (add_event true ok s) as [s1 r]. cbn [fst] in *.
    assert (HC': core false false s) by (destruct HC; constructor; auto; congruence).
    specialize (HA HC'). destruct r.
    + rewrite list_rw_eq. split; [by apply core_loc|]. sm. naive_solver.
    + cbv zeta in HF. destruct HF as (F1 & F2 & F3 & F4 & F5 & F6 & F7 & F8 & F9 & F10 & F11 & F12 & F13 & F14 & F15 & F16 & F17 & F18 & F19).
      split; [|naive_solver]. destruct HA as [G1 G2 G3 G4 G5 G6 G7 G8 G9 G10 G11 G13 G12]. ds s1. unfold cnt in *. sm. rewrite Hrd in F2. rewrite Hh in F3. subst. fin.
Qed.
(** the read event of a pending read *)
Lemma read_event_core ok r s : core true true s -> rd s = true -> exists s', read_event ok r s = Some s' /\
  core true true s' /\ wr s' = wr s /\ pc s' = pc s.
Proof.
  intros HC Hrd. unfold read_event. assert (Hret: et s = true) by (rewrite (i_et _ _ _ HC); by apply (i_rd _ _ _ HC)). rewrite Hret.
  assert (Hh: hup s = false) by (destruct (hup s) eqn:E; [|done]; apply (i_hup _ _ _ HC) in E; naive_solver congruence).
  sm. destruct (bufr s) eqn:Eb; sm.
  - destruct r as [n more|]; cbn [try_in]; sm; [destruct (lin s) eqn:El; sm|].
    + eexists. split; [reflexivity|]. split; [|done]. destruct HC as [G1 G2 G3 G4 G5 G6 G7 G8 G9 G10 G11 G13 G12]. ds s. sm. subst. fin.
    + eexists. split; [reflexivity|]. set (s1 := s_hup _ _).
      destruct (wait_read_core ok s1) as (A & B & C).
      * subst s1. destruct HC as [G1 G2 G3 G4 G5 G6 G7 G8 G9 G10 G11 G13 G12]. ds s. sm. subst. fin.
      * done. * done. * done.
      * split; [exact A|]. split; [by rewrite B|by rewrite C].
    + eexists. split; [reflexivity|]. split; [|done]. destruct HC as [G1 G2 G3 G4 G5 G6 G7 G8 G9 G10 G11 G13 G12]. ds s. sm. subst. fin.
  - eexists. split; [reflexivity|]. split; [|done]. destruct HC as [G1 G2 G3 G4 G5 G6 G7 G8 G9 G10 G11 G13 G12]. ds s. sm. subst. fin.
Qed.
Lemma write_event_core ok r s : core true true s -> wr s || hup s = true -> let s' := write_event ok r s in
  core true true s' /\ rd s' = rd s /\ pc s' = pc s.
Proof.
  intros HC Hw. cbv zeta. unfold write_event.
  destruct (negb (sf s) && err _) eqn:E1.
  { split; [|done]. destruct HC as [G1 G2 G3 G4 G5 G6 G7 G8 G9 G10 G11 G13 G12]. ds s. unfold cnt in *. sm. rewrite Hw in G12. fin. }
  set (s1 := if sf s then _ else _).
  assert (H1: s1 = s_wrdy2 false (s_sf false (s_hup false (s_wr false s)))).
  { subst s1. destruct (sf s); [|done]. pose proof (i_w2 _ _ _ HC). ds s. sm. by subst. }
  rewrite H1. clear s1 H1. sm. destruct (bufw s) eqn:Eb; sm.
  - destruct r as [n more|]; cbn [try_out]; sm; [destruct (lout s) eqn:El; sm|].
    + split; [|done]. destruct HC as [G1 G2 G3 G4 G5 G6 G7 G8 G9 G10 G11 G13 G12]. ds s. unfold cnt in *. sm. rewrite Hw in G12. fin.
    + set (s1 := s_sf _ _). destruct (wait_write_core ok s1) as (A & B & C).
      * subst s1. destruct HC as [G1 G2 G3 G4 G5 G6 G7 G8 G9 G10 G11 G13 G12]. ds s. unfold cnt in *. sm. rewrite Hw in G12. fin.
      * done. * done.
      * split; [exact A|]. split; [by rewrite B|by rewrite C].
    + split; [|done]. destruct HC as [G1 G2 G3 G4 G5 G6 G7 G8 G9 G10 G11 G13 G12]. ds s. unfold cnt in *. sm. rewrite Hw in G12. fin.
  - split; [|done]. destruct HC as [G1 G2 G3 G4 G5 G6 G7 G8 G9 G10 G11 G13 G12]. ds s. unfold cnt in *. sm. rewrite Hw in G12. fin.
Qed.
Definition good (r : res ep bool) : Prop := match r with Crash => False | Disabled => True | Ok s' _ => inv s' end.
(** the socket right after a request has been recorded *)
Lemma accept_core i s : core true true s -> i ∉ iss s -> core true true s. Proof. done. Qed.
Ltac dc HC := destruct HC as [G1 G2 G3 G4 G5 G6 G7 G8 G9 G10 G11 G13 G12].
Lemma pcok_same s s' : pcok s -> pc s' = pc s -> busy s = false -> (rd s = true -> rd s' = true) -> (wr s = true -> wr s' = true) -> pcok s'.
Proof.
  unfold pcok, busy. intros HP -> Hb H1 H2. destruct (pc s); [done|done| |]; naive_solver.
Qed.
Lemma step_read s i direct buf ok r : inv s -> rd s = false -> good (step false s (ERead i direct buf ok r)).
Proof.
  intros [HC HP] Hrd. cbn [step]. destruct (busy s || _) eqn:Eb; [done|]. apply orb_false_iff in Eb as [Eb Ei]. rewrite Hrd.
  set (s1 := s_hup _ _).
  assert (H1: core false true s1 /\ (rrdy s = true -> core true true s1)).
  { subst s1. dc HC. unfold accept. split; [|intros Hr; specialize (G10 Hr)]; (ds s; unfold cnt in *; sm; destruct hup0; [destruct G1 as [_ ->]; [done|]|]; subst; fin). }
  destruct H1 as [H1 H2].
  assert (E: rrdy s1 = rrdy s /\ rd s1 = true /\ hup s1 = false /\ rrdy2 s1 = rrdy2 s /\ pc s1 = pc s /\ wr s1 = wr s) by (subst s1; done).
  destruct E as (E1 & E2 & E3 & E4 & E5 & E6). clearbody s1.
  assert (E7: rrdy2 s = false) by (destruct (rrdy2 s) eqn:E; [|done]; apply (i_r2 _ _ _ HC) in E; naive_solver congruence).
  rewrite E1. destruct (rrdy s) eqn:Er.
  - destruct direct.
    + destruct (read_event_core ok r s1) as (s' & -> & A & B & C); [by apply H2|done|]. split; [exact A|].
      eapply pcok_same; [exact HP|congruence|done|congruence|congruence].
    + split; [by apply core_loc, H2|]. unfold pcok in *. sm. rewrite E5. unfold busy in Eb. destruct (pc s); [done|done| |]; rewrite E6; naive_solver.
  - destruct (wait_read_core ok s1) as (A & B & C); [done|done|done|congruence|]. split; [exact A|].
    eapply pcok_same; [exact HP|congruence|done|congruence|congruence].
Qed.
Lemma step_write s i direct buf file ok r : inv s -> wr s = false -> good (step false s (EWrite i direct buf file ok r)).
Proof.
  intros [HC HP] Hrd. cbn [step]. destruct (busy s || _ || _) eqn:Eb; [done|]. apply orb_false_iff in Eb as [Eb Ef]. apply orb_false_iff in Eb as [Eb Ei]. rewrite Hrd.
  assert (Hsf: sf s = false) by (destruct (sf s) eqn:E; [|done]; apply (i_sf _ _ _ HC) in E; naive_solver congruence). rewrite Hsf.
  rewrite (i_w2 _ _ _ HC), andb_false_r. cbn [orb].
  set (s1 := s_sf _ _).
  assert (H1: core true false s1 /\ (wrdy s = true -> core true true s1)).
  { subst s1. dc HC. unfold accept. split; [|intros Hr; specialize (G11 Hr)]; (ds s; unfold cnt in *; sm; destruct hup0; [destruct G1 as [-> _]; [done|]|]; subst;
    destruct file, buf; try done; fin). }
  destruct H1 as [H1 H2].
  assert (E: wrdy s1 = wrdy s /\ wr s1 = true /\ hup s1 = false /\ pc s1 = pc s /\ rd s1 = rd s) by (subst s1; done).
  destruct E as (E1 & E2 & E3 & E5 & E6). clearbody s1.
  rewrite E1. destruct (wrdy s) eqn:Er.
  - destruct direct.
    + destruct (write_event_core ok r s1) as (A & B & C); [by apply H2|by rewrite E2|]. split; [exact A|].
      eapply pcok_same; [exact HP|congruence|done|congruence|congruence].
    + split; [by apply core_loc, H2|]. unfold pcok in *. sm. rewrite E5. unfold busy in Eb. destruct (pc s); [done|done| |]; rewrite E6; naive_solver.
  - destruct (wait_write_core ok s1) as (A & B & C); [done|done|done|]. split; [exact A|].
    eapply pcok_same; [exact HP|congruence|done|congruence|congruence].
Qed.
Lemma remove_core s : inv s -> busy s = false -> rd s = false -> wr s = false -> hup s = false -> exists s', remove s = Some s' /\ inv s'.
Proof.
  intros [HC HP] Hb H1 H2 H3. unfold remove. rewrite H1, H2, H3. sm.
  destruct (rev s || wev s) eqn:E; sm; [|by eexists; split].
  eexists. split; [reflexivity|]. split.
  - dc HC. ds s. unfold cnt in *. sm. subst. fin.
  - unfold pcok, busy in *. sm. by destruct (pc s).
Qed.
(** closed form of what epoll_selector_select does with a report *)
Definition to_ready (out : bool) (s : ep) : bool := (lhup s && (wr s || hup s)) || (negb (lhup s) && out && lout s && wr s) || (lin s && rd s).
Definition reported (out : bool) (s : ep) : ep :=
  s_loc (if to_ready out s then LReady else loc s) (s_rrdy (rrdy s || lin s) (s_wrdy (wrdy s || lhup s || (out && lout s))
    (s_err (err s || (lhup s && lin s)) (s_edge false s)))).
Lemma report_eq rto s out : pc s = PIdle -> reg s = Some out -> edge s = true -> step rto s EReport = Ok (reported out s) true.
Proof.
  intros Hp Hr He. cbn [step]. rewrite Hp, Hr, He. unfold reported, to_ready. ds s. sm. subst.
  destruct lhup0, lin0, out, lout0, wr0, hup0, rd0; sm; f_equal; rewrite ?orb_true_r, ?orb_false_r; reflexivity.
Qed.
Lemma step_inv s e : inv s -> normal s e -> good (step false s e).
Proof.
  intros HI Hn. pose proof HI as [HC HP]. destruct e.
  - by apply step_read.
  - by apply step_write.
  - cbn [step]. destruct (busy s || _) eqn:Eb; [done|]. apply orb_false_iff in Eb as [Eb Ei]. destruct Hn as (N1 & N2 & N3 & N4).
    assert (N5: wev s = false) by (destruct (wev s) eqn:E; [|done]; apply (i_wev _ _ _ HC) in E; congruence).
    rewrite N1, N2, N3, N4, N5. sm.
    set (s1 := s_wr true _).
    pose proof (add_event_frame true ok s1) as F. assert (A: core true true (s_wr false (add_event true ok s1).1) /\
      core true true (s_iss (iss s ++ [i]) (add_event true ok s1).1)).
    { subst s1. unfold add_event. dc HC. destruct (ok && _); ds s; unfold cnt in *; sm; subst; (split; [fin|]); fin. }
    destruct A as [A1 A2]. destruct (add_event true ok s1) as [s2 r]. cbn [fst] in *. cbv zeta in F.
    destruct F as (F1 & F2 & F3 & F4 & F5 & F6 & F7 & F8 & F9 & F10 & F11 & F12 & _).
    destruct r.
    + split; [by apply core_loc|]. eapply pcok_same; [exact HP| |done|..]; sm; [by rewrite F12|congruence|congruence].
    + split; [done|]. eapply pcok_same; [exact HP| |done|..]; sm; [by rewrite F12|congruence|congruence].
  - cbn [step]. destruct (busy s || _) eqn:Eb; [done|]. apply orb_false_iff in Eb as [Eb Ei].
    destruct (rd s || wr s) eqn:Ep; [done|]. apply orb_false_iff in Ep as [N1 N2].
    set (s1 := s_hup true _).
    assert (A: (rev s = true -> core true true s1) /\ forall s2, (add_event true ok s1).1 = s2 -> core true true s2 /\ core true true (s_sup (sup s2 ++ [i]) (s_hup false s2))).
    { subst s1. unfold accept. dc HC. split.
      - intros Hr. ds s. unfold cnt in *. sm. subst. destruct hup0; fin.
      - intros s2 <-. unfold add_event. destruct (ok && _); ds s; unfold cnt in *; sm; subst; destruct hup0; (split; [fin|]); fin. }
    pose proof (add_event_frame true ok s1) as F.
    assert (E: rd s1 = rd s /\ wr s1 = wr s /\ pc s1 = pc s /\ rev s1 = rev s /\ wev s1 = wev s) by (subst s1; done).
    destruct E as (E1 & E2 & E3 & E4 & E5). clearbody s1. destruct A as [A1 A2]. rewrite E4, E5.
    destruct (rev s || wev s) eqn:Er.
    + split; [apply A1; destruct (rev s) eqn:Hrv; [done|]; sm; apply (i_wev _ _ _ HC) in Er; congruence|].
      eapply pcok_same; [exact HP| |done|..]; congruence.
    + destruct (add_event true ok s1) as [s2 r]. cbn [fst] in *. cbv zeta in F. destruct (A2 s2 eq_refl) as [B1 B2].
      destruct F as (F1 & F2 & F3 & F4 & F5 & F6 & F7 & F8 & F9 & F10 & F11 & F12 & _).
      destruct r; (split; [done|]); (eapply pcok_same; [exact HP| |done|..]; sm; congruence).
  - cbn [step]. destruct (busy s) eqn:Eb; [done|]. destruct (hup s) eqn:Eh; sm; [|done].
    destruct (i_hup _ _ _ HC Eh) as [N1 N2]. rewrite N1, N2. sm.
    destruct (remove_core (s_sup (sup s ++ [ew s]) (s_hup false s))) as (s' & -> & H'); try done.
    split; [|by eapply pcok_same; [exact HP|..]]. dc HC. ds s. unfold cnt in *. sm. subst. fin.
  - cbn [step]. destruct (busy s) eqn:Eb; [done|]. destruct Hn as (N1 & N2 & N3).
    by destruct (remove_core s) as (s' & -> & H').
  - cbn [step]. destruct (busy s || _) eqn:Eb; [done|]. apply orb_false_iff in Eb as [Eb Ei]. destruct Hn as [N1 N2]. rewrite N1.
    assert (E7: rrdy2 s = false) by (destruct (rrdy2 s) eqn:E; [|done]; apply (i_r2 _ _ _ HC) in E; naive_solver congruence). rewrite E7. sm.
    split; [|eapply pcok_same; [exact HP|done|done|..]; sm; done].
    dc HC. unfold accept. ds s. unfold cnt in *. sm. subst. destruct hup0; [destruct G1 as [_ ->]; [done|]|]; fin.
  - done.
  - cbn [step]. destruct (pc s) eqn:Ep; try done. destruct (reg s) as [out|] eqn:Er; [|done]. destruct (edge s) eqn:Ee; [|done].
    pose proof (report_eq false s out Ep Er Ee) as Hq. cbn [step] in Hq. rewrite Ep, Er, Ee in Hq. rewrite Hq. clear Hq.
    split; [|unfold pcok, reported; sm; by rewrite Ep]. apply core_loc. dc HC. ds s. unfold cnt in *. sm. subst.
    assert (rev0 = true) as -> by (apply G13; done). fin.
  - cbn [step]. destruct (pc s) eqn:Ep; try done. destruct (decide _); [|done]. split; [by apply core_pc, core_loc|]. done.
  - cbn [step]. destruct (pc s) as [|n| |] eqn:Ep; try done. unfold pcok in HP. rewrite Ep in HP. subst n. unfold take_snap. sm.
    destruct (_ && _) eqn:E.
    + apply andb_prop in E as [_ E]. destruct (write_event_core ok r s HC E) as (A & B & C). split; [by apply core_pc|].
      unfold pcok. sm. rewrite B. split_and!; [done|done|]. intros H. rewrite (i_et _ _ _ HC). apply (i_rd _ _ _ HC); [done|]. by destruct (rd s).
    + split; [by apply core_pc|]. unfold pcok. sm. split_and!; [done..|]. intros H. rewrite (i_et _ _ _ HC). apply orb_prop in H as [H|H]; [by apply (i_rd _ _ _ HC)|by apply (i_wr _ _ _ HC)].
  - cbn [step]. destruct (pc s) as [| |n|] eqn:Ep; try done. unfold pcok in HP. rewrite Ep in HP. destruct HP as (P1 & P2 & P3).
    destruct (_ && _) eqn:E.
    + apply andb_prop in E as [_ E]. destruct (read_event_core ok r s HC (P1 E)) as (s' & -> & A & B & C). split; [by apply core_pc|].
      unfold pcok. sm. rewrite B. split_and!; [done|done|]. intros H. apply P3. rewrite H. apply orb_true_r.
    + split; [by apply core_pc|]. unfold pcok. sm. done.
  - cbn [step]. destruct (pc s) as [| | |n] eqn:Ep; try done. split.
    + destruct (_ && _ && _); [apply core_loc|]; by apply core_pc.
    + destruct (_ && _ && _); done.
  - cbn [step]. destruct (pc s) eqn:Ep; try done. destruct (decide _); [|done]. sm. split; [|by unfold pcok, notify; sm; rewrite Ep].
    dc HC. unfold notify. ds s. unfold cnt in *. sm. subst. fin.
  - split; [|done]. dc HC. unfold notify. ds s. unfold cnt in *. sm. subst. fin.
  - cbn [step]. destruct (reg (s_lout true s)) as [[]|]; (split; [|done]); dc HC; unfold notify; ds s; unfold cnt in *; sm; subst; fin.
  - split; [|done]. dc HC. unfold notify. ds s. unfold cnt in *. sm. subst. fin.
  - split; [|done]. dc HC. unfold notify. ds s. unfold cnt in *. sm. subst. fin.
Qed.
