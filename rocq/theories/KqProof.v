(** Invariants of the kqueue socket model. *)
From Verif Require Import KqModel.
Local Open Scope Z_scope.

(** the caller's obligations: one read and one write at a time; connect on a new socket; close on an idle one;
    selectable_next_read only on a socket that is registered.  Environment: the registration of a sendfile does not fail, and
    sendfile called from a fiber on a socket marked writable does not fail without sending anything *)
Definition normal (s : kq) (e : ev) : Prop :=
  match e with
  | ERead _ _ _ _ _ => rd s = false
  | EWrite _ direct b okr okw r => wr s = false /\ (b = BFile -> okr = true /\ okw = true /\ (direct = true -> r <> RFail))
  | EConnect _ _ _ => rd s = false /\ wr s = false /\ rev s = false
  | EClose => rd s = false /\ wr s = false
  | ENextR _ => rd s = false /\ rev s = true
  | ENextW _ => wr s = false
  | EWEv okr okw _ => sf s = true -> okr = true /\ okw = true
  | _ => True
  end.

Definition pcok (s : kq) : Prop :=
  match pc s with
  | PIdle => True
  | PW n => n = take_snap s /\ loc s = LNone /\ cl s = false
  | PR n => (n_rd n = true -> rd s = true /\ (loc s <> LNone -> wr s = true)) /\ (n_wr n = true -> wr s = true)
  | PF n => (n_rd n = true -> rd s = true) /\ (n_wr n = true -> wr s = true)
  end.
Definition cnt (x : nat) (s : kq) : Z :=
  occ x ((done_ s).*1) + (if rd s then occ x [er s] else 0) + (if wr s then occ x [ew s] else 0).
Record core (s : kq) : Prop := mkcore {
  i_sf : sf s = true -> wr s = true /\ bw s = BFile;
  i_bf : bw s = BFile -> wr s = true -> sf s = true;
  i_et : et s = rev s;
  i_wev : wev s = true -> rev s = true;
  i_w2 : wrdy2 s = true -> wr s = true /\ bw s = BNone;
  i_r2 : rrdy2 s = true -> rd s = true /\ br s = false;
  i_rd : rd s = true -> rev s = true;
  i_wr : wr s = true -> wrdy2 s = true \/ rev s = true;
  i_rr : rrdy s = true -> rev s = true;
  i_wrr : wrdy s = true -> rev s = true;
  i_kr : kr s = true -> rev s = true;
  i_kw : kw s = true -> wev s = true;
  i_pr : pr s = true -> kr s = true;
  i_pw : pw s = true -> kw s = true;
  i_loc : loc s <> LNone -> rd s = true \/ wr s = true;
  i_cl : cl s = true -> rd s = false /\ wr s = false /\ kr s = false /\ kw s = false;
  i_cnt : forall x, occ x (iss s) = cnt x s }.
Definition inv (s : kq) : Prop := core s /\ pcok s.
Lemma inv_init : inv kq_init.
Proof. split; [constructor; cbn; done|done]. Qed.

Lemma fst_app_one (l : list (nat * Z)) i v x : occ x ((l ++ [(i, v)]).*1) = occ x (l.*1) + occ x [i].
Proof. rewrite fmap_app, !occ_sumz, sumz_app. done. Qed.
Lemma occ_snoc (l : list nat) i x : occ x (l ++ [i]) = occ x l + occ x [i].
Proof. rewrite !occ_sumz, sumz_app. done. Qed.

Ltac sm := cbn [rd wr sf er ew br bw rev wev et rrdy wrdy rrdy2 wrdy2 loc pc kr kw pr pw lin lout iss done_ shut cl
  n_rd n_wr n_et n_r n_w negb andb orb implb fst snd
  s_rd s_wr s_sf s_er s_ew s_br s_bw s_rev s_wev s_et s_rrdy s_wrdy s_rrdy2 s_wrdy2 s_loc s_pc s_kr s_kw s_pr s_pw s_lin
  s_lout s_iss s_done_ s_shut s_cl call add_list] in *.
Ltac ds s := destruct s as [rd0 wr0 sf0 er0 ew0 br0 bw0 rev0 wev0 et0 rrdy0 wrdy0 rrdy20 wrdy20 loc0 pc0 kr0 kw0 pr0 pw0 lin0 lout0 iss0 done0 shut0 cl0].
Ltac cn := let x := fresh "x" in intros x; unfold cnt in *; sm; repeat match goal with H : forall y, occ y _ = _ |- _ => specialize (H x) end; rewrite ?fst_app_one, ?occ_snoc in *; sm; try lia.
Ltac dc HC := destruct HC as [G1 G2 G3 G4 G5 G6 G7 G8 G9 G10 G11 G12 G13 G14 G15 G16 G17].
Definition lset (l : lloc) : lloc := if decide (l = LNone) then LRw else l.
Lemma list_rw_eq s : list_rw s = s_loc (lset (loc s)) s.
Proof. unfold list_rw, lset, add_list. destruct (decide _); [done|]. by destruct s. Qed.
(** close goals about boolean variables *)
Ltac bs := repeat match goal with
  | H : ?x = true |- _ => is_var x; subst x
  | H : ?x = false |- _ => is_var x; subst x
  | H : ?x = ?y |- _ => is_var x; is_var y; subst x
  | H : ?x = ?x -> _ |- _ => specialize (H eq_refl)
  | H : false = true -> _ |- _ => clear H
  | H : true = false -> _ |- _ => clear H
  | H : false = true |- _ => discriminate H
  | H : true = false |- _ => discriminate H
  | H : _ /\ _ |- _ => destruct H
  end.
(* the decision of a goal about boolean variables: what the goal assumes is used first, then the disjunctions, then the variables *)
Ltac b1 := try (subst; discriminate); try tauto; try congruence.
Ltac b2 := repeat match goal with H : _ \/ _ |- _ => destruct H end; bs; b1.
Ltac b3 := match goal with b : bool |- _ => destruct b; bs; b1 end.
Ltac f1 := sm; try match goal with |- forall x, occ _ _ = _ => cn; fail | _ => repeat match goal with H : forall y, occ y _ = _ |- _ => clear H end; intros; bs; b1; b2; try (do 4 b3; fail) end.
Ltac fin := constructor; f1.

Definition good (r : res kq bool) : Prop := match r with Crash => False | Disabled => True | Ok s' _ => inv s' end.
(** the shape of what waiting does *)
Lemma wait_read_cases ok s : wait_read ok s =
  if rev s then s_loc (lset (loc s)) s else
  if ok then s_loc (lset (loc s)) (add_r true s) else call (er s) (-1) (s_rd false (add_r false s)).
Proof. unfold wait_read, add_rd. destruct (rev s); [apply list_rw_eq|]. destruct ok; [by rewrite list_rw_eq|done]. Qed.
Lemma wait_write_cases okr okw s : wait_write okr okw s =
  if wev s then s_loc (lset (loc s)) s else
  let a := if rev s then add_w okw s else add_w (okr && okw) (add_r okr s) in
  if (if rev s then okw else okr && okw) then s_loc (lset (loc s)) a else call (ew s) (-1) (s_wr false a).
Proof.
  unfold wait_write, add_rw. destruct (wev s); [apply list_rw_eq|].
  destruct (rev s); [destruct okw|destruct okr, okw]; cbn [andb]; cbv zeta; rewrite ?list_rw_eq; done.
Qed.
Lemma read_event_core ok r s : core s -> rd s = true -> (loc s <> LNone -> wr s = true) -> cl s = false -> exists s', read_event ok r s = Some s' /\
  core s' /\ wr s' = wr s /\ pc s' = pc s /\ cl s' = false.
Proof.
  intros HC Hrd Hlo Hcl. unfold read_event. assert (Hret: et s = true) by (rewrite (i_et _ HC); by apply (i_rd _ HC)). rewrite Hret.
  assert (Hrv: rev s = true) by (by apply (i_rd _ HC)).
  sm. destruct (br s) eqn:Eb; sm; [destruct r as [n more|n|]; cbn [try_in]; sm; [destruct (lin s) eqn:El; sm..|]|].
  all: try (rewrite wait_read_cases; sm; rewrite Hrv).
  all: eexists; split; [reflexivity|]; split; [|sm; done].
  all: dc HC; ds s; unfold cnt in *; sm; subst; fin.
Qed.
(** what the write event of a pending write does: it is called back, or it waits, or (failed sendfile) it is queued again *)
Lemma write_event_cases main okr okw r s : core s -> wr s = true -> (sf s = true -> main = false -> r <> RFail) ->
  (exists v l d, write_event main okr okw r s = Some (call (ew s) v (s_lout l (s_wrdy d (s_wrdy2 false (s_sf false (s_wr false s)))))) /\
     (l = true -> lout s = true) /\ (d = true -> wrdy s = true) /\ (d = false -> l = true -> wrdy s = false) /\ (l = lout s \/ lout s = true))
  \/ (write_event main okr okw r s = Some (wait_write okr okw (s_wrdy false s)) /\ wrdy2 s = false /\ bw s <> BNone /\ (lout s = false \/ r = RFail /\ wrdy s = false))
  \/ (sf s = true /\ main = true /\ r = RFail /\ wrdy s = true /\ write_event main okr okw r s = Some (s_loc LReady s)).
Proof.
  intros HC Hwr Hm. unfold write_event. pose proof (i_sf _ HC) as G1. pose proof (i_bf _ HC) as G2. pose proof (i_w2 _ HC) as G3. clear HC.
  destruct (sf s) eqn:Es.
  - destruct (G1 eq_refl) as [_ Hb]. assert (W2: wrdy2 s = false) by (destruct (wrdy2 s); [|done]; destruct (G3 eq_refl); congruence).
    clear G1 G2 G3. ds s. sm. subst. destruct r as [n more|n|].
    + destruct lout0; [left|right; left]; [eexists _, more, wrdy0|]; split_and!; try reflexivity; try done; auto; congruence.
    + destruct lout0; [left|right; left]; [eexists _, false, false|]; split_and!; try reflexivity; try done; auto.
    + destruct wrdy0; [destruct main; [right; right; split_and!; reflexivity|exfalso; by apply Hm]|]. right; left. split_and!; try reflexivity; try done; auto.
  - destruct (bw s) eqn:Eb; [| |specialize (G2 eq_refl Hwr); congruence].
    + left. exists 0, (lout s), (wrdy s). clear - Eb Es. ds s; sm; subst. split_and!; try reflexivity; auto; congruence.
    + assert (W2: wrdy2 s = false) by (destruct (wrdy2 s); [|done]; destruct (G3 eq_refl); congruence).
      clear G1 G2 G3. ds s. sm. subst. destruct r as [n more|n|]; cbn [try_out]; sm.
      * destruct lout0; [left|right; left]; [eexists _, more, wrdy0|]; split_and!; try reflexivity; try done; auto; congruence.
      * destruct lout0; [left|right; left]; [eexists _, false, wrdy0|]; split_and!; try reflexivity; try done; auto; congruence.
      * left. eexists _, lout0, wrdy0. split_and!; try reflexivity; auto; congruence.
Qed.
Lemma write_call_core v l d s : core s -> wr s = true -> (loc s <> LNone -> rd s = true) -> cl s = false -> (d = true -> wrdy s = true) ->
  core (call (ew s) v (s_lout l (s_wrdy d (s_wrdy2 false (s_sf false (s_wr false s)))))).
Proof. intros HC H1 H2 H3 H4. dc HC; ds s; unfold cnt in *; sm; subst; fin. Qed.
Lemma core_loc l s : core s -> rd s = true \/ wr s = true -> core (s_loc l s).
Proof. intros HC H1. dc HC; ds s; unfold cnt in *; sm; subst; fin. Qed.
Lemma core_wrdy s : core s -> core (s_wrdy false s).
Proof. intros HC. dc HC; ds s; unfold cnt in *; sm; subst; fin. Qed.
Lemma core_add_r ok s : core s -> cl s = false -> core (add_r ok s).
Proof. intros HC H1. unfold add_r. dc HC; ds s; unfold cnt in *; destruct ok; sm; subst; fin. Qed.
Lemma core_add_w ok s : core s -> rev s = true -> cl s = false -> core (add_w ok s).
Proof. intros HC H1 H2. unfold add_w. dc HC; ds s; unfold cnt in *; destruct ok; sm; subst; fin. Qed.
Lemma core_fail_w v s : core s -> wr s = true -> sf s = false -> wrdy2 s = false -> (loc s <> LNone -> rd s = true) -> core (call (ew s) v (s_wr false s)).
Proof. intros HC H1 H2 H3 H4. dc HC; ds s; unfold cnt in *; sm; subst; fin. Qed.
Lemma core_fail_r v s : core s -> rd s = true -> rrdy2 s = false -> (loc s <> LNone -> wr s = true) -> core (call (er s) v (s_rd false s)).
Proof. intros HC H1 H2 H3. dc HC; ds s; unfold cnt in *; sm; subst; fin. Qed.
(** a new read / write is recorded *)
Definition setr (i : nat) (buf : bool) (s : kq) : kq := s_rd true (s_br buf (s_er i (s_iss (iss s ++ [i]) s))).
Definition setw (i : nat) (b : bkind) (s : kq) : kq :=
  let s := s_wr true (s_bw b (s_ew i (s_iss (iss s ++ [i]) s))) in match b with BFile => s_sf true s | _ => s end.
Lemma core_setr i buf s : core s -> rd s = false -> rev s = true -> cl s = false -> core (setr i buf s).
Proof. intros HC H1 H2 H3. unfold setr. dc HC; ds s; unfold cnt in *; sm; subst; fin. Qed.
Lemma core_setw i b s : core s -> wr s = false -> rev s = true -> cl s = false -> core (setw i b s).
Proof.
  intros HC H1 H2 H3. assert (E: sf s = false) by (destruct (sf s) eqn:E; [|done]; apply (i_sf _ HC) in E; naive_solver congruence).
  unfold setw. dc HC; ds s; unfold cnt in *; destruct b; sm; subst; fin.
Qed.
Lemma setw_fields i b s : wr (setw i b s) = true /\ bw (setw i b s) = b /\ ew (setw i b s) = i /\ rev (setw i b s) = rev s /\ wev (setw i b s) = wev s /\ loc (setw i b s) = loc s
  /\ rd (setw i b s) = rd s /\ pc (setw i b s) = pc s /\ cl (setw i b s) = cl s /\ wrdy (setw i b s) = wrdy s /\ wrdy2 (setw i b s) = wrdy2 s /\ sf (setw i b s) = match b with BFile => true | _ => sf s end.
Proof. destruct b; split_and!; reflexivity. Qed.
Lemma setw_add_r ok i b s : add_r ok (setw i b s) = setw i b (add_r ok s).
Proof. unfold add_r, setw. destruct ok, b; ds s; sm; reflexivity. Qed.
Lemma setr_add_r ok i b s : add_r ok (setr i b s) = setr i b (add_r ok s).
Proof. unfold add_r, setr. destruct ok; ds s; sm; reflexivity. Qed.
Lemma add_r_fields ok s : let a := add_r ok s in rd a = rd s /\ wr a = wr s /\ sf a = sf s /\ er a = er s /\ ew a = ew s /\ br a = br s /\ bw a = bw s /\ rev a = true /\ wev a = wev s /\
  rrdy a = rrdy s /\ rrdy2 a = rrdy2 s /\ wrdy2 a = wrdy2 s /\ loc a = loc s /\ pc a = pc s /\ cl a = cl s /\ lin a = lin s /\ lout a = lout s /\ iss a = iss s /\ done_ a = done_ s.
Proof. unfold add_r. destruct ok; ds s; sm; split_and!; reflexivity. Qed.
Lemma add_w_fields ok s : let a := add_w ok s in rd a = rd s /\ wr a = wr s /\ sf a = sf s /\ er a = er s /\ ew a = ew s /\ br a = br s /\ bw a = bw s /\ rev a = rev s /\ wev a = true /\
  rrdy a = rrdy s /\ rrdy2 a = rrdy2 s /\ wrdy2 a = wrdy2 s /\ loc a = loc s /\ pc a = pc s /\ cl a = cl s /\ lin a = lin s /\ lout a = lout s /\ iss a = iss s /\ done_ a = done_ s.
Proof. unfold add_w. destruct ok; ds s; sm; split_and!; reflexivity. Qed.
(** waiting, from a state that is consistent once the filters are there *)
Lemma wait_write_core okr okw s : (rev s = true -> core s) -> (rev s = false -> core (add_r okr s)) -> wr s = true -> wrdy2 s = false -> (wev s = true -> rev s = true) ->
  (sf s = true -> okr = true /\ okw = true) -> (loc s <> LNone -> rd s = true) -> cl s = false ->
  let s' := wait_write okr okw s in core s' /\ rd s' = rd s /\ pc s' = pc s /\ cl s' = false /\ (loc s' <> LNone -> loc s <> LNone \/ wr s' = true).
Proof.
  intros H1 H2 H3 H4 H5 H6 H7 H8. cbv zeta. rewrite wait_write_cases. destruct (wev s) eqn:Ew.
  { specialize (H1 (H5 eq_refl)). split; [apply core_loc; auto|sm; auto]. }
  set (a := if rev s then _ else _). cbv zeta. set (k := if rev s then _ else _).
  assert (A: core a /\ wr a = true /\ sf a = sf s /\ wrdy2 a = false /\ loc a = loc s /\ rd a = rd s /\ cl a = false /\ pc a = pc s /\ ew a = ew s).
  { subst a. pose proof (add_r_fields okr s) as F. cbv zeta in F. destruct (rev s) eqn:Er.
    - split; [by apply core_add_w; auto|]. pose proof (add_w_fields okw s) as F2. cbv zeta in F2. decompose [and] F2. split_and!; congruence.
    - pose proof (add_w_fields (okr && okw) (add_r okr s)) as F2. cbv zeta in F2. split; [apply core_add_w; [auto|tauto|destruct F as (_&_&_&_&_&_&_&_&_&_&_&_&_&_&->&_); done]|]. decompose [and] F; decompose [and] F2. split_and!; congruence. }
  destruct A as (A1 & A2 & A3 & A4 & A5 & A6 & A7 & A8 & A9). clearbody a.
  destruct k eqn:Ek; [split; [apply core_loc; auto|sm; split_and!; auto]|].
  assert (sf s = false). { destruct (sf s); [|done]. destruct H6 as [-> ->]; [done|]. subst k. by destruct (rev s). }
  split; [|sm; rewrite A5; split_and!; auto]. rewrite <- A9. apply core_fail_w; [auto|auto|congruence|auto|rewrite A5, A6; auto].
Qed.
Lemma wait_read_core ok s : (rev s = true -> core s) -> (rev s = false -> core (add_r ok s)) -> rd s = true -> rrdy2 s = false -> (loc s <> LNone -> wr s = true) -> cl s = false ->
  let s' := wait_read ok s in core s' /\ wr s' = wr s /\ pc s' = pc s /\ cl s' = false.
Proof.
  intros H1 H2 H3 H4 H7 H8. cbv zeta. rewrite wait_read_cases. destruct (rev s) eqn:Er.
  { split; [apply core_loc; auto|sm; auto]. }
  specialize (H2 eq_refl). pose proof (add_r_fields ok s) as F. cbv zeta in F. destruct F as (F1 & F2 & F3 & F4 & F5 & F6 & F7 & F8 & F9 & F10 & F11 & F12 & F13 & F14 & F15 & _).
  destruct ok; [split; [apply core_loc; [auto|left; congruence]|sm; split_and!; congruence]|].
  split; [|sm; split_and!; congruence]. rewrite <- F4. apply core_fail_r; [auto|congruence|congruence|rewrite F13, F2; auto].
Qed.
Lemma write_event_core main okr okw r s : core s -> wr s = true -> (loc s <> LNone -> rd s = true) -> cl s = false ->
  (sf s = true -> okr = true /\ okw = true /\ (main = false -> r <> RFail)) -> exists s', write_event main okr okw r s = Some s' /\
  core s' /\ rd s' = rd s /\ pc s' = pc s /\ cl s' = false /\ (loc s' <> LNone -> loc s <> LNone \/ wr s' = true).
Proof.
  intros HC H1 H2 H3 H4. destruct (write_event_cases main okr okw r s HC H1) as [(v & l & d & -> & L1 & L2 & L3)|[(-> & W2 & Hb & Hl)|(W1 & W2 & W3 & W4 & ->)]].
  - intros. apply H4; done.
  - eexists. split; [reflexivity|]. split; [by apply write_call_core|]. sm. auto.
  - assert (Hrv: rev s = true) by (destruct (i_wr _ HC H1); congruence).
    destruct (wait_write_core okr okw (s_wrdy false s)) as (A & B & C & D & E); sm; auto.
    + intros _. by apply core_wrdy.
    + congruence.
    + intros X. destruct (H4 X) as (? & ? & ?). done.
    + eexists. split; [reflexivity|]. auto.
  - eexists. split; [reflexivity|]. split; [apply core_loc; auto|]. sm. auto.
Qed.
Lemma step_read s i direct buf ok r : inv s -> rd s = false -> good (step false s (ERead i direct buf ok r)).
Proof.
  intros [HC HP] Hrd. cbn [step]. destruct (no_call i s) eqn:Eb; [done|]. unfold no_call in Eb. apply orb_false_iff in Eb as [Eb Ei]. apply orb_false_iff in Eb as [Eb Ecl]. rewrite Hrd.
  change (s_rd true _) with (setr i buf s). set (s1 := setr i buf s).
  assert (E: rrdy s1 = rrdy s /\ rd s1 = true /\ rrdy2 s1 = rrdy2 s /\ pc s1 = pc s /\ wr s1 = wr s /\ loc s1 = loc s /\ rev s1 = rev s /\ cl s1 = false) by (subst s1; done).
  destruct E as (E1 & E2 & E4 & E5 & E6 & E8 & E9 & E10).
  assert (E7: rrdy2 s = false) by (destruct (rrdy2 s) eqn:E; [|done]; apply (i_r2 _ HC) in E; naive_solver congruence).
  assert (HL: loc s1 <> LNone -> wr s1 = true) by (rewrite E8, E6; intros Hl; destruct (i_loc _ HC Hl); congruence).
  assert (HP': forall s2, pc s2 = pc s -> wr s2 = wr s -> pcok s2).
  { intros s2 X1 X2. unfold pcok, busy in *. rewrite X1. destruct (pc s); [done|done| |]; rewrite X2; destruct HP as [P1 P2]; (split; [intros P; specialize (P1 P)|done]).
    - destruct P1; congruence. - congruence. }
  assert (C1: rev s = true -> core s1) by (intros; by apply core_setr).
  assert (C2: rev s = false -> core (add_r ok s1)).
  { intros. subst s1. rewrite setr_add_r. pose proof (add_r_fields ok s) as F. cbv zeta in F. apply core_setr; [by apply core_add_r|decompose [and] F; congruence..]. }
  clearbody s1. rewrite E1. destruct (rrdy s) eqn:Er; [destruct direct|].
  - destruct (read_event_core ok r s1) as (s' & -> & A & B & C & D); [apply C1, (i_rr _ HC Er)|done|done|done|]. split; [exact A|]. apply HP'; congruence.
  - split; [apply core_loc; [apply C1, (i_rr _ HC Er)|auto]|]. apply HP'; sm; congruence.
  - destruct (wait_read_core ok s1) as (A & B & C & D); [by rewrite E9|by rewrite E9|done|congruence|done|done|]. split; [exact A|]. apply HP'; congruence.
Qed.
Lemma step_write s i direct b okr okw r : inv s -> normal s (EWrite i direct b okr okw r) -> good (step false s (EWrite i direct b okr okw r)).
Proof.
  intros [HC HP] [Hwr Hnf]. cbn [step]. destruct (no_call i s) eqn:Eb; [done|]. unfold no_call in Eb. apply orb_false_iff in Eb as [Eb Ei]. apply orb_false_iff in Eb as [Eb Ecl]. rewrite Hwr.
  assert (E7: wrdy2 s = false) by (destruct (wrdy2 s) eqn:E; [|done]; apply (i_w2 _ HC) in E; naive_solver congruence). rewrite E7.
  replace (_ || match b with BFile => false | _ => false end) with false by (by destruct b).
  change (match b with BFile => _ | _ => _ end) with (setw i b s).
  destruct (setw_fields i b s) as (F1 & F2 & F3 & F4 & F5 & F6 & F7 & F8 & F9 & F10 & F11 & F12).
  assert (C1: rev s = true -> core (setw i b s)) by (intros; by apply core_setw).
  assert (C2: rev s = false -> core (add_r okr (setw i b s))).
  { intros. rewrite setw_add_r. pose proof (add_r_fields okr s) as F. cbv zeta in F. apply core_setw; [by apply core_add_r|decompose [and] F; congruence..]. }
  set (s1 := setw i b s) in *. clearbody s1.
  assert (Esf: sf s = false) by (destruct (sf s) eqn:E; [|done]; apply (i_sf _ HC) in E; naive_solver congruence).
  assert (HB: sf s1 = true -> b = BFile) by (rewrite F12, Esf; by destruct b).
  assert (HL: loc s1 <> LNone -> rd s1 = true) by (rewrite F6, F7; intros Hl; destruct (i_loc _ HC Hl); congruence).
  assert (HP': forall s2, pc s2 = pc s -> rd s2 = rd s -> (loc s2 <> LNone -> loc s <> LNone \/ wr s2 = true) -> pcok s2).
  { intros s2 X1 X2 X3. unfold pcok, busy in *. rewrite X1. destruct (pc s); [done|done| |]; rewrite X2; destruct HP as [P1 P2].
    - split; [intros P|rewrite Hwr in P2; naive_solver]. destruct (P1 P) as [P3 P4]. split; [done|]. intros L. destruct (X3 L) as [Y|Y]; [|done]. specialize (P4 Y). congruence.
    - split; [done|rewrite Hwr in P2; naive_solver]. }
  rewrite F10. destruct (wrdy s) eqn:Er; [destruct direct|].
  - destruct (write_event_core false okr okw r s1) as (s' & -> & A & B & C & D & E); [apply C1, (i_wrr _ HC Er)|done|done|congruence| |].
    { intros X. destruct (Hnf (HB X)) as (? & ? & ?). auto. }
    split; [exact A|]. apply HP'; try congruence. rewrite F6 in E. done.
  - split; [apply core_loc; [apply C1, (i_wrr _ HC Er)|auto]|]. apply HP'; sm; try congruence. auto.
  - destruct (wait_write_core okr okw s1) as (A & B & C & D & E); [by rewrite F4|by rewrite F4|done|congruence| | |done|congruence|].
    + rewrite F4, F5. apply (i_wev _ HC).
    + intros X. destruct (Hnf (HB X)) as (? & ? & ?). auto.
    + split; [exact A|]. apply HP'; try congruence. rewrite F6 in E. done.
Qed.
Lemma core_pc p s : core s -> core (s_pc p s).
Proof. intros HC. dc HC. constructor; assumption. Qed.
Lemma core_connect i okr okw s : core s -> rd s = false -> wr s = false -> rev s = false -> cl s = false ->
  let s1 := (add_rw okr okw (s_wr true (s_bw BNone (s_ew i s)))).1 in
  core (s_wr false s1) /\ core (s_loc LConn (s_iss (iss s ++ [i]) s1)) /\ pc s1 = pc s /\ loc s1 = loc s /\ rd s1 = false /\ wr s1 = true.
Proof.
  intros HC H1 H2 H3 H4. cbv zeta. unfold add_rw, add_r, add_w. dc HC; ds s; unfold cnt in *; sm; subst.
  destruct okr, okw; cbn [andb]; sm; (split; [fin|split; [fin|split_and!; reflexivity]]).
Qed.
Lemma step_inv s e : inv s -> normal s e -> good (step false s e).
Proof.
  intros HI Hn. pose proof HI as [HC HP]. destruct e.
  - by apply step_read.
  - by apply step_write.
  - cbn [step]. destruct (no_call i s) eqn:Eb; [done|]. unfold no_call in Eb. apply orb_false_iff in Eb as [Eb Ei]. apply orb_false_iff in Eb as [Eb Ecl].
    destruct Hn as (N1 & N2 & N4).
    assert (N5: wev s = false) by (destruct (wev s) eqn:E; [|done]; apply (i_wev _ HC) in E; congruence).
    rewrite N1, N2, N4, N5. cbn [orb].
    destruct (core_connect i okr okw s HC N1 N2 N4 Ecl) as (A & B & C & D & E & F). destruct (add_rw _ _ _) as [s1 r]. cbn [fst] in *.
    assert (HP': forall s2, pc s2 = pc s -> pcok s2).
    { intros s2 X. unfold pcok, busy in *. rewrite X. destruct (pc s); [done|done| |]; destruct HP as [P1 P2]; split; intros Y.
      - destruct (P1 Y); congruence. - specialize (P2 Y). congruence. - specialize (P1 Y). congruence. - specialize (P2 Y). congruence. }
    destruct r; (split; [done|apply HP'; sm; done]).
  - cbn [step]. destruct (busy s || cl s) eqn:Eb; [done|]. apply orb_false_iff in Eb as [Eb Ecl]. destruct Hn as (N1 & N2).
    destruct (decide _) as [El|El]; [|destruct (i_loc _ HC El); congruence]. split.
    + assert (N3: sf s = false) by (destruct (sf s) eqn:E; [|done]; apply (i_sf _ HC) in E; naive_solver congruence).
      assert (N4: rrdy2 s = false) by (destruct (rrdy2 s) eqn:E; [|done]; apply (i_r2 _ HC) in E; naive_solver congruence).
      assert (N5: wrdy2 s = false) by (destruct (wrdy2 s) eqn:E; [|done]; apply (i_w2 _ HC) in E; naive_solver congruence).
      dc HC; ds s; unfold cnt in *; sm; subst. destruct (rev0 || wev0) eqn:Er; sm; [fin|]. apply orb_false_iff in Er as [-> ->]. fin.
    + assert (HP': forall s2, pc s2 = pc s -> pcok s2).
      { intros s2 X. unfold pcok, busy in *. rewrite X. destruct (pc s); [done|done| |]; destruct HP as [P1 P2]; split; intros Y.
        - destruct (P1 Y); congruence. - specialize (P2 Y). congruence. - specialize (P1 Y). congruence. - specialize (P2 Y). congruence. }
      apply HP'. by destruct (rev s || wev s).
  - cbn [step]. destruct (no_call i s) eqn:Eb; [done|]. unfold no_call in Eb. apply orb_false_iff in Eb as [Eb Ei]. apply orb_false_iff in Eb as [Eb Ecl].
    destruct Hn as (N1 & N2). assert (E7: rrdy2 s = false) by (destruct (rrdy2 s) eqn:E; [|done]; apply (i_r2 _ HC) in E; naive_solver congruence).
    rewrite N1, E7. cbn [orb]. split.
    + dc HC; ds s; unfold cnt in *; sm; subst; fin.
    + unfold pcok, busy in *. sm. destruct (pc s); [done|done| |]; destruct HP as [P1 P2]; (split; [intros Y; try done|exact P2]). destruct (P1 Y); congruence.
  - cbn [step]. destruct (no_call i s) eqn:Eb; [done|]. unfold no_call in Eb. apply orb_false_iff in Eb as [Eb Ei]. apply orb_false_iff in Eb as [Eb Ecl].
    cbn [normal] in Hn. assert (E7: wrdy2 s = false) by (destruct (wrdy2 s) eqn:E; [|done]; apply (i_w2 _ HC) in E; naive_solver congruence).
    rewrite Hn, E7. cbn [orb].
    assert (E8: sf s = false) by (destruct (sf s) eqn:E; [|done]; apply (i_sf _ HC) in E; naive_solver congruence). split.
    + dc HC; ds s; unfold cnt in *; sm; subst; fin.
    + unfold pcok, busy in *. sm. destruct (pc s); [done|done| |]; destruct HP as [P1 P2]; (split; [intros Y; try naive_solver|done]).
  - cbn [step]. destruct (pc s) eqn:Ep; try done. destruct (pr s) eqn:Er; [|done]. cbn [negb]. sm.
    assert (Hrv: rev s = true) by (by apply (i_kr _ HC), (i_pr _ HC)).
    destruct (rd s) eqn:Ed; (split; [dc HC; ds s; unfold cnt in *; sm; subst; fin|by unfold pcok; sm; rewrite Ep]).
  - cbn [step]. destruct (pc s) eqn:Ep; try done. destruct (pw s) eqn:Er; [|done]. cbn [negb]. sm.
    assert (Hrv: rev s = true) by (by apply (i_wev _ HC), (i_kw _ HC), (i_pw _ HC)).
    destruct (wr s) eqn:Ed; (split; [dc HC; ds s; unfold cnt in *; sm; subst; fin|by unfold pcok; sm; rewrite Ep]).
  - cbn [step]. destruct (pc s) eqn:Ep; try done. destruct (decide _) as [El|]; [|done]. split.
    + dc HC; ds s; unfold cnt in *; sm; subst; fin.
    + unfold pcok. sm. unfold take_snap. sm. split_and!; try done. destruct (cl s) eqn:E; [|done]. destruct (i_cl _ HC E) as (X & Y & _). destruct (i_loc _ HC); congruence.
  - cbn [step]. destruct (pc s) as [|n| |] eqn:Ep; try done. unfold pcok in HP. rewrite Ep in HP. destruct HP as (-> & Hl & Hcl). unfold take_snap. sm.
    destruct (_ && _) eqn:E.
    + apply andb_prop in E as [_ E]. destruct (write_event_core true okr okw r s) as (s' & -> & A & B & C & D & F); [done|done|congruence|done| |].
      { intros X. destruct (Hn X). auto. }
      split; [by apply core_pc|]. unfold pcok. sm. split; [|done]. intros X. split; [congruence|]. intros L. destruct (F L); congruence.
    + split; [by apply core_pc|]. unfold pcok. sm. split; [|done]. intros X. split; congruence.
  - cbn [step]. destruct (pc s) as [| |n|] eqn:Ep; try done. unfold pcok in HP. rewrite Ep in HP. destruct HP as (P1 & P2).
    destruct (_ && _) eqn:E.
    + apply andb_prop in E as [_ E]. destruct (P1 E) as [P3 P4].
      destruct (cl s) eqn:Ecl; [destruct (i_cl _ HC Ecl); congruence|].
      destruct (read_event_core ok r s) as (s' & -> & A & B & C & D); [done..|].
      split; [by apply core_pc|]. unfold pcok. sm. split; [done|]. by rewrite B.
    + split; [by apply core_pc|]. unfold pcok. sm. split; [|done]. intros X. by destruct (P1 X).
  - cbn [step]. destruct (pc s) as [| | |n] eqn:Ep; try done. unfold pcok in HP. rewrite Ep in HP. destruct HP as (P1 & P2).
    destruct (_ && _) eqn:E; [|split; [by apply core_pc|done]].
    apply andb_prop in E as [E _]. assert (X: rd s = true \/ wr s = true) by (apply orb_prop in E as [E|E]; auto).
    destruct (cl s) eqn:Ecl; [destruct (i_cl _ HC Ecl) as (? & ? & _); destruct X; congruence|].
    rewrite list_rw_eq. split; [by apply core_pc, core_loc|done].
  - cbn [step]. destruct (pc s) eqn:Ep; try done. destruct (decide _) as [El|]; [|done]. cbn [andb]. split; [|by unfold pcok; sm; rewrite Ep].
    dc HC; ds s; unfold cnt in *; sm; subst; fin.
  - cbn [step]. destruct (cl s) eqn:Ecl; [done|]. split.
    + dc HC; ds s; unfold cnt in *; sm; subst; fin.
    + exact HP.
  - cbn [step]. destruct (cl s) eqn:Ecl; [done|]. split.
    + dc HC; ds s; unfold cnt in *; sm; subst; fin.
    + exact HP.
  - cbn [step]. destruct (cl s) eqn:Ecl; [done|]. split.
    + dc HC; ds s; unfold cnt in *; sm; subst; fin.
    + exact HP.
Qed.
