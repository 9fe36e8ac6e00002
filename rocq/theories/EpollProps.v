(** C49: requests on a socket of the epoll selector. *)
From Verif Require Import EpollModel EpollProof EpollProof2 EpollProof3.
Local Open Scope Z_scope.

(** * Specification *)
(** executions in which every step satisfies [P]; [tr]: the steps so far *)
Inductive reach (P : ep -> ev -> Prop) : list ev -> ep -> Prop :=
| reach_nil : reach P [] ep_init
| reach_snoc tr s e s' o : reach P tr s -> P s e -> step false s e = Ok s' o -> reach P (tr ++ [e]) s'.
(** the caller keeps the rules ([normal]); epoll_ctl does not fail; readhup is asked for before the peer has closed *)
Definition sane (s : ep) (e : ev) : Prop := normal s e /\ okev e.
Definition sane_hup (s : ep) (e : ev) : Prop := normal s e /\ okev e /\ hupev s e.
(** how often the callback of request i has been called *)
Definition calls (i : nat) (s : ep) : nat := length (filter (fun c => c.1 = i) (done_ s)).
Definition pending (i : nat) (s : ep) : Prop := (rd s = true /\ er s = i) \/ (wr s || hup s = true /\ ew s = i).
(** one turn of the selector loop for this socket, no further requests being made in it *)
Definition turn (s : ep) (r1 r2 : sysres) : list ev :=
  (if edge s then [EReport] else []) ++ [EPop; EWEv true r1; EREv true r2; EFin].

(** * Lemmas *)
Lemma reach_mono (P Q : ep -> ev -> Prop) tr s : (forall s e, P s e -> Q s e) -> reach P tr s -> reach Q tr s.
Proof. intros H. induction 1; [constructor|]. econstructor; eauto. Qed.
Lemma reach_inv1 tr s : reach normal tr s -> inv s.
Proof.
  induction 1 as [|tr s e s' o H IH Hn Hs]; [apply inv_init|]. pose proof (step_inv s e IH Hn) as Hg. by rewrite Hs in Hg.
Qed.
Lemma reach_inv2 tr s : reach sane tr s -> inv s /\ inv2 s /\ inv3 s.
Proof.
  induction 1 as [|tr s e s' o H (I1 & I2 & I3) [Hn Ho] Hs]; [split_and!; [apply inv_init|apply inv2_init|apply inv3_init]|].
  split_and!; [|by eapply step2_ok|by eapply step3_ok]. pose proof (step_inv s e I1 Hn) as Hg. by rewrite Hs in Hg.
Qed.
Lemma reach_inv4 tr s : reach sane_hup tr s -> inv s /\ inv2 s /\ inv4 s.
Proof.
  induction 1 as [|tr s e s' o H (I1 & I2 & I3) (Hn & Ho & Hh) Hs]; [split_and!; [apply inv_init|apply inv2_init|apply inv4_init]|].
  split_and!; [|by eapply step2_ok|by eapply step4_ok]. pose proof (step_inv s e I1 Hn) as Hg. by rewrite Hs in Hg.
Qed.

(** what a step does to the bookkeeping *)
Lemma wait_read_frame ok s : let s' := wait_read ok s in iss s' = iss s /\ sup s' = sup s /\ hup s' = hup s /\ ew s' = ew s /\ bufw s' = bufw s.
Proof.
  cbv zeta. unfold wait_read, add_event. destruct (rev s) eqn:E; [by rewrite list_rw_eq|]. destruct (ok && _); [rewrite list_rw_eq|]; by destruct s.
Qed.
Lemma wait_write_frame ok s : let s' := wait_write ok s in iss s' = iss s /\ sup s' = sup s /\ hup s' = hup s /\ ew s' = ew s.
Proof.
  cbv zeta. unfold wait_write, add_event. destruct (wev s) eqn:E; [by rewrite list_rw_eq|]. destruct (ok && _); [rewrite list_rw_eq|]; by destruct s.
Qed.
Lemma read_event_frame ok r s s' : read_event ok r s = Some s' -> iss s' = iss s /\ sup s' = sup s /\ (hup s' = true -> hup s = true) /\ ew s' = ew s /\ bufw s' = bufw s.
Proof.
  unfold read_event. set (s1 := s_rrdy2 false _). assert (H: iss s1 = iss s /\ sup s1 = sup s /\ hup s1 = hup s /\ ew s1 = ew s /\ bufw s1 = bufw s) by (subst s1; by destruct (et s)).
  destruct H as (<- & <- & <- & <- & <-). clearbody s1. destruct (bufr s1); cbn [negb]; [|by intros [= <-]].
  destruct (try_in r s1) as [s2 v] eqn:Et.
  assert (H: iss s2 = iss s1 /\ sup s2 = sup s1 /\ hup s2 = hup s1 /\ ew s2 = ew s1 /\ bufw s2 = bufw s1).
  { revert Et. destruct r; cbn [try_in]; [destruct (lin s1)|]; by intros [= <- <-]. }
  destruct H as (<- & <- & <- & <- & <-). destruct v; [by intros [= <-]|]. destruct (rd s2); [done|]. intros [= <-].
  destruct (wait_read_frame ok (s_hup false (s_rd true (s_rrdy false s2)))) as (-> & -> & -> & -> & ->). done.
Qed.
Lemma write_event_frame ok r s : let s' := write_event ok r s in iss s' = iss s /\ sup s' = sup s /\ hup s' = false /\ ew s' = ew s.
Proof.
  cbv zeta. unfold write_event. set (s0 := s_sf false _). assert (H: iss s0 = iss s /\ sup s0 = sup s /\ hup s0 = false /\ ew s0 = ew s) by (subst s0; done).
  destruct H as (<- & <- & Hh & <-). clearbody s0. destruct (negb (sf s) && err s0); [done|].
  set (s1 := if sf s then s0 else _). assert (H: iss s1 = iss s0 /\ sup s1 = sup s0 /\ hup s1 = false /\ ew s1 = ew s0) by (subst s1; by destruct (sf s)).
  destruct H as (<- & <- & Hh1 & <-). clearbody s1. destruct (bufw s1); cbn [negb]; [|done].
  destruct (try_out r s1) as [s2 v] eqn:Et.
  assert (H: iss s2 = iss s1 /\ sup s2 = sup s1 /\ hup s2 = hup s1 /\ ew s2 = ew s1).
  { revert Et. destruct r; cbn [try_out]; [destruct (lout s1)|]; by intros [= <- <-]. }
  destruct H as (<- & <- & H3 & <-). destruct v; [cbn; by rewrite H3|].
  destruct (wait_write_frame ok (s_sf (sf s) (s_wr true (s_wrdy false s2)))) as (-> & -> & -> & ->). cbn. by rewrite H3.
Qed.
Lemma step_frame s e s' o : step false s e = Ok s' o ->
  (iss s' = iss s \/ exists i, i ∉ iss s /\ iss s' = iss s ++ [i]) /\
  (forall i, i ∈ sup s' -> i ∈ sup s \/ (hup s = true /\ ew s = i) \/ exists ok, e = EReadhup i ok) /\
  (hup s' = true -> (hup s = true /\ ew s' = ew s /\ bufw s' = bufw s) \/ (bufw s' = false /\ exists ok, e = EReadhup (ew s') ok)).
Proof.
  assert (Hacc: forall i, sup (accept i s) = if hup s then sup s ++ [ew s] else sup s) by done.
  assert (Hsup: forall i j, i ∈ sup (accept j s) -> i ∈ sup s \/ (hup s = true /\ ew s = i)).
  { intros i j. rewrite Hacc. destruct (hup s); [|by left]. rewrite elem_of_app, elem_of_list_singleton. naive_solver. }
  assert (Hni: forall b i, b || bool_decide (i ∈ iss s) = false -> i ∉ iss s).
  { intros b i H. apply orb_false_iff in H as [_ H]. by apply bool_decide_eq_false_1 in H. }
  destruct e; cbn [step].
  - destruct (busy s || _) eqn:Eb; [done|]. apply Hni in Eb. destruct (rd s); [done|].
    set (s1 := s_hup false _). assert (H: iss s1 = iss s ++ [i] /\ sup s1 = sup (accept i s) /\ hup s1 = false) by done. destruct H as (H1 & H2 & H3). clearbody s1.
    assert (HB: forall s2, iss s2 = iss s1 -> sup s2 = sup s1 -> hup s2 = false ->
      (iss s2 = iss s \/ exists j, j ∉ iss s /\ iss s2 = iss s ++ [j]) /\ (forall j, j ∈ sup s2 -> j ∈ sup s \/ (hup s = true /\ ew s = j) \/ exists ok', ERead i direct buf ok r = EReadhup j ok') /\
      (hup s2 = true -> (hup s = true /\ ew s2 = ew s /\ bufw s2 = bufw s) \/ (bufw s2 = false /\ exists ok', ERead i direct buf ok r = EReadhup (ew s2) ok'))).
    { intros s2 -> -> ->. rewrite H1, H2. split_and!; [right; by exists i| |done]. intros j Hj. apply Hsup in Hj. tauto. }
    destruct (rrdy s1); [destruct direct|].
    + destruct (read_event ok r s1) as [s2|] eqn:E2; [|done]. intros [= <- <-]. apply read_event_frame in E2 as (A & B & C & D & D').
      apply HB; [done|done|]. destruct (hup s2); [|done]. rewrite H3 in C. by specialize (C eq_refl).
    + intros [= <- <-]. by apply HB.
    + intros [= <- <-]. destruct (wait_read_frame ok s1) as (A & B & C & D & D'). apply HB; congruence.
  - destruct (busy s || _ || _) eqn:Eb; [done|]. apply orb_false_iff in Eb as [Eb _]. apply Hni in Eb. destruct (wr s || sf s || negb file && wrdy2 s); [done|].
    set (s1 := s_sf file _). assert (H: iss s1 = iss s ++ [i] /\ sup s1 = sup (accept i s) /\ hup s1 = false) by done. destruct H as (H1 & H2 & H3). clearbody s1.
    assert (HB: forall s2, iss s2 = iss s1 -> sup s2 = sup s1 -> hup s2 = false ->
      (iss s2 = iss s \/ exists j, j ∉ iss s /\ iss s2 = iss s ++ [j]) /\ (forall j, j ∈ sup s2 -> j ∈ sup s \/ (hup s = true /\ ew s = j) \/ exists ok', EWrite i direct buf file ok r = EReadhup j ok') /\
      (hup s2 = true -> (hup s = true /\ ew s2 = ew s /\ bufw s2 = bufw s) \/ (bufw s2 = false /\ exists ok', EWrite i direct buf file ok r = EReadhup (ew s2) ok'))).
    { intros s2 -> -> ->. rewrite H1, H2. split_and!; [right; by exists i| |done]. intros j Hj. apply Hsup in Hj. tauto. }
    destruct (wrdy s1); [destruct direct|].
    + intros [= <- <-]. destruct (write_event_frame ok r s1) as (A & B & C & D). by apply HB.
    + intros [= <- <-]. by apply HB.
    + intros [= <- <-]. destruct (wait_write_frame ok s1) as (A & B & C & D). apply HB; congruence.
  - destruct (busy s || _) eqn:Eb; [done|]. apply Hni in Eb. destruct (rd s || wr s || hup s || rev s || wev s) eqn:Ex; [done|].
    rewrite !orb_false_iff in Ex. destruct Ex as ((((_ & _) & Hh) & _) & _).
    pose proof (add_event_frame true ok (s_wr true (s_bufw false (s_ew i s)))) as F. cbv zeta in F.
    assert (Hs: sup (add_event true ok (s_wr true (s_bufw false (s_ew i s)))).1 = sup s) by (unfold add_event; by destruct (ok && _)).
    destruct (add_event _ _ _) as [s1 []]; cbn [fst] in *; destruct F as (F1 & F2 & F3 & F4 & F5 & F6 & F7 & F8 & F9 & F10 & F11 & F12 & F13 & F14 & F15);
    intros [= <- <-]; cbn; rewrite Hs, F3; cbn; rewrite Hh.
    + split_and!; [right; by exists i|tauto|done].
    + split_and!; [left; by rewrite F14|tauto|done].
  - destruct (busy s || _) eqn:Eb; [done|]. apply Hni in Eb. destruct (rd s || wr s) eqn:Ex.
    { intros [= <- <-]. split_and!; [by left|tauto|by left]. }
    set (s1 := s_hup true _). assert (H: iss s1 = iss s ++ [i] /\ sup s1 = sup (accept i s) /\ ew s1 = i /\ bufw s1 = false) by done. destruct H as (H1 & H2 & H3 & H4). clearbody s1.
    destruct (rev s1 || wev s1).
    { intros [= <- <-]. rewrite H1, H2. split_and!; [right; by exists i| |right; split; [done|]; exists ok; by rewrite H3]. intros j Hj. apply Hsup in Hj. tauto. }
    pose proof (add_event_frame true ok s1) as F. cbv zeta in F.
    assert (Hs: sup (add_event true ok s1).1 = sup s1) by (unfold add_event; by destruct (ok && _)).
    destruct (add_event _ _ _) as [s2 []]; cbn [fst] in *; destruct F as (F1 & F2 & F3 & F4 & F5 & F6 & F7 & F8 & F9 & F10 & F11 & F12 & F13 & F14 & F15);
    intros [= <- <-]; cbn; rewrite Hs, F14, H1, H2, ?F6, ?F8, ?H3.
    + split_and!; [right; by exists i| |right; split; [done|by exists ok]]. intros j Hj. apply Hsup in Hj. tauto.
    + split_and!; [right; by exists i| |done]. intros j Hj. apply elem_of_app in Hj as [Hj|Hj]; [apply Hsup in Hj; tauto|].
      apply elem_of_list_singleton in Hj as ->. right; right. by exists ok.
  - destruct (busy s); [done|]. destruct (hup s) eqn:Eh; cbn [negb]; [|intros [= <- <-]; split_and!; [by left|tauto|congruence]].
    destruct (rd s || wr s); [done|]. set (s1 := s_sup _ _). assert (H: iss s1 = iss s /\ sup s1 = sup s ++ [ew s] /\ hup s1 = false) by done. destruct H as (H1 & H2 & H3).
    clearbody s1. unfold remove. assert (A: (iss s1 = iss s \/ exists j, j ∉ iss s /\ iss s1 = iss s ++ [j]) /\ (forall j, j ∈ sup s1 -> j ∈ sup s \/ (true = true /\ ew s = j) \/ exists ok', ERemoveHup = EReadhup j ok') /\
      (hup s1 = true -> (true = true /\ ew s1 = ew s /\ bufw s1 = bufw s) \/ (bufw s1 = false /\ exists ok', ERemoveHup = EReadhup (ew s1) ok'))).
    { rewrite H1, H2, H3. split_and!; [by left| |done]. intros j. rewrite elem_of_app, elem_of_list_singleton. naive_solver. }
    destruct (negb (rev s1 || wev s1)); [by intros [= <- <-]|]. destruct (rd s1 || wr s1 || hup s1); [done|]. intros [= <- <-]. exact A.
  - destruct (busy s); [done|]. unfold remove. destruct (negb (rev s || wev s)); [intros [= <- <-]; split_and!; [by left|tauto|by left]|].
    destruct (rd s || wr s || hup s); [done|]. intros [= <- <-]. split_and!; [by left|cbn; tauto|by left].
  - destruct (busy s || _) eqn:Eb; [done|]. apply Hni in Eb. destruct (rd s || rrdy2 s); [done|]. intros [= <- <-].
    split_and!; [right; by exists i| |done]. intros j Hj. apply (Hsup j i) in Hj. tauto.
  - destruct (busy s || _) eqn:Eb; [done|]. apply Hni in Eb. destruct (wr s || wrdy2 s); [done|]. intros [= <- <-].
    split_and!; [right; by exists i| |done]. intros j Hj. apply (Hsup j i) in Hj. tauto.
  - destruct (pc s) eqn:Ep; try done. destruct (reg s) as [out|] eqn:Er; [|done]. destruct (edge s) eqn:Ee; [|done].
    pose proof (report_eq false s out Ep Er Ee) as Hq. cbn [step] in Hq. rewrite Ep, Er, Ee in Hq. rewrite Hq. intros [= <- <-].
    split_and!; [by left|cbn; tauto|by left].
  - destruct (pc s); try done. destruct (decide _); [|done]. intros [= <- <-]. split_and!; [by left|cbn; tauto|by left].
  - destruct (pc s) as [|n| |]; try done. destruct (n_w n && _); intros [= <- <-]; [|split_and!; [by left|cbn; tauto|by left]].
    destruct (write_event_frame ok r s) as (A & B & C & D). cbn. rewrite A, B, C. split_and!; [by left|tauto|done].
  - destruct (pc s) as [| |n|]; try done. destruct (n_r n && _); [|intros [= <- <-]; split_and!; [by left|cbn; tauto|by left]].
    destruct (read_event ok r s) as [s2|] eqn:E2; [|done]. intros [= <- <-]. apply read_event_frame in E2 as (A & B & C & D & D').
    cbn. rewrite A, B, D, D'. split_and!; [by left|tauto|auto].
  - destruct (pc s) as [| | |n]; try done. intros [= <- <-]. destruct (_ && _ && _); (split_and!; [by left|cbn; tauto|by left]).
  - destruct (pc s); try done. destruct (decide _); [|done]. cbn [andb]. intros [= <- <-]. split_and!; [by left|cbn; tauto|by left].
  - intros [= <- <-]. split_and!; [by left|cbn; tauto|by left].
  - destruct (reg _) as [[]|]; intros [= <- <-]; (split_and!; [by left|cbn; tauto|by left]).
  - intros [= <- <-]. split_and!; [by left|cbn; tauto|by left].
  - intros [= <- <-]. split_and!; [by left|cbn; tauto|by left].
Qed.
Lemma reach_nodup P tr s : reach P tr s -> NoDup (iss s).
Proof.
  induction 1 as [|tr s e s' o H IH Hn Hs]; [constructor|]. apply step_frame in Hs as ([->|(i & Hi & ->)] & _); [done|].
  apply NoDup_app. split_and!; [done|set_solver|apply NoDup_singleton].
Qed.
Lemma reach_sup P tr s : reach P tr s -> (hup s = true -> exists ok, EReadhup (ew s) ok ∈ tr) /\ forall i, i ∈ sup s -> exists ok, EReadhup i ok ∈ tr.
Proof.
  induction 1 as [|tr s e s' o H [IH1 IH2] Hn Hs]; [split; [done|intros i Hi; by apply elem_of_nil in Hi]|].
  apply step_frame in Hs as (_ & A & B).
  assert (C: forall i, (exists ok, EReadhup i ok ∈ tr) -> exists ok, EReadhup i ok ∈ tr ++ [e]) by (intros i [ok Hi]; exists ok; apply elem_of_app; by left).
  assert (D: forall i, (exists ok, e = EReadhup i ok) -> exists ok, EReadhup i ok ∈ tr ++ [e]) by (intros i [ok ->]; exists ok; apply elem_of_app; right; by apply elem_of_list_singleton).
  split.
  - intros Hh. destruct (B Hh) as [(H1 & H2 & _)|[_ H1]]; [rewrite H2; auto|auto].
  - intros i Hi. destruct (A i Hi) as [H1|[[H1 <-]|H1]]; auto.
Qed.
Lemma reach_hupbuf P tr s : reach P tr s -> hup s = true -> bufw s = false.
Proof.
  induction 1 as [|tr s e s' o H IH Hn Hs]; [done|]. apply step_frame in Hs as (_ & _ & B). intros Hh. destruct (B Hh) as [(H1 & _ & ->)|[? _]]; auto.
Qed.
Lemma occ_calls x (l : list (nat * Z)) : occ x (l.*1) = Z.of_nat (length (filter (fun c => c.1 = x) l)).
Proof.
  induction l as [|[a v] l IH]; [done|]. rewrite fmap_cons, occ_cons, filter_cons, IH. cbn [fst].
  case_bool_decide; destruct (decide _); cbn [b2z length]; try done; lia.
Qed.
Lemma occ_one x i : occ x [i] = if decide (x = i) then 1 else 0.
Proof. rewrite occ_cons. case_bool_decide; destruct (decide _); cbn; congruence || lia. Qed.
Lemma once_aux s : inv s -> NoDup (iss s) -> forall i, i ∈ iss s ->
  (calls i s = 1%nat /\ ~ pending i s /\ i ∉ sup s) \/ (calls i s = 0%nat /\ pending i s /\ i ∉ sup s) \/ (calls i s = 0%nat /\ ~ pending i s /\ i ∈ sup s).
Proof.
  intros [HC _] HN i Hi. pose proof (i_cnt _ _ _ HC i) as H. unfold cnt in H. rewrite occ_calls in H. fold (calls i s) in H.
  assert (Ho: occ i (iss s) = 1) by (pose proof (proj1 (occ_nodup _) HN i); apply occ_in in Hi; lia). rewrite Ho in H.
  pose proof (occ_nonneg i (sup s)) as Hs. rewrite !occ_one in H. rewrite occ_in. unfold pending.
  destruct (rd s), (wr s || hup s); repeat (destruct (decide (_ = _))); try lia; subst;
   first [left; split_and!; [lia|naive_solver|lia] | right; left; split_and!; [lia|naive_solver|lia] | right; right; split_and!; [lia|naive_solver|lia]| left; split_and!; [lia|naive_solver congruence|lia]].
Qed.

(** * C49 *)
(** no assertion of the selector fails for a caller who keeps the rules, whether or not epoll_ctl fails *)
Theorem C49_safe_partial tr s e : reach normal tr s -> normal s e -> step false s e <> Crash.
Proof. intros H Hn Hc. apply reach_inv1 in H. pose proof (step_inv s e H Hn) as Hg. by rewrite Hc in Hg. Qed.
(** every accepted request is called back once, or is pending, or is a readhup request that was replaced or removed; nothing
    else is ever called *)
Theorem C49_once_partial tr s : reach normal tr s ->
  (forall i, i ∈ iss s ->
    (calls i s = 1%nat /\ ~ pending i s /\ i ∉ sup s) \/ (calls i s = 0%nat /\ pending i s /\ i ∉ sup s) \/
    (calls i s = 0%nat /\ ~ pending i s /\ i ∈ sup s)) /\
  (forall i, i ∈ sup s -> exists ok, EReadhup i ok ∈ tr) /\
  (forall i v, (i, v) ∈ done_ s -> i ∈ iss s).
Proof.
  intros H. pose proof (reach_inv1 _ _ H) as HI. split_and!.
  - apply once_aux; [done|]. by eapply reach_nodup.
  - by apply (reach_sup _ _ _ H).
  - intros i v Hi. destruct HI as [HC _]. pose proof (i_cnt _ _ _ HC i) as G. unfold cnt in G. apply occ_in. rewrite G.
    assert (0 < occ i (done_ s).*1) by (apply occ_in, elem_of_list_fmap; by exists (i, v)).
    pose proof (occ_nonneg i (sup s)). pose proof (occ_nonneg i [er s]). pose proof (occ_nonneg i [ew s]). destruct (rd s), (wr s || hup s); lia.
Qed.
(** the callback the loop makes for a read carries the result of the transfer *)
Theorem C49_read_value tr s ok r s' o : reach normal tr s -> step false s (EREv ok r) = Ok s' o -> ok = true ->
  done_ s' = done_ s \/ (rd s = true /\ rd s' = false /\ done_ s' = done_ s ++ [(er s, if bufr s then match r with RGot n _ => Z.of_nat n | RFail => -1 end else 0)]).
Proof.
  intros H Hs ->. apply reach_inv1 in H. destruct H as [HC HP]. revert Hs. cbn [step]. destruct (pc s) as [| |n|] eqn:Ep; try done.
  unfold pcok in HP. rewrite Ep in HP. destruct HP as [HP _].
  destruct (n_r n && n_rd n) eqn:E; [|intros [= <- <-]; by left]. apply andb_prop in E as [_ E]. specialize (HP E).
  assert (Hret: et s = true) by (rewrite (i_et _ _ _ HC); by apply (i_rd _ _ _ HC)).
  unfold read_event. rewrite Hret. cbn -[wait_read]. destruct (bufr s); cbn -[wait_read]; [|intros [= <- <-]; by right].
  destruct r as [k more|]; cbn -[wait_read]; [destruct (lin s) eqn:El; cbn -[wait_read]|]; try (intros [= <- <-]; by right).
  intros [= <- <-]. left. cbn. unfold wait_read. cbn -[list_rw]. rewrite (i_rd _ _ _ HC eq_refl HP). rewrite list_rw_eq. done.
Qed.
Lemma run_loop es s s' os tr : reach sane tr s -> (forall e, e ∈ es -> okev e /\ match e with EReport | EPop | EWEv _ _ | EREv _ _ | EFin => True | _ => False end) ->
  run (step false) s es = Ok s' os -> reach sane (tr ++ es) s'.
Proof.
  revert s s' os tr. induction es as [|e es IH]; intros s s' os tr H He; cbn [run]; [intros [= <- <-]; by rewrite app_nil_r|].
  destruct (step false s e) as [| |s1 o] eqn:E1; try done. destruct (run (step false) s1 es) as [| |s2 os2] eqn:E2; try done. intros [= <- <-].
  rewrite (cons_middle e tr es), app_assoc. eapply IH; [|intros e' H'; apply He; by right|exact E2].
  econstructor; [exact H| |exact E1]. destruct (He e ltac:(by left)) as [H1 H2]. split; [|done]. by destruct e.
Qed.
Lemma turn_ok s r1 r2 : forall e, e ∈ turn s r1 r2 -> okev e /\ match e with EReport | EPop | EWEv _ _ | EREv _ _ | EFin => True | _ => False end.
Proof. intros e. unfold turn. destruct (edge s); cbn [app]; rewrite !elem_of_cons, elem_of_nil; naive_solver. Qed.
(** the part of a turn after the report, for a socket on the ready list *)
Lemma serve_read s r1 r2 : inv s -> inv2 s -> pc s = PIdle -> loc s = LReady -> rd s = true -> lin s = true -> rrdy s = true \/ rrdy2 s = true ->
  exists s' os v, run (step false) s [EPop; EWEv true r1; EREv true r2; EFin] = Ok s' os /\ (er s, v) ∈ done_ s'.
Proof.
  intros HI HJ Hp Hl Hr Hi Hy. cbn [run step]. rewrite Hp, decide_True by done. cbn [pc s_pc s_loc].
  set (n := take_snap s). assert (Hn: n_rd n = true /\ n_r n = true) by (subst n; unfold take_snap; cbn; split; [done|]; destruct Hy as [-> | ->]; [done|apply orb_true_r]).
  destruct Hn as [Hn1 Hn2]. set (s1 := s_pc (PW n) (s_loc LNone s)).
  assert (H1: inv s1 /\ inv2 s1).
  { pose proof (step_inv s EPop HI I) as G1. pose proof (step2_ok s EPop s1 true HI HJ I I) as G2. cbn [step] in G1, G2. rewrite Hp, decide_True in G1, G2 by done. split; [exact G1|by apply G2]. }
  destruct H1 as [I1 J1].
  assert (G: rd s1 = true /\ lin s1 = true /\ er s1 = er s /\ pc s1 = PW n) by (subst s1; done). destruct G as (G1 & G2 & G3 & G4). clearbody s1. rewrite <- G3.
  set (x := if n_w n && (n_wr n || n_hup n) then _ else _).
  assert (Hx: exists s2 m, x = Ok s2 true /\ inv s2 /\ inv2 s2 /\ rd s2 = true /\ lin s2 = true /\ er s2 = er s1 /\ pc s2 = PR m /\ n_rd m = true /\ n_r m = true).
  { pose proof (step_inv s1 (EWEv true r1) I1 I) as A1. assert (A2: forall s', step false s1 (EWEv true r1) = Ok s' true -> inv2 s') by (intros s0 Hs0; exact (step2_ok s1 (EWEv true r1) s0 true I1 J1 I eq_refl Hs0)).
    cbn [step] in A1, A2. rewrite G4 in A1, A2. fold x in A1, A2. subst x. pose proof I1 as [HC HP]. destruct (n_w n && (n_wr n || n_hup n)) eqn:E.
    - eexists _, _. split; [reflexivity|]. split; [exact A1|]. split; [by apply A2|]. cbn [rd lin er pc s_pc].
      assert (Hw: wr s1 || hup s1 = true) by (unfold pcok in HP; rewrite G4 in HP; rewrite HP in E; apply andb_prop in E as [_ E]; exact E).
      destruct (write_event_cases r1 s1 HC (j_reg _ J1) Hw) as [(v & l & -> & Hq)|[Hq ->]]; [|unfold rwl, regw; cbn; destruct (wev s1)]; cbn; split_and!; try reflexivity; done.
    - eexists _, _. split; [reflexivity|]. split; [exact A1|]. split; [by apply A2|]. cbn [rd lin er pc s_pc]. split_and!; try reflexivity; done. }
  destruct Hx as (s2 & m & -> & I2 & J2 & B1 & B2 & B3 & B4 & B5 & B6). rewrite B4, B5, B6. cbn [andb]. rewrite <- B3.
  destruct I2 as [HC2 HP2]. destruct (read_event_core true r2 s2 HC2 B1) as (s3 & E3 & _). rewrite E3.
  apply read_event_cases in E3; [|done|apply (j_reg _ J2)|done]. destruct E3 as [(v & l & -> & _)|[Hq _]]; [|congruence].
  cbn [pc s_pc]. eexists _, _, v. split; [reflexivity|]. match goal with |- context [if ?b then _ else _] => destruct b end; cbn; apply elem_of_app; right; by apply elem_of_list_singleton.
Qed.
Lemma serve_write s r1 r2 : inv s -> inv2 s -> pc s = PIdle -> loc s = LReady -> wrdy s = true -> (wr s = true /\ lout s = true) \/ hup s = true /\ wr s = false /\ bufw s = false ->
  exists s' os v, run (step false) s [EPop; EWEv true r1; EREv true r2; EFin] = Ok s' os /\ (ew s, v) ∈ done_ s'.
Proof.
  intros HI HJ Hp Hl Hy Hw. cbn [run step]. rewrite Hp, decide_True by done. cbn [pc s_pc s_loc].
  set (n := take_snap s). assert (Hn: n_w n = true /\ n_wr n || n_hup n = true) by (subst n; unfold take_snap; cbn; split; [by rewrite Hy|]; destruct Hw as [[-> _]|(-> & _)]; [done|apply orb_true_r]).
  destruct Hn as [Hn1 Hn2]. rewrite Hn1, Hn2. cbn [andb]. set (s1 := s_pc (PW n) (s_loc LNone s)).
  assert (H1: inv s1 /\ inv2 s1).
  { pose proof (step_inv s EPop HI I) as G1. pose proof (step2_ok s EPop s1 true HI HJ I I) as G2. cbn [step] in G1, G2. rewrite Hp, decide_True in G1, G2 by done. split; [exact G1|by apply G2]. }
  destruct H1 as [I1 J1].
  assert (G: ((wr s1 = true /\ lout s1 = true) \/ hup s1 = true /\ wr s1 = false /\ bufw s1 = false) /\ ew s1 = ew s /\ pc s1 = PW n) by (subst s1; done). destruct G as (G1 & G3 & G4). clearbody s1. rewrite <- G3.
  set (n2 := mksn (n_rd n) _ _ _ _ _). pose proof I1 as [HC HP].
  assert (Hw1: wr s1 || hup s1 = true) by (destruct G1 as [[-> _]|(-> & _)]; [done|apply orb_true_r]).
  assert (A: exists s2 v, write_event true r1 s1 = call (ew s1) v s2).
  { destruct (write_event_cases r1 s1 HC (j_reg _ J1) Hw1) as [(v & l & -> & _)|[Hq Hq2]]; [by eauto|]. destruct G1 as [[_ ?]|(B1 & B2 & B3)]; [congruence|].
    exfalso. clear Hq. revert Hq2. unfold write_event. destruct (negb (sf s1) && err _).
    { intros Hq. apply (f_equal wr) in Hq. revert Hq. unfold rwl, regw. cbn. by destruct (wev s1). }
    set (s2 := if sf s1 then _ else _). assert (bufw s2 = false /\ wr s2 = false) as [C1 C2] by (subst s2; by destruct (sf s1)). clearbody s2. rewrite C1. cbn [negb].
    intros Hq. apply (f_equal wr) in Hq. revert Hq. unfold rwl, regw. cbn. rewrite C2. by destruct (wev s1). }
  destruct A as (s2 & v & Hq).
  pose proof (step_inv s1 (EWEv true r1) I1 I) as A1. cbn [step] in A1. rewrite G4, Hn1, Hn2 in A1. cbn [andb] in A1. fold n2 in A1. rewrite Hq in *.
  assert (A2: inv2 (s_pc (PR n2) (call (ew s1) v s2))).
  { eapply (step2_ok s1 (EWEv true r1)); [done|done|done|done|]. cbn [step]. rewrite G4, Hn1, Hn2. cbn [andb]. fold n2. by rewrite Hq. }
  set (s3 := s_pc _ _) in *. assert (D: (ew s1, v) ∈ done_ s3 /\ pc s3 = PR n2) by (subst s3; cbn; split; [apply elem_of_app; right; by apply elem_of_list_singleton|done]).
  destruct D as [D1 D2]. clearbody s3. rewrite D2. destruct A1 as [HC3 HP3].
  set (x := if n_r n2 && n_rd n2 then _ else _).
  assert (Hx: exists s4 m, x = Ok s4 true /\ (ew s1, v) ∈ done_ s4 /\ pc s4 = PF m).
  { subst x. destruct (n_r n2 && n_rd n2) eqn:E; [|by eexists _, _]. unfold pcok in HP3. rewrite D2 in HP3. apply andb_prop in E as [_ E].
    assert (Hrd: rd s3 = true) by (by apply HP3). destruct (read_event_core true r2 s3 HC3 Hrd) as (s4 & E4 & _). rewrite E4.
    eexists _, _. split; [reflexivity|]. split; [|reflexivity]. cbn [done_ s_pc]. apply read_event_cases in E4; [|done|apply (j_reg _ A2)|done].
    destruct E4 as [(u & l & -> & _)|[_ ->]]; cbn; [apply elem_of_app; by left|done]. }
  destruct Hx as (s4 & m & -> & D4 & D5). rewrite D5. eexists _, _, v. split; [reflexivity|]. by match goal with |- context [if ?b then _ else _] => destruct b end.
Qed.

(** a socket that has been reported, or has nothing to report *)
Lemma report_first (P : ep -> Prop) s es : inv s -> inv2 s -> pc s = PIdle -> rev s = true ->
  (forall s1, inv s1 -> inv2 s1 -> pc s1 = PIdle -> edge s1 = false -> rd s1 = rd s -> wr s1 = wr s -> hup s1 = hup s -> er s1 = er s -> ew s1 = ew s -> bufw s1 = bufw s ->
    lin s1 = lin s -> lout s1 = lout s -> lhup s1 = lhup s -> (s1 = s \/ step false s EReport = Ok s1 true) -> exists s' os, run (step false) s1 es = Ok s' os /\ P s') ->
  exists s' os, run (step false) s ((if edge s then [EReport] else []) ++ es) = Ok s' os /\ P s'.
Proof.
  intros HI HJ Hp Hrv H. destruct (edge s) eqn:Ee; cbn [app]; [|apply H; auto].
  assert (Hreg: reg s = Some (wev s)) by (rewrite (j_reg _ HJ), Hrv; done).
  pose proof (report_eq false s (wev s) Hp Hreg Ee) as Hq. cbn [run]. rewrite Hq.
  pose proof (step_inv s EReport HI I) as G1. pose proof (step2_ok s EReport _ _ HI HJ I I Hq) as G2. rewrite Hq in G1.
  destruct (H (reported (wev s) s) G1 G2) as (s' & os & -> & Hs'); try done; [by right|]. eexists _, _. split; [reflexivity|exact Hs'].
Qed.
(** C49: a pending read on a readable socket is called back in the next turn of the loop, whatever happened before *)
Theorem C49_read_served_partial tr s r1 r2 : reach sane tr s -> pc s = PIdle -> rd s = true -> lin s = true ->
  exists s' os, run (step false) s (turn s r1 r2) = Ok s' os /\ calls (er s) s' = 1%nat.
Proof.
  intros H Hp Hr Hl. pose proof (reach_inv2 _ _ H) as (HI & HJ & _).
  assert (Hv: rev s = true) by (destruct HI as [HC _]; by apply (i_rd _ _ _ HC)).
  assert (A: exists s' os, run (step false) s (turn s r1 r2) = Ok s' os /\ exists v, (er s, v) ∈ done_ s').
  { unfold turn. apply report_first; [done..|]. intros s1 I1 J1 K1 K2 K3 K4 K5 K6 K7 K8 K9 K10 K11 K12. rewrite <- K6.
    assert (R: loc s1 = LReady /\ (rrdy s1 = true \/ rrdy2 s1 = true)).
    { destruct (j_read _ J1) as [?|[Hpr|[H1 H2]]]; [congruence|done|unfold prog_r in Hpr; by rewrite K1 in Hpr|].
      assert (rev s1 = true) by (destruct I1 as [HC _]; apply (i_rd _ _ _ HC); congruence).
      pose proof (j_er _ J1 ltac:(done) H1 ltac:(congruence)). congruence. }
    destruct R as [R1 R2]. destruct (serve_read s1 r1 r2) as (s' & os & v & Hx & Hy); [done|done|done|done|congruence|congruence|done|]. eauto. }
  destruct A as (s' & os & A & v & Hd). exists s', os. split; [done|].
  assert (H': reach sane (tr ++ turn s r1 r2) s') by (eapply run_loop; [done|apply turn_ok|done]).
  assert (H'': reach normal (tr ++ turn s r1 r2) s') by (eapply reach_mono; [|exact H']; by intros ?? []).
  pose proof (C49_once_partial _ _ H'') as (P1 & _ & P3). specialize (P3 _ _ Hd). specialize (P1 _ P3).
  assert (calls (er s) s' <> 0%nat).
  { unfold calls. intros Hz. apply nil_length_inv in Hz. assert (Hf: (er s, v) ∈ filter (fun c => c.1 = er s) (done_ s')) by (apply elem_of_list_filter; done). rewrite Hz in Hf. by apply elem_of_nil in Hf. }
  naive_solver.
Qed.
(** the same for a write or sendfile on a writable socket *)
Theorem C49_write_served_partial tr s r1 r2 : reach sane tr s -> pc s = PIdle -> wr s = true -> lout s = true ->
  exists s' os, run (step false) s (turn s r1 r2) = Ok s' os /\ calls (ew s) s' = 1%nat.
Proof.
  intros H Hp Hr Hl. pose proof (reach_inv2 _ _ H) as (HI & HJ & _).
  assert (Hv: rev s = true) by (destruct HI as [HC _]; by apply (i_wr _ _ _ HC)).
  assert (A: exists s' os, run (step false) s (turn s r1 r2) = Ok s' os /\ exists v, (ew s, v) ∈ done_ s').
  { unfold turn. apply report_first; [done..|]. intros s1 I1 J1 K1 K2 K3 K4 K5 K6 K7 K8 K9 K10 K11 K12. rewrite <- K7.
    assert (R: loc s1 = LReady /\ wrdy s1 = true).
    { destruct (j_write _ J1) as [?|[Hpr|[H1 H2]]]; [congruence|done|unfold prog_w in Hpr; by rewrite K1 in Hpr|].
      assert (edge s1 = true) by (apply H2; congruence). congruence. }
    destruct R as [R1 R2]. destruct (serve_write s1 r1 r2) as (s' & os & v & Hx & Hy); [done|done|done|done|congruence|left; split; congruence|]. eauto. }
  destruct A as (s' & os & A & v & Hd). exists s', os. split; [done|].
  assert (H': reach sane (tr ++ turn s r1 r2) s') by (eapply run_loop; [done|apply turn_ok|done]).
  assert (H'': reach normal (tr ++ turn s r1 r2) s') by (eapply reach_mono; [|exact H']; by intros ?? []).
  pose proof (C49_once_partial _ _ H'') as (P1 & _ & P3). specialize (P3 _ _ Hd). specialize (P1 _ P3).
  assert (calls (ew s) s' <> 0%nat).
  { unfold calls. intros Hz. apply nil_length_inv in Hz. assert (Hf: (ew s, v) ∈ filter (fun c => c.1 = ew s) (done_ s')) by (apply elem_of_list_filter; done). rewrite Hz in Hf. by apply elem_of_nil in Hf. }
  naive_solver.
Qed.
(** a readhup request made before the peer closed is called back in the next turn after the peer has closed *)
Theorem C49_hup_served_partial tr s r1 r2 : reach sane_hup tr s -> pc s = PIdle -> hup s = true -> lhup s = true ->
  exists s' os, run (step false) s (turn s r1 r2) = Ok s' os /\ calls (ew s) s' = 1%nat.
Proof.
  intros H Hp Hr Hl. pose proof (reach_inv4 _ _ H) as (HI & HJ & HK). pose proof (reach_hupbuf _ _ _ H Hr) as Hb.
  assert (H0: reach sane tr s) by (eapply reach_mono; [|exact H]; intros ?? (? & ? & ?); by split).
  assert (Hv: rev s = true) by (destruct HI as [HC _]; by apply (i_hp _ _ _ HC)).
  assert (Hw: wr s = false) by (destruct HI as [HC _]; by apply (i_hup _ _ _ HC)).
  assert (A: exists s' os, run (step false) s (turn s r1 r2) = Ok s' os /\ exists v, (ew s, v) ∈ done_ s').
  { unfold turn. apply report_first; [done..|]. intros s1 I1 J1 K1 K2 K3 K4 K5 K6 K7 K8 K9 K10 K11 K12. rewrite <- K7.
    assert (K13: inv4 s1) by (destruct K12 as [->|K12]; [done|]; exact (step4_ok s EReport s1 true HI HJ HK I I I K12)).
    assert (R: loc s1 = LReady /\ wrdy s1 = true).
    { destruct K13 as [?|[Hpr|H1]]; [congruence|done|unfold prog_h in Hpr; by rewrite K1 in Hpr|].
      assert (edge s1 = true) by (apply H1; congruence). congruence. }
    destruct R as [R1 R2]. destruct (serve_write s1 r1 r2) as (s' & os & v & Hx & Hy); [done|done|done|done|congruence|right; split_and!; congruence|]. eauto. }
  destruct A as (s' & os & A & v & Hd). exists s', os. split; [done|].
  assert (H': reach sane (tr ++ turn s r1 r2) s') by (eapply run_loop; [done|apply turn_ok|done]).
  assert (H'': reach normal (tr ++ turn s r1 r2) s') by (eapply reach_mono; [|exact H']; by intros ?? []).
  pose proof (C49_once_partial _ _ H'') as (P1 & _ & P3). specialize (P3 _ _ Hd). specialize (P1 _ P3).
  assert (calls (ew s) s' <> 0%nat).
  { unfold calls. intros Hz. apply nil_length_inv in Hz. assert (Hf: (ew s, v) ∈ filter (fun c => c.1 = ew s) (done_ s')) by (apply elem_of_list_filter; done). rewrite Hz in Hf. by apply elem_of_nil in Hf. }
  naive_solver.
Qed.
(** a readhup callback is made only if the peer has closed (or the idle timeout shut the socket down) *)
Theorem C49_hup_only_partial tr s ok r s' o v : reach sane tr s -> hup s = true -> step false s (EWEv ok r) = Ok s' o -> (ew s, v) ∈ done_ s' -> lhup s = true.
Proof.
  intros H Hh Hs Hd. pose proof (reach_inv2 _ _ H) as (HI & HJ & HK). pose proof HI as [HC HP].
  revert Hs. cbn [step]. destruct (pc s) as [|n| |] eqn:Ep; try done. unfold pcok in HP. rewrite Ep in HP. subst n. intros _.
  apply (k_h _ HK _ Ep). done.
Qed.
(** a pending read or write is in one of the selector's lists when the loop is not at the socket, so that the idle
    timeout covers it (unless the timeout has already been taken) *)
Theorem C49_listed_partial tr s : reach sane tr s -> pc s = PIdle -> rd s = true \/ wr s = true -> loc s <> LNone \/ shut s = true.
Proof.
  intros H Hp Hw. pose proof (reach_inv2 _ _ H) as (HI & HJ & _). destruct Hw as [Hw|Hw].
  - destruct (j_lr _ HJ Hw) as [?|[?|Hk]]; [by left|by right|]. unfold keep_r in Hk. by rewrite Hp in Hk.
  - destruct (j_lw _ HJ Hw) as [?|[?|Hk]]; [by left|by right|]. unfold keep_w in Hk. by rewrite Hp in Hk.
Qed.

(** * Example: the hypotheses are met *)
(** connect, write with a full buffer, read that waits, data and space arrive, both served *)
Definition demo : list ev := [EConnect 1 true; KOut; EReport; EPop; EWEv true RFail; EREv true RFail; EFin;
  EWrite 2 true true false true (RGot 5 false); EWrite 3 true true false true (RGot 5 false); ERead 4 true true true (RGot 1 false); KIn; KOut].
Fixpoint keeps (s : ep) (es : list ev) : Prop :=
  match es with
  | [] => True
  | e :: es => sane_hup s e /\ match step false s e with Ok s' _ => keeps s' es | _ => False end
  end.
Lemma keeps_reach es tr s : reach sane_hup tr s -> keeps s es -> exists s' os, run (step false) s es = Ok s' os /\ reach sane_hup (tr ++ es) s'.
Proof.
  revert tr s. induction es as [|e es IH]; intros tr s H; [intros _; exists s, []; by rewrite app_nil_r|]. cbn [keeps run]. intros [H1 H2].
  destruct (step false s e) as [| |s1 o] eqn:E; try done. destruct (IH (tr ++ [e]) s1) as (s' & os & -> & H'); [by econstructor|done|].
  eexists _, _. split; [reflexivity|]. by rewrite (cons_middle e tr es), app_assoc.
Qed.
Lemma demo_keeps : keeps ep_init demo.
Proof. vm_compute. intuition. Qed.
Example demo_state : match run (step false) ep_init demo with
  | Ok s _ => pc s = PIdle /\ rd s = true /\ lin s = true /\ er s = 4%nat /\ wr s = true /\ lout s = true /\ ew s = 3%nat /\ done_ s = [(1%nat, 0); (2%nat, 5)]
  | _ => False end.
Proof. vm_compute. split_and!; reflexivity. Qed.
Example demo_turn : match run (step false) ep_init (demo ++ [EReport; EPop; EWEv true (RGot 7 true); EREv true (RGot 9 false); EFin]) with
  | Ok s _ => rd s = false /\ wr s = false /\ done_ s = [(1%nat, 0); (2%nat, 5); (3%nat, 7); (4%nat, 9)]
  | _ => False end.
Proof. vm_compute. split_and!; reflexivity. Qed.
Definition demo_hup : list ev := [EConnect 1 true; KOut; EReport; EPop; EWEv true RFail; EREv true RFail; EFin; EReadhup 2 true; KHup].
Lemma demo_hup_keeps : keeps ep_init demo_hup.
Proof. vm_compute. intuition. Qed.
Example demo_hup_state : match run (step false) ep_init demo_hup with
  | Ok s _ => pc s = PIdle /\ hup s = true /\ lhup s = true /\ ew s = 2%nat | _ => False end.
Proof. vm_compute. split_and!; reflexivity. Qed.

(** * What does not hold *)
(** epoll_ctl fails once: the read is called back with -1, but the socket is left marked as registered; the next read is never
    registered, so data that arrives is never reported *)
Theorem C49_ctl_fail_refuted : match run (step false) ep_init [ERead 1 true true false RFail; ERead 2 true true true RFail; KIn] with
  | Ok s _ => done_ s = [(1%nat, -1)] /\ rd s = true /\ lin s = true /\ loc s = LRw /\ edge s = false /\ reg s = None
  | _ => False end.
Proof. vm_compute. split_and!; reflexivity. Qed.
(** selectable_next_read on a socket that is not registered: the request stays marked, the next read fails the assertion *)
Theorem C49_next_read_refuted : exists pre, match run (step false) ep_init pre with
  | Ok s _ => done_ s = [(1%nat, 0)] /\ pc s = PIdle /\ step false s (ERead 2 true true true RFail) = Crash
  | _ => False end.
Proof. exists [ENextR 1; EPop; EWEv true RFail; EREv true RFail; EFin]. vm_compute. split_and!; reflexivity. Qed.
(** selectable_next_write after the peer's close was seen: the ready mark stays, the next write fails the assertion *)
Theorem C49_next_write_refuted : exists pre, match run (step false) ep_init pre with
  | Ok s _ => done_ s = [(1%nat, 0); (2%nat, -1)] /\ pc s = PIdle /\ step false s (EWrite 3 true true false true RFail) = Crash
  | _ => False end.
Proof.
  exists [EConnect 1 true; KOut; EReport; EPop; EWEv true RFail; EREv true RFail; EFin; KHup; EReport; ENextW 2; EPop; EWEv true RFail; EREv true RFail; EFin].
  vm_compute. split_and!; reflexivity.
Qed.
(** with a read timeout the pending read is called back and stays pending: two callbacks *)
Theorem C49_read_timeout_refuted : match run (step true) ep_init
    [ERead 1 true true true RFail; ETimeout; KIn; EReport; EPop; EWEv true RFail; EREv true (RGot 3 false); EFin] with
  | Ok s _ => done_ s = [(1%nat, -2); (1%nat, 3)] | _ => False end.
Proof. vm_compute. reflexivity. Qed.
(** readhup after the peer's close has been reported: never called *)
Theorem C49_late_readhup_refuted : match run (step false) ep_init
    [ERead 1 true true true RFail; KHup; EReport; EPop; EWEv true RFail; EREv true (RGot 0 false); EFin; EReadhup 2 true] with
  | Ok s _ => hup s = true /\ lhup s = true /\ loc s = LNone /\ edge s = false /\ pc s = PIdle /\ done_ s = [(1%nat, 0)] | _ => False end.
Proof. vm_compute. split_and!; reflexivity. Qed.
(** a read drops the pending readhup request without a callback *)
Theorem C49_readhup_dropped_refuted : match run (step false) ep_init
    [EReadhup 1 true; ERead 2 true true true RFail; KHup; EReport; EPop; EWEv true RFail; EREv true (RGot 0 false); EFin] with
  | Ok s _ => done_ s = [(2%nat, 0)] /\ hup s = false | _ => False end.
Proof. vm_compute. split_and!; reflexivity. Qed.
(** after the peer has closed its sending side, a queued write is answered -1 without being tried, although the socket is writable *)
Theorem C49_half_close_refuted : match run (step false) ep_init
    [EConnect 1 true; KOut; EReport; EPop; EWEv true RFail; EREv true RFail; EFin; KHup; EReport; EWrite 2 false true false true (RGot 5 true);
     EPop; EWEv true (RGot 5 true); EREv true RFail; EFin] with
  | Ok s _ => done_ s = [(1%nat, 0); (2%nat, -1)] /\ lout s = true | _ => False end.
Proof. vm_compute. split_and!; reflexivity. Qed.
(** a socket may stay on the ready list with nothing pending: readhup reported, then replaced by a read that completes at once *)
Theorem C49_stale_ready_refuted : match run (step false) ep_init
    [ERead 1 true true true RFail; KIn; EReport; EPop; EWEv true RFail; EREv true (RGot 5 true); EFin; EReadhup 2 true; KHup; EReport;
     ERead 3 true true true (RGot 5 true)] with
  | Ok s _ => loc s = LReady /\ rd s = false /\ wr s = false /\ hup s = false /\ pc s = PIdle | _ => False end.
Proof. vm_compute. split_and!; reflexivity. Qed.
