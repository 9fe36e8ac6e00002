(** C61: requests on a socket of the kqueue selector. *)
From Verif Require Import KqModel KqProof KqProof2.
Local Open Scope Z_scope.

(** * Specification *)
(** executions in which every step satisfies [P]; [tr]: the steps so far *)
Inductive reach (P : kq -> ev -> Prop) : list ev -> kq -> Prop :=
| reach_nil : reach P [] kq_init
| reach_snoc tr s e s' o : reach P tr s -> P s e -> step false s e = Ok s' o -> reach P (tr ++ [e]) s'.
(** the caller keeps the rules ([normal]); the kernel accepts every kevent change *)
Definition sane (s : kq) (e : ev) : Prop := normal s e /\ okev e.
(** how often the callback of request i has been called *)
Definition calls (i : nat) (s : kq) : nat := length (filter (fun c => c.1 = i) (done_ s)).
Definition pending (i : nat) (s : kq) : Prop := (rd s = true /\ er s = i) \/ (wr s = true /\ ew s = i).
(** one turn of the selector loop for this socket, no further requests being made in it *)
Definition turn (s : kq) (r1 r2 : sysres) : list ev :=
  (if pr s then [EReportR] else []) ++ (if pw s then [EReportW] else []) ++ [EPop; EWEv true true r1; EREv true r2; EFin].
(** the value of a callback: what the transfer returned; 0 for a request without a buffer (connect, next_read, next_write) *)
Definition result (r : sysres) : Z := match r with RGot n _ | RPart n => Z.of_nat n | RFail => -1 end.
Definition rvalue (s : kq) (r : sysres) : Z := if br s then result r else 0.
Definition wvalue (s : kq) (r : sysres) : Z := match bw s with BNone => 0 | _ => result r end.

(** * Lemmas *)
Lemma reach_mono (P Q : kq -> ev -> Prop) tr s : (forall s e, P s e -> Q s e) -> reach P tr s -> reach Q tr s.
Proof. intros H. induction 1; [constructor|]. econstructor; eauto. Qed.
Lemma reach_inv1 tr s : reach normal tr s -> inv s.
Proof.
  induction 1 as [|tr s e s' o H IH Hn Hs]; [apply inv_init|]. pose proof (step_inv s e IH Hn) as Hg. by rewrite Hs in Hg.
Qed.
Lemma reach_inv2 tr s : reach sane tr s -> inv s /\ inv2 s.
Proof.
  induction 1 as [|tr s e s' o H (I1 & I2) [Hn Ho] Hs]; [split_and!; [apply inv_init|apply inv2_init]|].
  split_and!; [|by eapply step2_ok]. pose proof (step_inv s e I1 Hn) as Hg. by rewrite Hs in Hg.
Qed.
(** the names of accepted requests are new *)
Lemma add_rw_iss okr okw s : iss (add_rw okr okw s).1 = iss s.
Proof.
  unfold add_rw. destruct (rev s); cbn [fst]; [apply (add_w_fields okw s)|].
  destruct (add_w_fields (okr && okw) (add_r okr s)) as (_&_&_&_&_&_&_&_&_&_&_&_&_&_&_&_&_&->&_). apply (add_r_fields okr s).
Qed.
Lemma wait_read_iss ok s : iss (wait_read ok s) = iss s.
Proof. rewrite wait_read_cases. destruct (rev s), ok; sm; try done; apply (add_r_fields _ s). Qed.
Lemma wait_write_iss okr okw s : iss (wait_write okr okw s) = iss s.
Proof.
  rewrite wait_write_cases. destruct (wev s); [done|]. pose proof (add_rw_iss okr okw s) as A. unfold add_rw in A.
  cbv zeta. destruct (rev s); cbn [fst] in A; [destruct okw|destruct okr, okw; cbn [andb] in *]; sm; done.
Qed.
Lemma read_event_iss ok r s s' : read_event ok r s = Some s' -> iss s' = iss s.
Proof.
  unfold read_event. set (s1 := s_rrdy2 false _). assert (H: iss s1 = iss s) by (subst s1; by destruct (et s)). rewrite <- H. clearbody s1.
  destruct (br s1); cbn [negb]; [|by intros [= <-]].
  destruct (try_in r s1) as [s2 v] eqn:Et.
  assert (H2: iss s2 = iss s1) by (revert Et; destruct r; cbn [try_in]; [destruct (lin s1)..|]; by intros [= <- <-]). rewrite <- H2.
  destruct v; [by intros [= <-]|]. destruct (rd s2); [done|]. intros [= <-]. by rewrite wait_read_iss.
Qed.
Lemma write_event_iss main okr okw r s s' : write_event main okr okw r s = Some s' -> iss s' = iss s.
Proof.
  unfold write_event. destruct (sf s).
  - sm. destruct (bw s); try done. destruct r; [destruct (lout s)..|destruct (wrdy s); [destruct main|]]; intros [= <-]; try reflexivity; by rewrite wait_write_iss.
  - set (s1 := s_wrdy2 false _). assert (H: iss s1 = iss s) by done. rewrite <- H. clearbody s1. clear H.
    destruct (try_out r s1) as [s2 v] eqn:Et.
    assert (H2: iss s2 = iss s1) by (revert Et; destruct r; cbn [try_out]; [destruct (lout s1)..|]; by intros [= <- <-]).
    destruct (bw s1); [by intros [= <-]|..]; rewrite <- H2; (destruct v; [by intros [= <-]|]); intros [= <-]; by rewrite wait_write_iss.
Qed.
Lemma step_iss s e s' o : step false s e = Ok s' o -> iss s' = iss s \/ exists i, i ∉ iss s /\ iss s' = iss s ++ [i].
Proof.
  assert (Hni: forall i, no_call i s = false -> i ∉ iss s).
  { intros i H. unfold no_call in H. apply orb_false_iff in H as [_ H]. by apply bool_decide_eq_false_1 in H. }
  destruct e; cbn [step].
  - destruct (no_call i s) eqn:Eb; [done|]. apply Hni in Eb. destruct (rd s); [done|]. change (s_rd true _) with (setr i buf s).
    intros H. right. exists i. split; [done|]. change (iss s ++ [i]) with (iss (setr i buf s)). revert H. generalize (setr i buf s). intros s1.
    destruct (rrdy s1); [destruct direct|].
    + destruct (read_event _ _ _) eqn:E; [|done]. intros [= <- <-]. by eapply read_event_iss.
    + by intros [= <- <-].
    + intros [= <- <-]. apply wait_read_iss.
  - destruct (no_call i s) eqn:Eb; [done|]. apply Hni in Eb. destruct (wr s || _); [done|]. change (match b with BFile => _ | _ => _ end) with (setw i b s) at 1 2 3 4.
    intros H. right. exists i. split; [done|]. assert (X: iss s ++ [i] = iss (setw i b s)) by (by destruct b). rewrite X. revert H. 
    change (match b with BFile => _ | _ => _ end) with (setw i b s). generalize (setw i b s). intros s1.
    destruct (wrdy s1); [destruct direct|].
    + destruct (write_event _ _ _ _ _) eqn:E; [|done]. intros [= <- <-]. by eapply write_event_iss.
    + by intros [= <- <-].
    + intros [= <- <-]. apply wait_write_iss.
  - destruct (no_call i s) eqn:Eb; [done|]. apply Hni in Eb. destruct (_ || _); [done|].
    pose proof (add_rw_iss okr okw (s_wr true (s_bw BNone (s_ew i s)))) as A. destruct (add_rw _ _ _) as [s1 r]. cbn [fst] in A.
    destruct r; intros [= <- <-]; sm; [right; by exists i|by left].
  - destruct (busy s || cl s); [done|]. destruct (decide _); [|done]. intros [= <- <-]. left. by destruct (rev s || wev s).
  - destruct (no_call i s) eqn:Eb; [done|]. apply Hni in Eb. destruct (_ || _); [done|]. intros [= <- <-]. right. by exists i.
  - destruct (no_call i s) eqn:Eb; [done|]. apply Hni in Eb. destruct (_ || _); [done|]. intros [= <- <-]. right. by exists i.
  - destruct (pc s); try done. destruct (negb _); [done|]. intros [= <- <-]. left. sm. by destruct (rd s).
  - destruct (pc s); try done. destruct (negb _); [done|]. intros [= <- <-]. left. sm. by destruct (wr s).
  - destruct (pc s); try done. destruct (decide _); [|done]. intros [= <- <-]. by left.
  - destruct (pc s); try done. destruct (_ && _); [|intros [= <- <-]; by left]. destruct (write_event _ _ _ _ _) eqn:E; [|done]. intros [= <- <-]. left. by eapply write_event_iss in E.
  - destruct (pc s); try done. destruct (_ && _); [|intros [= <- <-]; by left]. destruct (cl s); [done|]. destruct (read_event _ _ _) eqn:E; [|done]. intros [= <- <-]. left. by eapply read_event_iss in E.
  - destruct (pc s); try done. destruct (_ && _); [destruct (cl s); [done|]|]; intros [= <- <-]; left; rewrite ?list_rw_eq; done.
  - destruct (pc s); try done. destruct (decide _); [|done]. intros [= <- <-]. by left.
  - destruct (cl s); [done|]. intros [= <- <-]. by left.
  - destruct (cl s); [done|]. intros [= <- <-]. by left.
  - destruct (cl s); [done|]. intros [= <- <-]. by left.
Qed.
Lemma reach_nodup P tr s : reach P tr s -> NoDup (iss s).
Proof.
  induction 1 as [|tr s e s' o H IH Hn Hs]; [constructor|]. apply step_iss in Hs as [->|(i & Hi & ->)]; [done|].
  apply NoDup_app. split_and!; [done| |apply NoDup_singleton]. intros x Hx. rewrite elem_of_list_singleton. by intros ->.
Qed.
Lemma occ_calls x (l : list (nat * Z)) : occ x (l.*1) = Z.of_nat (length (filter (fun c => c.1 = x) l)).
Proof.
  induction l as [|[a v] l IH]; [done|]. rewrite fmap_cons, occ_cons, filter_cons, IH. cbn [fst].
  case_bool_decide; destruct (decide _); cbn [b2z length]; try done; lia.
Qed.
Lemma occ_one x i : occ x [i] = if decide (x = i) then 1 else 0.
Proof. rewrite occ_cons. case_bool_decide; destruct (decide _); cbn; congruence || lia. Qed.

(** * C61 *)
(** no assertion of the selector fails, no memory of a closed socket is used, no buffer is taken for a file, for a caller who keeps
    the rules, whether or not kevent fails *)
Theorem C61_safe_partial tr s e : reach normal tr s -> normal s e -> step false s e <> Crash.
Proof. intros H Hn Hc. apply reach_inv1 in H. pose proof (step_inv s e H Hn) as Hg. by rewrite Hc in Hg. Qed.
(** every accepted request has been called back once, or is pending and has not been; nothing else is ever called *)
Theorem C61_once_partial tr s : reach normal tr s ->
  (forall i, i ∈ iss s -> (calls i s = 1%nat /\ ~ pending i s) \/ (calls i s = 0%nat /\ pending i s)) /\
  (forall i v, (i, v) ∈ done_ s -> i ∈ iss s).
Proof.
  intros H. pose proof (reach_inv1 _ _ H) as [HC _]. pose proof (reach_nodup _ _ _ H) as HN. split.
  - intros i Hi. pose proof (i_cnt _ HC i) as G. unfold cnt in G. rewrite occ_calls in G. fold (calls i s) in G.
    assert (Ho: occ i (iss s) = 1) by (pose proof (proj1 (occ_nodup _) HN i); apply occ_in in Hi; lia). rewrite Ho in G.
    rewrite !occ_one in G. unfold pending.
    destruct (rd s), (wr s); repeat (destruct (decide (_ = _))); try lia; subst;
      first [left; split; [lia|naive_solver congruence]|right; split; [lia|naive_solver]].
  - intros i v Hi. pose proof (i_cnt _ HC i) as G. unfold cnt in G. apply occ_in. rewrite G.
    assert (0 < occ i (done_ s).*1) by (apply occ_in, elem_of_list_fmap; by exists (i, v)).
    pose proof (occ_nonneg i [er s]). pose proof (occ_nonneg i [ew s]). destruct (rd s), (wr s); lia.
Qed.
Lemma wait_read_done ok s : rd s = true -> done_ (wait_read ok s) = done_ s \/ ok = false /\ done_ (wait_read ok s) = done_ s ++ [(er s, -1)].
Proof.
  intros H. rewrite wait_read_cases. destruct (rev s); [by left|]. pose proof (add_r_fields ok s) as F. cbv zeta in F. decompose [and] F.
  destruct ok; [left; sm; done|right; split; [done|]]. sm. by f_equal.
Qed.
Lemma wait_write_done okr okw s : done_ (wait_write okr okw s) = done_ s \/ okr && okw = false /\ done_ (wait_write okr okw s) = done_ s ++ [(ew s, -1)].
Proof.
  rewrite wait_write_cases. destruct (wev s); [by left|].
  pose proof (add_r_fields okr s) as F1. pose proof (add_w_fields okw s) as F2. pose proof (add_w_fields (okr && okw) (add_r okr s)) as F3. cbv zeta in *. decompose [and] F1. decompose [and] F2. decompose [and] F3. clear F1 F2 F3.
  destruct (rev s); cbv zeta; [destruct okw|destruct (okr && okw) eqn:E]; [left|right|left|right]; sm; try congruence; (split; [by rewrite ?andb_false_r|congruence]).
Qed.
Lemma read_event_done ok r s s' : core s -> rd s = true -> read_event ok r s = Some s' -> done_ s' = done_ s \/ done_ s' = done_ s ++ [(er s, rvalue s r)].
Proof.
  intros HC Hrd. unfold read_event, rvalue. assert (Hret: et s = true) by (rewrite (i_et _ HC); by apply (i_rd _ HC)). rewrite Hret.
  pose proof (i_rd _ HC Hrd) as Hrv. sm. destruct (br s); sm; [|intros [= <-]; by right].
  destruct r as [n more|n|]; cbn [try_in]; sm; [destruct (lin s); sm..|]; intros [= <-]; try (right; reflexivity).
  all: left; rewrite wait_read_cases; sm; by rewrite Hrv.
Qed.
Lemma write_event_done main okr okw r s s' : core s -> wr s = true -> write_event main okr okw r s = Some s' ->
  done_ s' = done_ s \/ done_ s' = done_ s ++ [(ew s, wvalue s r)] \/ okr && okw = false /\ done_ s' = done_ s ++ [(ew s, -1)].
Proof.
  intros HC Hwr. unfold write_event, wvalue. destruct (sf s) eqn:Es.
  - destruct (i_sf _ HC Es) as [_ Hb]. sm. rewrite Hb. destruct r as [n more|n|]; [destruct (lout s); sm..|destruct (wrdy s); [destruct main|]]; intros [= <-]; try (right; left; reflexivity); try (left; reflexivity).
    all: match goal with |- context [wait_write ?a ?b ?x] => destruct (wait_write_done a b x) as [E|[E1 E2]] end; [left; exact E|right; right; split; [done|exact E2]].
  - sm. destruct (bw s) eqn:Eb; [intros [= <-]; right; left; reflexivity| |pose proof (i_bf _ HC Eb Hwr); congruence].
    destruct r as [n more|n|]; cbn [try_out]; sm; [destruct (lout s); sm..|]; intros [= <-]; try (right; left; reflexivity).
    all: match goal with |- context [wait_write ?a ?b ?x] => destruct (wait_write_done a b x) as [E|[E1 E2]] end; [left; exact E|right; right; split; [done|exact E2]].
Qed.
(** who is called back and with what: a step makes at most one callback; the callback of a transfer carries what the transfer
    returned, that of a request without a buffer 0, and -1 is also what a failed registration gives *)
Theorem C61_value_partial tr s e s' o : reach normal tr s -> normal s e -> step false s e = Ok s' o ->
  done_ s' = done_ s \/ exists i v, done_ s' = done_ s ++ [(i, v)] /\
  match e with
  | ERead j _ buf ok r => i = j /\ (v = (if buf then result r else 0) \/ ok = false /\ v = -1)
  | EWrite j _ b okr okw r => i = j /\ (v = (match b with BNone => 0 | _ => result r end) \/ okr && okw = false /\ v = -1)
  | EWEv okr okw r => wr s = true /\ i = ew s /\ (v = wvalue s r \/ okr && okw = false /\ v = -1)
  | EREv _ r => rd s = true /\ i = er s /\ v = rvalue s r
  | _ => False
  end.
Proof.
  intros H Hn. pose proof (reach_inv1 _ _ H) as [HC HP]. destruct e; cbn [step].
  - destruct (no_call i s) eqn:Eb; [done|]. nc Eb Ei Ecl. cbn [normal] in Hn. rewrite Hn.
    change (s_rd true _) with (setr i buf s). change (rrdy (setr i buf s)) with (rrdy s).
    destruct (rrdy s) eqn:Er; [destruct direct|].
    + destruct (read_event _ _ _) as [s1|] eqn:E; [|done]. intros [= <- <-].
      apply read_event_done in E; [|apply core_setr; [done|done|apply (i_rr _ HC Er)|done]|done]. destruct E as [-> | ->]; [by left|right]. eexists _, _. split; [reflexivity|]. split; [done|]. by left.
    + intros [= <- <-]. by left.
    + intros [= <- <-]. destruct (wait_read_done ok (setr i buf s) eq_refl) as [->|[-> ->]]; [by left|right]. eexists _, _. split; [reflexivity|]. auto.
  - destruct (no_call i s) eqn:Eb; [done|]. nc Eb Ei Ecl. destruct Hn as [Hn _]. destruct (wr s || _); [done|].
    change (match b with BFile => _ | _ => _ end) with (setw i b s) at 1 2 3 4. destruct (setw_fields i b s) as (F1 & F2 & F3 & F4 & F5 & F6 & F7 & F8 & F9 & F10 & F11 & F12). rewrite F10.
    assert (X: done_ (setw i b s) = done_ s) by (by destruct b).
    destruct (wrdy s) eqn:Er; [destruct direct|].
    + destruct (write_event _ _ _ _ _) as [s1|] eqn:E; [|done]. intros [= <- <-].
      apply write_event_done in E; [|apply core_setw; [done|done|apply (i_wrr _ HC Er)|done]|done]. unfold wvalue in E. rewrite X, F2, F3 in E.
      destruct E as [->|[->|[E ->]]]; [by left|right..]; (eexists _, _; split; [reflexivity|]); auto.
    + intros [= <- <-]. left. exact X.
    + intros [= <- <-]. destruct (wait_write_done okr okw (setw i b s)) as [E|[E E2]]; rewrite ?X, ?F3 in *; [left; done|right]. eexists _, _. split; [exact E2|]. auto.
  - destruct (no_call i s) eqn:Eb; [done|]. destruct (_ || _); [done|].
    assert (X: done_ (add_rw okr okw (s_wr true (s_bw BNone (s_ew i s)))).1 = done_ s).
    { unfold add_rw, add_r, add_w. destruct (rev _), okr, okw; reflexivity. }
    destruct (add_rw _ _ _) as [s1 []]; cbn [fst] in X; intros [= <- <-]; left; exact X.
  - destruct (busy s || cl s); [done|]. destruct (decide _); [|done]. intros [= <- <-]. left. by destruct (rev s || wev s).
  - destruct (no_call i s) eqn:Eb; [done|]. destruct (_ || _); [done|]. intros [= <- <-]. by left.
  - destruct (no_call i s) eqn:Eb; [done|]. destruct (_ || _); [done|]. intros [= <- <-]. by left.
  - destruct (pc s); try done. destruct (negb _); [done|]. intros [= <- <-]. left. sm. by destruct (rd s).
  - destruct (pc s); try done. destruct (negb _); [done|]. intros [= <- <-]. left. sm. by destruct (wr s).
  - destruct (pc s); try done. destruct (decide _); [|done]. intros [= <- <-]. by left.
  - destruct (pc s) as [|n| |] eqn:Ep; try done. unfold pcok in HP. rewrite Ep in HP. destruct HP as (-> & _). unfold take_snap. sm.
    destruct (_ && _) eqn:Ew; [|intros [= <- <-]; by left]. apply andb_prop in Ew as [_ Ew]. destruct (write_event _ _ _ _ _) as [s1|] eqn:E; [|done]. intros [= <- <-]. sm.
    apply write_event_done in E; [|done|done]. destruct E as [->|[->|[E ->]]]; [by left|right..]; (eexists _, _; split; [reflexivity|]); auto.
  - destruct (pc s) as [| |n|] eqn:Ep; try done. unfold pcok in HP. rewrite Ep in HP. destruct HP as (P1 & _).
    destruct (_ && _) eqn:Ew; [|intros [= <- <-]; by left]. apply andb_prop in Ew as [_ Ew]. destruct (P1 Ew) as [P3 _]. destruct (cl s); [done|]. destruct (read_event _ _ _) as [s1|] eqn:E; [|done]. intros [= <- <-]. sm.
    apply read_event_done in E; [|done|done]. destruct E as [-> | ->]; [by left|right]; (eexists _, _; split; [reflexivity|]); auto.
  - destruct (pc s); try done. destruct (_ && _); [destruct (cl s); [done|]|]; intros [= <- <-]; left; rewrite ?list_rw_eq; done.
  - destruct (pc s); try done. destruct (decide _); [|done]. intros [= <- <-]. by left.
  - destruct (cl s); [done|]. intros [= <- <-]. by left.
  - destruct (cl s); [done|]. intros [= <- <-]. by left.
  - destruct (cl s); [done|]. intros [= <- <-]. by left.
Qed.
(** the stages of a turn *)
Lemma stage_pop s : inv s -> inv2 s -> pc s = PIdle -> loc s = LReady ->
  let s1 := s_pc (PW (take_snap s)) (s_loc LNone s) in step false s EPop = Ok s1 true /\ inv s1 /\ inv2 s1.
Proof.
  intros HI HJ Hp Hl s1. assert (E: step false s EPop = Ok s1 true) by (cbn [step]; rewrite Hp, decide_True by done; done). split; [done|].
  pose proof (step_inv s EPop HI I) as G. rewrite E in G. split; [done|]. by apply (step2_ok s EPop s1 true).
Qed.
Lemma stage_w s n r : inv s -> inv2 s -> pc s = PW n -> exists s1 m, step false s (EWEv true true r) = Ok s1 true /\ inv s1 /\ inv2 s1 /\ pc s1 = PR m /\
  n_rd m = n_rd n /\ n_r m = n_r n /\ rd s1 = rd s /\ er s1 = er s /\ lin s1 = lin s /\ br s1 = br s /\ (exists l, done_ s1 = done_ s ++ l) /\
  (n_wr n = true -> n_w n = true -> bw s = BNone \/ lout s = true -> (sf s = true -> r <> RFail) -> (ew s, wvalue s r) ∈ done_ s1).
Proof.
  intros HI HJ Hp. assert (Hn: normal s (EWEv true true r)) by (intros _; done). pose proof (step_inv s _ HI Hn) as G.
  assert (G2: forall s1, step false s (EWEv true true r) = Ok s1 true -> inv2 s1) by (intros s1; by apply step2_ok).
  cbn [step] in *. rewrite Hp in *. pose proof HI as [HC HP]. unfold pcok in HP. rewrite Hp in HP. destruct HP as (-> & Hl & Hcl). sm.
  unfold take_snap in *. sm. destruct (wrdy s || wrdy2 s) eqn:E1; [destruct (wr s) eqn:E2|]; cbn [andb] in *.
  - destruct (write_event true true true r s) as [s1|] eqn:E; [|done]. eexists _, _. split; [reflexivity|]. split; [exact G|]. split; [by apply G2|].
    split; [reflexivity|]. sm. split; [done|]. split; [done|].
    pose proof (write_event_done true true true r s s1 HC E2 E) as D.
    destruct (write_event_cases true true true r s HC E2) as [(v & l & d & E' & _)|[(E' & W2 & Hb & Hlo)|(W1 & W2 & W3 & W4 & E')]]; [done| | |]; rewrite E in E'; injection E' as ->.
    + sm. split_and!; try done; [by eexists|]. intros _ _ _ _. destruct D as [D|[D|[? _]]]; [|rewrite D; set_solver|done].
      apply (f_equal length) in D. rewrite app_length in D. cbn in D. lia.
    + rewrite wait_write_ok in *. sm. unfold add_w, add_r. destruct (wev s), (rev s); sm; (split_and!; try done; [exists []; by rewrite app_nil_r|]); intros _ _ [?|?] Hq; try congruence;
      (destruct Hlo as [?|[-> Hwd]]; [congruence|]); rewrite Hwd, W2 in E1; done.
    + sm. split_and!; try done; [exists []; by rewrite app_nil_r|]. intros _ _ _ Hq. by destruct Hq.
  - eexists _, _. split; [reflexivity|]. split; [exact G|]. split; [by apply G2|]. sm. split_and!; try done. exists []; by rewrite app_nil_r.
  - eexists _, _. split; [reflexivity|]. split; [exact G|]. split; [by apply G2|]. sm. split_and!; try done. exists []; by rewrite app_nil_r.
Qed.
Lemma stage_r s n r : inv s -> inv2 s -> pc s = PR n -> exists s1 m, step false s (EREv true r) = Ok s1 true /\ inv s1 /\ inv2 s1 /\ pc s1 = PF m /\
  (exists l, done_ s1 = done_ s ++ l) /\ (n_rd n = true -> n_r n = true -> br s = false \/ lin s = true -> (er s, rvalue s r) ∈ done_ s1).
Proof.
  intros HI HJ Hp. pose proof (step_inv s (EREv true r) HI I) as G.
  assert (G2: forall s1, step false s (EREv true r) = Ok s1 true -> inv2 s1) by (intros s1; by apply step2_ok).
  cbn [step] in *. rewrite Hp in *. pose proof HI as [HC HP]. unfold pcok in HP. rewrite Hp in HP. destruct HP as (P1 & P2).
  destruct (n_r n) eqn:E1; [destruct (n_rd n) eqn:E2|]; cbn [andb] in *.
  - destruct (P1 eq_refl) as [P3 P4]. destruct (cl s) eqn:Ecl; [done|].
    destruct (read_event true r s) as [s1|] eqn:E; [|done]. eexists _, _. split; [reflexivity|]. split; [exact G|]. split; [by apply G2|]. split; [reflexivity|]. sm.
    pose proof (read_event_done true r s s1 HC P3 E) as D.
    destruct (read_event_cases r s HC P3) as [(v & l & E' & _)|(Hl & Hb & E')]; rewrite E in E'; injection E' as ->.
    + sm. split; [by eexists|]. intros _ _ _. destruct D as [D|D]; [|rewrite D; set_solver]. apply (f_equal length) in D. rewrite app_length in D. cbn in D. lia.
    + sm. split; [exists []; by rewrite app_nil_r|]. intros _ _ [?|?]; congruence.
  - eexists _, _. split; [reflexivity|]. split; [exact G|]. split; [by apply G2|]. sm. split_and!; try done. exists []; by rewrite app_nil_r.
  - eexists _, _. split; [reflexivity|]. split; [exact G|]. split; [by apply G2|]. sm. split_and!; try done. exists []; by rewrite app_nil_r.
Qed.
Lemma stage_f s n : inv s -> inv2 s -> pc s = PF n -> exists s1, step false s EFin = Ok s1 true /\ pc s1 = PIdle /\ done_ s1 = done_ s.
Proof.
  intros HI HJ Hp. pose proof (step_inv s EFin HI I) as G. cbn [step] in *. rewrite Hp in *. destruct (_ && _).
  - destruct (cl s); [done|]. eexists. split; [reflexivity|]. rewrite list_rw_eq. done.
  - eexists. split; [reflexivity|]. done.
Qed.
Lemma serve s r1 r2 : inv s -> inv2 s -> pc s = PIdle -> loc s = LReady ->
  exists s' os, run (step false) s [EPop; EWEv true true r1; EREv true r2; EFin] = Ok s' os /\
    (rd s = true -> rrdy s = true \/ rrdy2 s = true -> br s = false \/ lin s = true -> (er s, rvalue s r2) ∈ done_ s') /\
    (wr s = true -> wrdy s = true \/ wrdy2 s = true -> bw s = BNone \/ lout s = true -> (sf s = true -> r1 <> RFail) -> (ew s, wvalue s r1) ∈ done_ s').
Proof.
  intros HI HJ Hp Hl. destruct (stage_pop s HI HJ Hp Hl) as (A1 & A2 & A3). set (s1 := s_pc _ _) in *.
  destruct (stage_w s1 (take_snap s) r1 A2 A3 eq_refl) as (s2 & m & B1 & B2 & B3 & B4 & B5 & B6 & B7 & B8 & B9 & B10 & [l1 B11] & B12).
  destruct (stage_r s2 m r2 B2 B3 B4) as (s3 & m3 & C1 & C2 & C3 & C4 & [l2 C5] & C6).
  destruct (stage_f s3 m3 C2 C3 C4) as (s4 & D1 & D2 & D3).
  exists s4. eexists. cbn [run]. rewrite A1, B1, C1, D1. split; [reflexivity|]. rewrite D3. split.
  - intros X1 X2 X3. assert (Y: rvalue s2 r2 = rvalue s r2) by (unfold rvalue; by rewrite B10). rewrite <- Y. change (er s) with (er s1). rewrite <- B8. apply C6.
    + rewrite B5. exact X1. + rewrite B6. unfold take_snap. sm. destruct X2 as [-> | ->]; [done|apply orb_true_r]. + rewrite B9, B10. exact X3.
  - intros X1 X2 X3 X4. rewrite C5. apply elem_of_app. left. apply B12; [exact X1|unfold take_snap; sm; destruct X2 as [-> | ->]; [done|apply orb_true_r]|exact X3|exact X4].
Qed.
(** what a report leaves *)
Lemma report_r s : inv s -> inv2 s -> pc s = PIdle -> pr s = true -> let s1 := (if rd s then s_loc LReady else id) (s_rrdy true (s_pr false s)) in
  step false s EReportR = Ok s1 true /\ inv s1 /\ inv2 s1.
Proof.
  intros HI HJ Hp Hr s1. assert (E: step false s EReportR = Ok s1 true) by (cbn [step]; rewrite Hp, Hr; cbn [negb]; subst s1; sm; by destruct (rd s)). split; [done|].
  pose proof (step_inv s EReportR HI I) as G. rewrite E in G. split; [done|]. by apply (step2_ok s EReportR s1 true).
Qed.
Lemma report_w s : inv s -> inv2 s -> pc s = PIdle -> pw s = true -> let s1 := (if wr s then s_loc LReady else id) (s_wrdy true (s_pw false s)) in
  step false s EReportW = Ok s1 true /\ inv s1 /\ inv2 s1.
Proof.
  intros HI HJ Hp Hr s1. assert (E: step false s EReportW = Ok s1 true) by (cbn [step]; rewrite Hp, Hr; cbn [negb]; subst s1; sm; by destruct (wr s)). split; [done|].
  pose proof (step_inv s EReportW HI I) as G. rewrite E in G. split; [done|]. by apply (step2_ok s EReportW s1 true).
Qed.
Lemma reports s : inv s -> inv2 s -> pc s = PIdle -> exists s1 os, run (step false) s ((if pr s then [EReportR] else []) ++ (if pw s then [EReportW] else [])) = Ok s1 os /\
  inv s1 /\ inv2 s1 /\ pc s1 = PIdle /\ pr s1 = false /\ pw s1 = false /\ rd s1 = rd s /\ wr s1 = wr s /\ er s1 = er s /\ ew s1 = ew s /\ br s1 = br s /\ bw s1 = bw s /\ sf s1 = sf s /\ lin s1 = lin s /\ lout s1 = lout s /\ rrdy2 s1 = rrdy2 s /\ wrdy2 s1 = wrdy2 s.
Proof.
  intros HI HJ Hp.
  assert (A: exists s1 os, run (step false) s (if pr s then [EReportR] else []) = Ok s1 os /\
    inv s1 /\ inv2 s1 /\ pc s1 = PIdle /\ pr s1 = false /\ pw s1 = pw s /\ rd s1 = rd s /\ wr s1 = wr s /\ er s1 = er s /\ ew s1 = ew s /\ br s1 = br s /\ bw s1 = bw s /\ sf s1 = sf s /\ lin s1 = lin s /\ lout s1 = lout s /\ rrdy2 s1 = rrdy2 s /\ wrdy2 s1 = wrdy2 s).
  { destruct (pr s) eqn:Er.
    - destruct (report_r s HI HJ Hp Er) as (A1 & A2 & A3). cbn [run]. rewrite A1. eexists _, _. split; [reflexivity|]. split; [done|]. split; [done|]. destruct (rd s) eqn:Ed; unfold id; sm; split_and!; congruence.
    - cbn [run]. eexists _, _. split; [reflexivity|]. split_and!; done. }
  destruct A as (s1 & os1 & R1 & A2 & A3 & A4 & A5 & A6 & A7 & A8 & A9 & A10 & A11 & A12 & A13 & A14 & A15 & A16 & A17). rewrite <- A6. clear A6.
  destruct (pw s1) eqn:Er.
  - destruct (report_w s1 A2 A3 A4 Er) as (B1 & B2 & B3).
    eexists _, _. split; [rewrite run_app, R1; cbn [run]; rewrite B1; reflexivity|]. split; [done|]. split; [done|]. destruct (wr s1) eqn:Ew; unfold id; sm; split_and!; congruence.
  - exists s1, os1. rewrite app_nil_r. split_and!; done.
Qed.
Lemma turn_app s r1 r2 : turn s r1 r2 = ((if pr s then [EReportR] else []) ++ (if pw s then [EReportW] else [])) ++ [EPop; EWEv true true r1; EREv true r2; EFin].
Proof. unfold turn. by rewrite app_assoc. Qed.
Definition loopev (e : ev) : Prop := okev e /\ match e with EReportR | EReportW | EPop | EWEv _ _ _ | EREv _ _ | EFin => True | _ => False end.
Lemma run_loop es s s' os tr : reach sane tr s -> (forall e, e ∈ es -> loopev e) -> run (step false) s es = Ok s' os -> reach sane (tr ++ es) s'.
Proof.
  revert s s' os tr. induction es as [|e es IH]; intros s s' os tr H He; cbn [run]; [intros [= <- <-]; by rewrite app_nil_r|].
  destruct (step false s e) as [| |s1 o] eqn:E1; try done. destruct (run (step false) s1 es) as [| |s2 os2] eqn:E2; try done. intros [= <- <-].
  rewrite (cons_middle e tr es), app_assoc. eapply IH; [|intros e' H'; apply He; by right|exact E2].
  econstructor; [exact H| |exact E1]. destruct (He e ltac:(by left)) as [H1 H2]. split; [|done]. destruct e; try done. intros _. exact H1.
Qed.
Lemma turn_loop s r1 r2 : forall e, e ∈ turn s r1 r2 -> loopev e.
Proof. intros e. unfold turn, loopev. destruct (pr s), (pw s); cbn [app]; rewrite !elem_of_cons, elem_of_nil; naive_solver. Qed.
Lemma called_once tr s i v : reach sane tr s -> (i, v) ∈ done_ s -> calls i s = 1%nat.
Proof.
  intros H Hd. assert (H2: reach normal tr s) by (eapply reach_mono; [|exact H]; by intros ?? []).
  destruct (C61_once_partial _ _ H2) as [P1 P2]. destruct (P1 i (P2 _ _ Hd)) as [[? _]|[Hz _]]; [done|].
  unfold calls in Hz. apply nil_length_inv in Hz. assert (Hf: (i, v) ∈ filter (fun c => c.1 = i) (done_ s)) by (apply elem_of_list_filter; done). rewrite Hz in Hf. by apply elem_of_nil in Hf.
Qed.
(** a pending read on a readable socket is called back, with what the transfer returns, in the next turn of the loop, whatever
    happened before; a pending next_read needs no data *)
Theorem C61_read_served_partial tr s r1 r2 : reach sane tr s -> pc s = PIdle -> rd s = true -> lin s = true \/ rrdy2 s = true ->
  exists s' os, run (step false) s (turn s r1 r2) = Ok s' os /\ (er s, rvalue s r2) ∈ done_ s' /\ calls (er s) s' = 1%nat.
Proof.
  intros H Hp Hr Hl. pose proof (reach_inv2 _ _ H) as (HI & HJ).
  assert (A: exists s' os, run (step false) s (turn s r1 r2) = Ok s' os /\ (er s, rvalue s r2) ∈ done_ s').
  { destruct (reports s HI HJ Hp) as (s1 & os & R1 & I1 & J1 & K1 & K2 & K3 & K4 & K5 & K6 & K7 & K8 & K9 & K10 & K11 & K12 & K13 & K14).
    assert (R: loc s1 = LReady /\ (rrdy s1 = true \/ rrdy2 s1 = true)).
    { destruct (j_read _ J1) as [?|[Hpr|[X1 X2]]]; [congruence|done|unfold prog_r in Hpr; by rewrite K1 in Hpr|]. exfalso.
      destruct Hl as [Hl|Hl]; [|congruence]. assert (Hv: rev s1 = true) by (destruct I1 as [HC _]; apply (i_rd _ HC); congruence).
      pose proof (j_er _ J1 Hv X1 ltac:(congruence)). congruence. }
    destruct R as [R2 R3]. destruct (serve s1 r1 r2 I1 J1 K1 R2) as (s' & os' & S1 & S2 & _).
    exists s', (os ++ os'). rewrite turn_app, run_app, R1, S1. split; [done|].
    rewrite <- K6. assert (Y: rvalue s1 r2 = rvalue s r2) by (unfold rvalue; by rewrite K8). rewrite <- Y. apply S2; [congruence|done|].
    destruct Hl as [Hl|Hl]; [right; congruence|left]. destruct I1 as [HC _]. by apply (i_r2 _ HC); congruence. }
  destruct A as (s' & os & A1 & A2). exists s', os. split; [done|]. split; [done|]. eapply called_once; [|done]. eapply run_loop; [done|apply turn_loop|done].
Qed.
(** the same for a write, a sendfile that does not fail, and a connect, on a writable socket; a pending next_write needs nothing *)
Theorem C61_write_served_partial tr s r1 r2 : reach sane tr s -> pc s = PIdle -> wr s = true -> lout s = true \/ wrdy2 s = true -> (sf s = true -> r1 <> RFail) ->
  exists s' os, run (step false) s (turn s r1 r2) = Ok s' os /\ (ew s, wvalue s r1) ∈ done_ s' /\ calls (ew s) s' = 1%nat.
Proof.
  intros H Hp Hr Hl Hf. pose proof (reach_inv2 _ _ H) as (HI & HJ).
  assert (A: exists s' os, run (step false) s (turn s r1 r2) = Ok s' os /\ (ew s, wvalue s r1) ∈ done_ s').
  { destruct (reports s HI HJ Hp) as (s1 & os & R1 & I1 & J1 & K1 & K2 & K3 & K4 & K5 & K6 & K7 & K8 & K9 & K10 & K11 & K12 & K13 & K14).
    assert (R: loc s1 = LReady /\ (wrdy s1 = true \/ wrdy2 s1 = true)).
    { destruct (j_write _ J1) as [?|[Hpr|(X1 & X2 & X3)]]; [congruence|done|unfold prog_w in Hpr; by rewrite K1 in Hpr|]. exfalso.
      destruct Hl as [Hl|Hl]; [|congruence]. pose proof (X3 ltac:(congruence)). congruence. }
    destruct R as [R2 R3]. destruct (serve s1 r1 r2 I1 J1 K1 R2) as (s' & os' & S1 & _ & S2).
    exists s', (os ++ os'). rewrite turn_app, run_app, R1, S1. split; [done|].
    rewrite <- K7. assert (Y: wvalue s1 r1 = wvalue s r1) by (unfold wvalue; by rewrite K9). rewrite <- Y. apply S2; [congruence|done| |by rewrite K10].
    destruct Hl as [Hl|Hl]; [right; congruence|left]. destruct I1 as [HC _]. by apply (i_w2 _ HC); congruence. }
  destruct A as (s' & os & A1 & A2). exists s', os. split; [done|]. split; [done|]. eapply called_once; [|done]. eapply run_loop; [done|apply turn_loop|done].
Qed.
(** a pending request is in one of the selector's lists when the loop is not at the socket, so that the idle timeout covers it
    (unless the timeout has already been taken); a socket without a pending request is in none, so that it can be closed *)
Theorem C61_listed_partial tr s : reach sane tr s -> pc s = PIdle -> rd s = true \/ wr s = true -> loc s <> LNone \/ shut s = true.
Proof.
  intros H Hp Hw. pose proof (reach_inv2 _ _ H) as (HI & HJ). destruct Hw as [Hw|Hw].
  - destruct (j_lr _ HJ Hw) as [?|[?|Hk]]; [by left|by right|]. unfold keep_r in Hk. by rewrite Hp in Hk.
  - destruct (j_lw _ HJ Hw) as [?|[?|Hk]]; [by left|by right|]. unfold keep_w in Hk. by rewrite Hp in Hk.
Qed.
Theorem C61_unlisted_partial tr s : reach normal tr s -> rd s = false -> wr s = false -> loc s = LNone.
Proof. intros H%reach_inv1 H1 H2. destruct H as [HC _]. destruct (decide (loc s = LNone)) as [|X]; [done|]. destruct (i_loc _ HC X); congruence. Qed.

(** * Example: the hypotheses are met *)
(** connect, a write that fills the buffer, a sendfile that waits, a read that waits, data and space arrive, both are served *)
Definition demo : list ev := [EConnect 1 true true; KOut; EReportW; EPop; EWEv true true RFail; EREv true RFail; EFin;
  EWrite 2 true BMem true true (RGot 5 false); EWrite 3 true BFile true true (RGot 5 false); ERead 4 true true true (RGot 1 false); KIn; KOut].
Fixpoint keeps (s : kq) (es : list ev) : Prop :=
  match es with
  | [] => True
  | e :: es => sane s e /\ match step false s e with Ok s' _ => keeps s' es | _ => False end
  end.
Lemma keeps_reach es tr s : reach sane tr s -> keeps s es -> exists s' os, run (step false) s es = Ok s' os /\ reach sane (tr ++ es) s'.
Proof.
  revert tr s. induction es as [|e es IH]; intros tr s H; [intros _; exists s, []; by rewrite app_nil_r|]. cbn [keeps run]. intros [H1 H2].
  destruct (step false s e) as [| |s1 o] eqn:E; try done. destruct (IH (tr ++ [e]) s1) as (s' & os & -> & H'); [by econstructor|done|].
  eexists _, _. split; [reflexivity|]. by rewrite (cons_middle e tr es), app_assoc.
Qed.
Example C61_demo_keeps : keeps kq_init demo.
Proof. vm_compute. intuition discriminate. Qed.
Example C61_demo_state : match run (step false) kq_init demo with
  | Ok s _ => pc s = PIdle /\ rd s = true /\ lin s = true /\ er s = 4%nat /\ wr s = true /\ sf s = true /\ lout s = true /\ ew s = 3%nat /\ done_ s = [(1%nat, 0); (2%nat, 5)]
  | _ => False end.
Proof. vm_compute. split_and!; reflexivity. Qed.
Example C61_demo_turn : match run (step false) kq_init (demo ++ [EReportR; EReportW; EPop; EWEv true true (RPart 7); EREv true (RGot 9 false); EFin; EClose]) with
  | Ok s _ => rd s = false /\ wr s = false /\ cl s = true /\ done_ s = [(1%nat, 0); (2%nat, 5); (3%nat, 7); (4%nat, 9)]
  | _ => False end.
Proof. vm_compute. split_and!; reflexivity. Qed.

(** * What does not hold *)
(** kevent fails once: the read is called back with -1, but the socket is left marked as registered; the next read is never
    registered, so data that arrives is never reported *)
Theorem C61_kevent_fail_refuted : match run (step false) kq_init [ERead 1 true true false RFail; ERead 2 true true true RFail; KIn] with
  | Ok s _ => done_ s = [(1%nat, -1)] /\ rd s = true /\ lin s = true /\ loc s = LRw /\ pr s = false /\ kr s = false
  | _ => False end.
Proof. vm_compute. split_and!; reflexivity. Qed.
(** a connect that could not be registered cannot be tried again: the second one fails the assertion *)
Theorem C61_connect_retry_refuted : match run (step false) kq_init [EConnect 1 false true] with
  | Ok s os => os = [false] /\ iss s = [] /\ step false s (EConnect 2 true true) = Crash
  | _ => False end.
Proof. vm_compute. split_and!; reflexivity. Qed.
(** a sendfile whose registration fails stays marked as a sendfile: the next ordinary write takes its buffer for a file *)
Theorem C61_sendfile_fail_refuted : match run (step false) kq_init [EWrite 1 true BFile false true RFail] with
  | Ok s _ => done_ s = [(1%nat, -1)] /\ wr s = false /\ (forall okr okw r, step false s (EWrite 2 true BMem okr okw r) = Crash)
  | _ => False end.
Proof. vm_compute. split_and!; reflexivity. Qed.
(** a connect that is refused is called back with 0, as one that succeeds *)
Theorem C61_refused_connect_refuted : match run (step false) kq_init [EConnect 1 true true; KRefuse; EReportR; EReportW; EPop; EWEv true true RFail; EREv true RFail; EFin] with
  | Ok s _ => done_ s = [(1%nat, 0)] | _ => False end.
Proof. vm_compute. reflexivity. Qed.
(** a sendfile that fails without having sent anything is never called back: the ready loop takes the socket for ever, and in it no
    other socket is served; called from a fiber, it recurses without end *)
Definition broken : list ev := [EConnect 1 true true; KOut; EReportW; EPop; EWEv true true RFail; EREv true RFail; EFin; EWrite 2 false BFile true true RFail].
Definition again : list ev := [EPop; EWEv true true RFail; EREv true RFail; EFin].
Theorem C61_sendfile_error_refuted :
  match run (step false) kq_init broken with
  | Ok s _ => done_ s = [(1%nat, 0)] /\ loc s = LReady /\ pc s = PIdle /\
              (forall n, exists os, run (step false) s (mjoin (replicate n again)) = Ok s os) /\
              step false (s_wr false (s_sf false (s_loc LNone s))) (EWrite 3 true BFile true true RFail) = Crash
  | _ => False end.
Proof.
  destruct (run (step false) kq_init broken) as [| |s os] eqn:E; [by vm_compute in E..|]. vm_compute in E. injection E as <- <-. split_and!; try reflexivity.
  intros n. induction n as [|n [os IH]]; [by exists []|]. change (mjoin (replicate (S n) again)) with (again ++ mjoin (replicate n again)). rewrite run_app.
  match goal with |- context [run ?f ?s again] => replace (run f s again) with (Ok s [true; true; true; true]) by (by vm_compute) end. rewrite IH. by eexists.
Qed.
(** with a read timeout the pending read is called back and stays pending: two callbacks *)
Theorem C61_read_timeout_refuted : match run (step true) kq_init
    [ERead 1 true true true RFail; ETimeout; KIn; EReportR; EPop; EWEv true true RFail; EREv true (RGot 3 false); EFin] with
  | Ok s _ => done_ s = [(1%nat, -2); (1%nat, 3)] | _ => False end.
Proof. vm_compute. reflexivity. Qed.
(** selectable_next_read on a socket that is not registered: the request stays marked, the next read fails the assertion *)
Theorem C61_next_read_refuted : match run (step false) kq_init [ENextR 1; EPop; EWEv true true RFail; EREv true RFail; EFin] with
  | Ok s _ => done_ s = [(1%nat, 0)] /\ pc s = PIdle /\ step false s (ERead 2 true true true RFail) = Crash
  | _ => False end.
Proof. vm_compute. split_and!; reflexivity. Qed.
