(** C62: accepting connections on a listening socket of the epoll and kqueue selectors. *)
From Verif Require Import AcceptModel.
Local Open Scope Z_scope.

(** * Specification *)
(** the accept requests that were taken and not yet called back *)
Definition waiting (s : ls) (i : nat) : Prop := i ∈ iss s /\ i ∉ (done_ s).*1.
(** the connections handed to callbacks, in order *)
Definition delivered (s : ls) : list nat := omap snd (done_ s).
(** how often the callback of request i was called *)
Definition calls (i : nat) (s : ls) : nat := length (filter (fun d => d.1 = i) (done_ s)).
(** the program's duties: one accept at a time; it does not destroy the listener while an accept is waiting nor (kqueue only) while
    the notice of kserver_close has it in the ready list *)
Definition normal (kq : bool) (s : ls) (e : ev) : Prop :=
  match e with
  | EAccept _ _ => forall i, ~ waiting s i
  | EDestroy => (forall i, ~ waiting s i) /\ (kq = true -> loc s <> LReady)
  | _ => True
  end.
Inductive reach (kq : bool) : list ev -> ls -> Prop :=
| reach_nil : reach kq [] (ls_init kq)
| reach_snoc tr s e s' o : reach kq tr s -> normal kq s e -> step kq s e = Ok s' o -> reach kq (tr ++ [e]) s'.
(** one turn of the selector's loop for this socket: select reports an edge if there is one, the ready loop takes the socket *)
Definition turn (s : ls) (fails ok : bool) : list ev := (if pend s then [EReport] else []) ++ [ETake fails ok].

(** * Invariant *)
Definition out (s : ls) : bool := rd s && (et s || bool_decide (loc s = LReady)).
Record inv (kq : bool) (s : ls) : Prop := mkinv {
  i_et : et s = rev s;
  i_reg : gone s = false -> reg s = rev s;
  i_cnt : forall i, occ i (iss s) = occ i (done_ s).*1 + (if out s then occ i [arg s] else 0);
  i_one : forall i, occ i (iss s) <= 1;
  i_ready : loc s = LReady -> rrdy s = true /\ (rd s = true \/ kq = true);
  i_nrw : loc s <> LRw;
  i_wait : rd s = true -> et s = true -> loc s = LNone -> rrdy s = false;
  i_edge : gone s = false -> et s = true -> rrdy s = false -> pend s = true \/ bl s = [] /\ shut s = false;
  i_kqr : kq = true -> rrdy s = true -> et s = false -> shut s = true;
  i_net : rd s = true -> et s = false -> rrdy s = true /\ (kq = true -> shut s = true);
  i_err : err s = true -> shut s = true;
  i_shut : shut s = true -> bl s = [];
  i_kq : kq = true -> shut s = true -> err s = true /\ rrdy s = true;
  i_pend : pend s = true -> reg s = true;
  i_gone : gone s = true -> loc s = LNone /\ reg s = false /\ out s = false;
  i_nodup : NoDup (arr s);
  i_lost : forall c, c ∈ lost s -> c ∈ arr s;
  i_arr : filter (fun c => c ∉ lost s) (arr s) = delivered s ++ bl s;
}.
Lemma inv_init kq : inv kq (ls_init kq).
Proof. constructor; try done; try (intros; cbn; lia). - intros ->. done. - constructor. Qed.

Lemma occ_one x i : occ x [i] = if decide (x = i) then 1 else 0.
Proof. rewrite occ_cons. case_bool_decide; destruct (decide _); cbn; congruence || lia. Qed.
Lemma occ_app x l1 l2 : occ x (l1 ++ l2) = occ x l1 + occ x l2.
Proof. apply sumz_app. Qed.
Lemma waiting_out kq s : inv kq s -> (exists i, waiting s i) <-> out s = true.
Proof.
  intros HI. split.
  - intros (i & H1 & H2). apply occ_in in H1. destruct (out s) eqn:E; [done|]. pose proof (i_cnt _ _ HI i) as G. rewrite E in G.
    destruct H2. apply occ_in. lia.
  - intros E. exists (arg s). pose proof (i_cnt _ _ HI (arg s)) as G. rewrite E, occ_one, decide_True in G by done.
    pose proof (i_one _ _ HI (arg s)). pose proof (occ_nonneg (arg s) (done_ s).*1). split; [apply occ_in; lia|]. rewrite occ_in. lia.
Qed.
Lemma waiting_arg kq s i : inv kq s -> waiting s i -> i = arg s /\ out s = true.
Proof.
  intros HI [H1 H2]. apply occ_in in H1. pose proof (i_cnt _ _ HI i) as G. rewrite occ_in in H2. pose proof (occ_nonneg i (done_ s).*1).
  destruct (out s); [|lia]. rewrite occ_one in G. destruct (decide _); [done|lia].
Qed.
Lemma no_waiting kq s : inv kq s -> (forall i, ~ waiting s i) -> out s = false.
Proof. intros HI H. destruct (out s) eqn:E; [|done]. apply (waiting_out kq s HI) in E as [i E]. by destruct (H i). Qed.

Lemma filter_all (P : nat -> Prop) `{!forall x, Decision (P x)} (l : list nat) : (forall x, x ∈ l -> P x) -> filter P l = l.
Proof. induction l as [|a l IH]; [done|]. intros HP. rewrite filter_cons, decide_True by (apply HP; by left). f_equal. apply IH. intros x Hx. apply HP. by right. Qed.
Lemma filter_none (P : nat -> Prop) `{!forall x, Decision (P x)} (l : list nat) : (forall x, x ∈ l -> ~ P x) -> filter P l = [].
Proof. induction l as [|a l IH]; [done|]. intros HP. rewrite filter_cons, decide_False by (apply HP; by left). apply IH. intros x Hx. apply HP. by right. Qed.
Lemma filter_more (L M l : list nat) : filter (fun d => d ∉ L ++ M) l = filter (fun d => d ∉ M) (filter (fun d => d ∉ L) l).
Proof.
  induction l as [|a l IH]; [done|]. rewrite (filter_cons (fun d => d ∉ L ++ M)), (filter_cons (fun d => d ∉ L)).
  destruct (decide (a ∉ L ++ M)) as [H|H], (decide (a ∉ L)) as [H2|H2]; rewrite ?filter_cons.
  - rewrite decide_True by set_solver. by f_equal.
  - set_solver.
  - rewrite decide_False by set_solver. done.
  - done.
Qed.
(** losing the whole backlog *)
Lemma lose_all (s : ls) : NoDup (arr s) -> filter (fun c => c ∉ lost s) (arr s) = delivered s ++ bl s ->
  filter (fun c => c ∉ lost s ++ bl s) (arr s) = delivered s.
Proof.
  intros HN H. rewrite filter_more, H, filter_app.
  assert (HD: NoDup (delivered s ++ bl s)) by (rewrite <- H; by apply NoDup_filter). apply NoDup_app in HD as (_ & HD & _).
  rewrite filter_all by done. rewrite filter_none; [apply app_nil_r|]. intros x Hx Hn. by apply Hn.
Qed.

Ltac sm := cbn [rd rrdy rev et err arg loc reg pend bl shut gone iss done_ arr lost s_rd s_rrdy s_rev s_et s_err s_arg s_loc s_reg s_pend s_bl s_shut s_gone s_iss s_done_ s_arr s_lost call] in *.
(** the result of kselector_event_accept, case by case *)
Lemma accept_cases ok s : accept_ ok s =
  if rrdy s then (s_loc LReady (s_rd true s), true) else
  if rev s then (s_rd true s, true) else
  if ok then (s_rev true (s_et true (s_reg true (s_pend (bool_decide (bl s <> []) || shut s) (s_rd true s)))), true)
  else (s_rd false (s_rev false (s_et false s)), false).
Proof. unfold accept_. sm. destruct (rrdy s), (rev s), ok; reflexivity. Qed.

Lemma delivered_call s v : omap snd (done_ s ++ [(arg s, v)]) = delivered s ++ (match v with Some c => [c] | None => [] end).
Proof. unfold delivered. rewrite omap_app. by destruct v. Qed.

Lemma inv_accept kq s i ok : inv kq s -> gone s = false -> i ∉ iss s -> out s = false ->
  let '(s1, b) := accept_ ok (s_arg i s) in inv kq (if b then s_iss (iss s1 ++ [i]) s1 else s1).
Proof.
  intros HI Hg Hi Ho. rewrite accept_cases. sm.
  assert (O1: occ i (iss s) = 0) by (pose proof (occ_nonneg i (iss s)); rewrite occ_in in Hi; lia).
  assert (C: forall j, occ j (iss s ++ [i]) = occ j (done_ s).*1 + occ j [i]) by (intros j; rewrite occ_app, (i_cnt _ _ HI j), Ho; lia).
  assert (C1: forall j, occ j (iss s ++ [i]) <= 1).
  { intros j. rewrite occ_app, occ_one. pose proof (i_one _ _ HI j). destruct (decide _); subst; lia. }
  destruct HI. unfold out in *. sm.
  assert (L: rrdy s = false -> bool_decide (loc s = LReady) = false).
  { intros E. apply bool_decide_eq_false. intros E2. apply i_ready0 in E2 as [? _]. congruence. }
  destruct (rrdy s) eqn:Er; [|specialize (L eq_refl); destruct (rev s) eqn:Ev; [|destruct ok]]; constructor; unfold out; sm; rewrite ?Er, ?i_et0, ?L; cbn [andb orb]; rewrite ?bool_decide_true by done; rewrite ?orb_true_r; cbn [andb orb]; try done; auto; try (intros; congruence).
  all: try (intros; split; [congruence|auto]).
  all: try (intros Hl; apply i_ready0 in Hl as [? _]; congruence).
  - intros. apply i_kqr0; congruence.
  - intros. apply i_kqr0; congruence.
  - intros. rewrite Ev. auto.
  - intros. destruct (bl s); [|left; done]. destruct (shut s); auto.
  - intros j. rewrite (i_cnt0 j), Ho. lia.
Qed.

(** after a callback: the socket is in no list, nothing is waiting *)
Lemma inv_call kq s v : inv kq s -> out s = true -> loc s = LReady -> gone s = false ->
  (match v with Some c => exists l, bl s = c :: l | None => True end) ->
  inv kq (call v (s_bl (match v with Some _ => tail (bl s) | None => bl s end) (s_loc LNone (if et s then s_rd false s else s)))).
Proof.
  intros HI Ho Hl Hg Hv. destruct HI. unfold out in *. apply andb_prop in Ho as [Hr _]. destruct (i_ready0 Hl) as [Hrr _].
  assert (O: forall j, occ j (iss s) = occ j (done_ s ++ [(arg s, v)]).*1).
  { intros j. rewrite fmap_app, occ_app, i_cnt0, Hr, Hl, bool_decide_true, orb_true_r by done. done. }
  assert (A: filter (fun c => c ∉ lost s) (arr s) = omap snd (done_ s ++ [(arg s, v)]) ++ match v with Some _ => tail (bl s) | None => bl s end).
  { rewrite delivered_call, i_arr0. destruct v as [c|]; [|by rewrite app_nil_r]. destruct Hv as [l ->]. by rewrite <- app_assoc. }
  destruct (et s) eqn:Ee; constructor; unfold out, delivered; sm; rewrite ?Hr, ?Ee; cbn [andb orb]; try done; auto; try (intros; congruence).
  all: try (intros j; rewrite O; lia).
  all: try (intros X; rewrite (i_shut0 X); by destruct v).
  intros j. rewrite bool_decide_false by done. rewrite O. lia.
Qed.
(** the socket is found empty: the same request waits on, or, if it cannot be registered, is called back *)
Lemma inv_again kq s ok : inv kq s -> out s = true -> loc s = LReady -> gone s = false -> bl s = [] -> shut s = false ->
  let '(s1, b) := accept_ ok (s_rrdy false (s_loc LNone (if et s then s_rd false s else s))) in inv kq (if b then s1 else call None s1).
Proof.
  intros HI Ho Hl Hg Hb Hs. rewrite accept_cases. destruct HI. unfold out in *. apply andb_prop in Ho as [Hr _]. destruct (i_ready0 Hl) as [Hrr _].
  assert (O: forall j, occ j (iss s) = occ j (done_ s).*1 + occ j [arg s]) by (intros j; rewrite i_cnt0, Hr, Hl, bool_decide_true, orb_true_r by done; done).
  assert (A: filter (fun c => c ∉ lost s) (arr s) = omap snd (done_ s ++ [(arg s, None)]) ++ bl s) by (rewrite delivered_call, app_nil_r; done).
  assert (E: err s = false) by (destruct (err s); [by rewrite i_err0 in Hs|done]).
  assert (P: rev s = false -> pend s = false) by (intros V; destruct (pend s); [rewrite i_reg0, V in i_pend0 by done; by discriminate i_pend0|done]).
  destruct (et s) eqn:Ee; sm; rewrite <- i_et0; [|destruct ok]; constructor; unfold out, delivered; sm; rewrite ?Ee, ?Hs, ?Hb, ?E, ?Hg; cbn [andb orb]; try done; auto; try (intros; congruence).
  all: try (intros; rewrite fmap_app, occ_app, O; cbn [fmap list_fmap fst]; lia).
  - rewrite <- Hb. exact i_arr0.
  - rewrite <- Hb. exact i_arr0.
  - intros _. rewrite i_reg0 by done. congruence.
Qed.
Lemma step_inv kq s e : inv kq s -> normal kq s e -> match step kq s e with Disabled => True | Crash => False | Ok s' _ => inv kq s' end.
Proof.
  intros HI Hn. destruct e as [i ok| | |fails ok| |c|c]; cbn [step].
  - destruct (gone s) eqn:Hg; [done|]. case_bool_decide as Hi; [done|]. cbn [orb].
    pose proof (inv_accept kq s i ok HI Hg Hi (no_waiting _ _ HI Hn)) as A. by destruct (accept_ ok (s_arg i s)) as [s1 []].
  - destruct (gone s) eqn:Hg; [done|]. destruct Hn as [Hn Hk]. pose proof (no_waiting _ _ HI Hn) as Ho.
    assert (Hl: loc s = LNone).
    { destruct (loc s) eqn:El; [done|by destruct (i_nrw _ _ HI)|]. destruct (i_ready _ _ HI El) as [_ [Hr|Hr]]; [|by destruct (Hk Hr)].
      unfold out in Ho. by rewrite Hr, El, bool_decide_true, orb_true_r in Ho by done. }
    pose proof (lose_all s (i_nodup _ _ HI) (i_arr _ _ HI)) as L. assert (LL: forall c, c ∈ lost s ++ bl s -> c ∈ arr s).
    { intros c [Hc|Hc]%elem_of_app; [by apply (i_lost _ _ HI)|]. assert (Hf: c ∈ filter (fun c => c ∉ lost s) (arr s)) by (rewrite (i_arr _ _ HI); set_solver).
      by apply elem_of_list_filter in Hf as [_ Hf]. }
    destruct HI. constructor; unfold out, delivered in *; sm; try done; rewrite ?app_nil_r; auto.
  - destruct (pend s) eqn:Hp; [|done]. cbn [negb].
    assert (Hg: gone s = false). { destruct (gone s) eqn:E; [|done]. destruct (i_gone _ _ HI E) as (_ & X & _). rewrite (i_pend _ _ HI Hp) in X. done. }
    assert (He: et s = true) by (rewrite (i_et _ _ HI), <- (i_reg _ _ HI Hg); by apply (i_pend _ _ HI)).
    assert (Hx: forall s0, rd (s_rrdy true (s_pend false s0)) = rd s0) by done.
    destruct kq; sm; destruct (rd s) eqn:Er; destruct HI; constructor; unfold out, delivered in *; sm; rewrite ?Er, ?He, ?Hg in *; cbn [andb orb] in *; try done; auto; try (intros; congruence).
    all: try (intros H%orb_prop; destruct H; by auto).
    all: try (intros _ X; split; [by apply i_kq0|done]).
    intros X. by destruct (i_ready0 X) as [_ [?|?]].
  - destruct (decide _) as [Hl|]; [|done]. destruct (gone s) eqn:Hg; [by rewrite (proj1 (i_gone _ _ HI Hg)) in Hl|].
    destruct (i_ready _ _ HI Hl) as [Hrr Hrk]. sm. rewrite Hrr. cbn [andb]. destruct (rd s) eqn:Hr.
    + assert (Ho: out s = true) by (unfold out; rewrite Hr, Hl, bool_decide_true, orb_true_r by done; done).
      replace (if et s then s_rd false (s_loc LNone s) else s_loc LNone s) with (s_loc LNone (if et s then s_rd false s else s)) by (by destruct (et s)).
      set (t := s_loc LNone _). unfold event_accept, sys_accept.
      assert (T: bl t = bl s /\ shut t = shut s /\ err t = err s /\ t = s_bl (bl s) t) by (subst t; by destruct (et s)). destruct T as (T1 & T2 & T3 & T4).
      destruct fails; [rewrite T4; apply (inv_call kq s None HI Ho Hl Hg I)|]. rewrite T2. destruct (shut s) eqn:Hs.
      * destruct kq; [|rewrite T4; apply (inv_call false s None HI Ho Hl Hg I)].
        rewrite T3, (proj1 (i_kq _ _ HI eq_refl Hs)). rewrite T4. apply (inv_call true s None HI Ho Hl Hg I).
      * rewrite T1. destruct (bl s) as [|c l] eqn:Hb.
        -- assert (E: err s = false) by (destruct (err s) eqn:E; [by rewrite (i_err _ _ HI E) in Hs|done]). rewrite T3, E.
           pose proof (inv_again kq s ok HI Ho Hl Hg Hb Hs) as A. fold t in A. by destruct (accept_ ok (s_rrdy false t)) as [s1 []].
        -- pose proof (inv_call kq s (Some c) HI Ho Hl Hg (ex_intro _ l Hb)) as A. rewrite Hb in A. exact A.
    + assert (kq = true) as -> by (by destruct Hrk). cbn [andb]. destruct HI. constructor; unfold out, delivered in *; sm; rewrite ?Hr in *; cbn [andb] in *; try done; auto; try (intros; congruence).
  - destruct (gone s) eqn:Hg; [done|]. destruct (shut s) eqn:Hs; [done|]. cbn [orb].
    pose proof (lose_all s (i_nodup _ _ HI) (i_arr _ _ HI)) as L. assert (LL: forall c, c ∈ lost s ++ bl s -> c ∈ arr s).
    { intros c [Hc|Hc]%elem_of_app; [by apply (i_lost _ _ HI)|]. assert (Hf: c ∈ filter (fun c => c ∉ lost s) (arr s)) by (rewrite (i_arr _ _ HI); set_solver).
      by apply elem_of_list_filter in Hf as [_ Hf]. }
    assert (K: kq = true -> rd s = true -> et s = true).
    { intros Hk Hr. destruct (et s) eqn:Ee; [done|]. destruct (i_net _ _ HI Hr Ee) as [_ X]. by rewrite X in Hs. }
    destruct HI. destruct kq; constructor; unfold out, delivered in *; sm; rewrite ?app_nil_r; try done; auto; try (intros; congruence).
    all: try (intros; by destruct (pend s); auto).
    all: try (intros H%orb_prop; destruct H; by auto).
    all: try (intros _ He _; left; rewrite i_reg0, <- i_et0, He by done; by rewrite orb_true_r).
    + intros j. rewrite i_cnt0. destruct (rd s) eqn:Er; [|done]. by rewrite (K eq_refl eq_refl).
    + intros X Y. split; [by apply i_net0|done].
  - destruct (gone s) eqn:Hg; [done|]. destruct (shut s) eqn:Hs; [done|]. cbn [orb]. case_bool_decide as Hc; [done|].
    assert (A: filter (fun d => d ∉ lost s) (arr s ++ [c]) = delivered s ++ bl s ++ [c]).
    { rewrite filter_app, (i_arr _ _ HI), filter_cons, decide_True; [by rewrite <- app_assoc|]. intros H. by apply Hc, (i_lost _ _ HI). }
    destruct HI. constructor; unfold out, delivered in *; sm; rewrite ?Hg, ?Hs in *; try done; auto; try (intros; congruence).
    + intros _ He _. left. rewrite i_reg0, <- i_et0, He by done. apply orb_true_r.
    + intros H%orb_prop. destruct H; auto.
    + apply NoDup_app. split_and!; [done| |apply NoDup_singleton]. intros x Hx. rewrite elem_of_list_singleton. by intros ->.
    + intros d Hd. apply elem_of_app. auto.
  - case_bool_decide as Hc; [|done].
    assert (HD: NoDup (delivered s ++ bl s)) by (rewrite <- (i_arr _ _ HI); apply NoDup_filter, (i_nodup _ _ HI)).
    assert (A: filter (fun d => d ∉ lost s ++ [c]) (arr s) = delivered s ++ filter (fun d => d <> c) (bl s)).
    { rewrite filter_more, (i_arr _ _ HI), filter_app. apply NoDup_app in HD as (_ & HD & _). f_equal.
      - apply filter_all. intros x Hx Hin. apply elem_of_list_singleton in Hin as ->. by apply (HD c).
      - clear. induction (bl s) as [|a l IH]; [done|]. rewrite !filter_cons, IH. destruct (decide (a ∉ [c])), (decide (a <> c)); set_solver. }
    destruct HI. constructor; unfold out, delivered in *; sm; try done; auto.
    + intros Hg He Hr. destruct (i_edge0 Hg He Hr) as [?|[Hb _]]; [by left|]. rewrite Hb in Hc. by apply elem_of_nil in Hc.
    + intros X. by rewrite (i_shut0 X).
    + intros d [Hd|Hd]%elem_of_app; [auto|]. apply elem_of_list_singleton in Hd as ->.
      assert (Hf: c ∈ filter (fun c => c ∉ lost s) (arr s)) by (rewrite i_arr0; set_solver). by apply elem_of_list_filter in Hf as [_ Hf].
Qed.

Lemma reach_inv' kq tr s : reach kq tr s -> inv kq s.
Proof. induction 1 as [|tr s e s' o H IH Hn Hs]; [apply inv_init|]. pose proof (step_inv kq s e IH Hn) as G. by rewrite Hs in G. Qed.
Lemma occ_calls i s : occ i (done_ s).*1 = Z.of_nat (calls i s).
Proof.
  unfold calls. induction (done_ s) as [|[a v] l IH]; [done|]. rewrite fmap_cons, occ_cons, filter_cons, IH. cbn [fst].
  case_bool_decide; destruct (decide _); cbn [b2z length]; try done; lia.
Qed.

(** * C62 *)
(** the selector never touches the memory of a destroyed listener *)
Theorem C62_safe_partial kq tr s e : reach kq tr s -> normal kq s e -> step kq s e <> Crash.
Proof. intros H Hn Hc. pose proof (step_inv kq s e (reach_inv' _ _ _ H) Hn) as G. by rewrite Hc in G. Qed.
(** every accept request is called back exactly once, or is waiting and has not been called; nothing else is called; at most one waits *)
Theorem C62_once kq tr s : reach kq tr s ->
  (forall i, i ∈ iss s -> calls i s = 1%nat \/ calls i s = 0%nat /\ waiting s i) /\
  (forall i v, (i, v) ∈ done_ s -> i ∈ iss s) /\ (forall i j, waiting s i -> waiting s j -> i = j).
Proof.
  intros H. pose proof (reach_inv' _ _ _ H) as HI. split_and!.
  - intros i Hi. pose proof (i_cnt _ _ HI i) as G. pose proof (i_one _ _ HI i). rewrite occ_calls in G. pose proof (proj1 (occ_in i (iss s)) Hi).
    assert (Hz: 0 <= if out s then occ i [arg s] else 0) by (destruct (out s); [apply occ_nonneg|lia]).
    destruct (decide (calls i s = 1%nat)); [by left|right]. assert (calls i s = 0%nat) by lia. split; [done|]. split; [done|].
    rewrite occ_in, occ_calls. lia.
  - intros i v Hi. apply occ_in. rewrite (i_cnt _ _ HI i). assert (0 < occ i (done_ s).*1) by (apply occ_in, elem_of_list_fmap; by exists (i, v)).
    destruct (out s); [pose proof (occ_nonneg i [arg s])|]; lia.
  - intros i j Hi Hj. destruct (waiting_arg _ _ _ HI Hi) as [-> _], (waiting_arg _ _ _ HI Hj) as [-> _]. done.
Qed.
(** the connections handed out, followed by those still waiting in the kernel, are the arrivals in their order, without those that
    disappeared before they were accepted: none is lost, doubled or overtaken *)
Theorem C62_order kq tr s : reach kq tr s ->
  delivered s ++ bl s = filter (fun c => c ∉ lost s) (arr s) /\ NoDup (delivered s ++ bl s).
Proof. intros H. pose proof (reach_inv' _ _ _ H) as HI. split; [by rewrite (i_arr _ _ HI)|]. rewrite <- (i_arr _ _ HI). apply NoDup_filter, (i_nodup _ _ HI). Qed.
(** a waiting accept gets the first waiting connection in the next turn of the loop, whatever happened before *)
Lemma turn_run kq s fails ok : inv kq s -> out s = true -> gone s = false -> bl s <> [] \/ shut s = true ->
  exists s1, run (step kq) s (turn s fails ok) = Ok (event_accept kq fails ok (s_loc LNone (if et s1 then s_rd false s1 else s1)))
     (if pend s then [true; true] else [true]) /\ bl s1 = bl s /\ shut s1 = shut s /\ arg s1 = arg s /\ done_ s1 = done_ s /\
     (kq = true -> shut s = true -> err s1 = true) /\ (err s1 = true -> shut s = true).
Proof.
  intros HI Ho Hg Hb. unfold turn. destruct (pend s) eqn:Hp; cbn [app run step].
  - rewrite Hp. cbn [negb]. set (s1 := s_rrdy _ _). unfold out in Ho. apply andb_prop in Ho as [Hr Ho].
    assert (R: rd s1 = true) by (subst s1; by destruct kq). rewrite R. sm. rewrite decide_True by done.
    assert (G: gone s1 = false) by (subst s1; by destruct kq). rewrite G. rewrite R. assert (R2: rrdy s1 = true) by done. rewrite R2. cbn [andb].
    exists (s_loc LReady s1). split; [sm; by destruct (et s1)|]. subst s1; destruct kq; sm; split_and!; try done.
    + intros _ X. by apply (i_kq _ _ HI). + apply (i_err _ _ HI). + intros X%orb_prop. destruct X; [by apply (i_err _ _ HI)|done].
  - assert (Hl: loc s = LReady).
    { destruct (loc s) eqn:El; [|by destruct (i_nrw _ _ HI)|done]. unfold out in Ho. rewrite El, bool_decide_false, orb_false_r in Ho by done.
      apply andb_prop in Ho as [Hr He]. destruct (i_edge _ _ HI Hg He (i_wait _ _ HI Hr He El)) as [?|[X Y]]; [congruence|]. destruct Hb as [Hb|Hb]; [done|congruence]. }
    rewrite decide_True by done. rewrite Hg. sm. destruct (i_ready _ _ HI Hl) as [Hrr _]. unfold out in Ho. apply andb_prop in Ho as [Hr _]. rewrite Hrr, Hr. cbn [andb].
    exists s. split; [by destruct (et s)|]. split_and!; try done; [intros; by apply (i_kq _ _ HI)|apply (i_err _ _ HI)].
Qed.
Lemma waiting_gone kq s : inv kq s -> out s = true -> gone s = false.
Proof. intros HI Ho. destruct (gone s) eqn:E; [|done]. destruct (i_gone _ _ HI E) as (_ & _ & X). congruence. Qed.
Theorem C62_served kq tr s i c l ok : reach kq tr s -> waiting s i -> bl s = c :: l -> 
  exists s' os, run (step kq) s (turn s false ok) = Ok s' os /\ done_ s' = done_ s ++ [(i, Some c)] /\ bl s' = l.
Proof.
  intros H Hw Hb. pose proof (reach_inv' _ _ _ H) as HI. destruct (waiting_arg _ _ _ HI Hw) as [-> Ho]. pose proof (waiting_gone _ _ HI Ho) as Hg.
  destruct (turn_run kq s false ok HI Ho Hg) as (s1 & R & T1 & T2 & T3 & T4 & T5 & T6); [left; congruence|].
  eexists _, _. split; [exact R|]. unfold event_accept, sys_accept.
  assert (U: bl (s_loc LNone (if et s1 then s_rd false s1 else s1)) = bl s1 /\ shut (s_loc LNone (if et s1 then s_rd false s1 else s1)) = shut s1) by (by destruct (et s1)).
  destruct U as [U1 U2]. rewrite U2, T2, U1, T1, Hb. destruct (shut s) eqn:Hs; [by rewrite (i_shut _ _ HI Hs) in Hb|].
  sm. destruct (et s1); sm; by rewrite T3, T4.
Qed.
(** on a socket that was closed by kserver_close a waiting accept fails in the next turn *)
Theorem C62_closed kq tr s i ok : reach kq tr s -> waiting s i -> shut s = true ->
  exists s' os, run (step kq) s (turn s false ok) = Ok s' os /\ done_ s' = done_ s ++ [(i, None)].
Proof.
  intros H Hw Hs. pose proof (reach_inv' _ _ _ H) as HI. destruct (waiting_arg _ _ _ HI Hw) as [-> Ho]. pose proof (waiting_gone _ _ HI Ho) as Hg.
  destruct (turn_run kq s false ok HI Ho Hg) as (s1 & R & T1 & T2 & T3 & T4 & T5 & T6); [by right|].
  eexists _, _. split; [exact R|]. unfold event_accept, sys_accept.
  assert (U: err (s_loc LNone (if et s1 then s_rd false s1 else s1)) = err s1 /\ shut (s_loc LNone (if et s1 then s_rd false s1 else s1)) = shut s1) by (by destruct (et s1)).
  destruct U as [U1 U2]. rewrite U2, T2, Hs. destruct kq; [rewrite U1, T5 by done|]; sm; destruct (et s1); sm; by rewrite T3, T4.
Qed.
(** who is called back: only the ready loop calls back; an accept fails only if the system call failed, the socket was closed, or it
    could not be registered (again) *)
Theorem C62_result kq tr s e s' o : reach kq tr s -> normal kq s e -> step kq s e = Ok s' o ->
  done_ s' = done_ s \/ exists i v fails ok, e = ETake fails ok /\ waiting s i /\ done_ s' = done_ s ++ [(i, v)] /\
    match v with
    | Some c => fails = false /\ head (bl s) = Some c
    | None => fails = true \/ shut s = true \/ ok = false /\ bl s = []
    end.
Proof.
  intros H Hn. pose proof (reach_inv' _ _ _ H) as HI. destruct e as [i ok| | |fails ok| |c|c]; cbn [step].
  - destruct (_ || _); [done|]. rewrite accept_cases. sm. destruct (rrdy s), (rev s), ok; intros [= <- <-]; by left.
  - destruct (gone s); [done|]. intros [= <- <-]. by left.
  - destruct (negb _); [done|]. destruct kq; sm; destruct (rd s); intros [= <- <-]; by left.
  - destruct (decide _) as [Hl|]; [|done]. destruct (gone s) eqn:Hg; [done|]. destruct (i_ready _ _ HI Hl) as [Hrr Hrk]. sm. rewrite Hrr. cbn [andb].
    destruct (rd s) eqn:Hr; cbn [andb]; [|intros [= <- <-]; by left].
    assert (Ho: out s = true) by (unfold out; rewrite Hr, Hl, bool_decide_true, orb_true_r by done; done).
    assert (Hw: waiting s (arg s)). { apply (waiting_out _ _ HI) in Ho as [i Hi]. by destruct (waiting_arg _ _ _ HI Hi) as [-> _]. }
    set (t := if et s then _ else _). assert (T: bl t = bl s /\ shut t = shut s /\ err t = err s /\ arg t = arg s /\ done_ t = done_ s) by (subst t; by destruct (et s)).
    destruct T as (T1 & T2 & T3 & T4 & T5). clearbody t. unfold event_accept, sys_accept. rewrite T1, T2.
    destruct fails; [intros [= <- <-]; right; eexists (arg s), None, _, _; sm; rewrite T4, T5; auto|].
    assert (X: forall t', arg t' = arg s -> done_ t' = done_ s -> shut s = true \/ ok = false /\ bl s = [] -> 
       exists i v fails ok', ETake false ok = ETake fails ok' /\ waiting s i /\ done_ (call None t') = done_ s ++ [(i, v)] /\
        match v with Some c => fails = false /\ head (bl s) = Some c | None => fails = true \/ shut s = true \/ ok' = false /\ bl s = [] end).
    { intros t' E1 E2 E3. eexists (arg s), None, _, _. sm. rewrite E1, E2. split_and!; auto. }
    destruct (shut s) eqn:Hs.
    + destruct kq; [|intros [= <- <-]; right; apply X; auto]. rewrite T3, (proj1 (i_kq _ _ HI eq_refl Hs)). intros [= <- <-]. right. apply X; auto.
    + destruct (bl s) as [|c l] eqn:Hb.
      * assert (E: err s = false) by (destruct (err s) eqn:E; [by rewrite (i_err _ _ HI E) in Hs|done]). rewrite T3, E, accept_cases. sm.
        destruct (rev t); [intros [= <- <-]; left; done|]. destruct ok; intros [= <- <-]; [by left|]. right. apply X; auto.
      * intros [= <- <-]. right. eexists (arg s), (Some c), _, _. sm. rewrite T4, T5. split_and!; auto.
  - destruct (_ || _); [done|]. destruct kq; intros [= <- <-]; by left.
  - destruct (_ || _ || _); [done|]. intros [= <- <-]. by left.
  - case_bool_decide; [|done]. intros [= <- <-]. by left.
Qed.
(** a listener is never in a list with an idle timeout *)
Theorem C62_no_timeout kq tr s : reach kq tr s -> loc s <> LRw.
Proof. intros H. apply (i_nrw _ _ (reach_inv' _ _ _ H)). Qed.
(** an accept that could not be registered returns false, is not called back, and can be made again *)
Theorem C62_refused kq tr s i ok s' : reach kq tr s -> step kq s (EAccept i ok) = Ok s' false ->
  ok = false /\ iss s' = iss s /\ done_ s' = done_ s /\ bl s' = bl s /\ loc s' = loc s.
Proof. intros H. cbn [step]. destruct (_ || _); [done|]. rewrite accept_cases. sm. destruct (rrdy s), (rev s), ok; by intros [= <-]. Qed.

(** * A case that meets the hypotheses: two connections arrive before the first accept, a third later, one is reset *)
Definition demo : list ev := [KConn 7; KConn 8; EAccept 1 true; EReport; ETake false true; EAccept 2 true; ETake false true; EAccept 3 true; ETake false true; KConn 9; KConn 10; KReset 9].
Fixpoint keeps (kq : bool) (s : ls) (es : list ev) : Prop :=
  match es with
  | [] => True
  | e :: es => normal kq s e /\ match step kq s e with Ok s' _ => keeps kq s' es | _ => False end
  end.
Lemma keeps_reach kq es tr s : reach kq tr s -> keeps kq s es -> exists s' os, run (step kq) s es = Ok s' os /\ reach kq (tr ++ es) s'.
Proof.
  revert tr s. induction es as [|e es IH]; intros tr s H; [intros _; exists s, []; by rewrite app_nil_r|]. cbn [keeps run]. intros [H1 H2].
  destruct (step kq s e) as [| |s1 o] eqn:E; try done. destruct (IH (tr ++ [e]) s1) as (s' & os & -> & H'); [by econstructor|done|].
  eexists _, _. split; [reflexivity|]. by rewrite (cons_middle e tr es), app_assoc.
Qed.
Definition idleb (s : ls) : bool := forallb (fun i => existsb (Nat.eqb i) (done_ s).*1) (iss s).
Lemma idleb_ok s : idleb s = true -> forall i, ~ waiting s i.
Proof.
  intros H i [H1 H2]. unfold idleb in H. rewrite forallb_forall in H. apply elem_of_list_In in H1. apply H in H1. apply existsb_exists in H1 as (j & Hj & E).
  apply Nat.eqb_eq in E as <-. by apply H2, elem_of_list_In.
Qed.
Fixpoint keepsb (kq : bool) (s : ls) (es : list ev) : bool :=
  match es with
  | [] => true
  | e :: es => (match e with EAccept _ _ => idleb s | EDestroy => false | _ => true end) && match step kq s e with Ok s' _ => keepsb kq s' es | _ => false end
  end.
Lemma keepsb_ok kq es s : keepsb kq s es = true -> keeps kq s es.
Proof.
  revert s. induction es as [|e es IH]; intros s; [done|]. cbn [keepsb keeps]. intros [H1 H2]%andb_prop. split.
  - destruct e; try done. cbn [normal]. exact (idleb_ok s H1).
  - destruct (step kq s e); try done. by apply IH.
Qed.
Definition demo_epoll : list ev := [KConn 7; KConn 8; EAccept 1 true; ETake false true; EAccept 2 true; ETake false true; EAccept 3 true; ETake false true; KConn 9; KConn 10; KReset 9].
Example C62_demo_keeps : keeps true (ls_init true) demo /\ keeps false (ls_init false) demo_epoll.
Proof. split; apply keepsb_ok; by vm_compute. Qed.
Example C62_demo_kq : match run (step true) (ls_init true) (demo ++ [EReport; ETake false true]) with
  | Ok s _ => done_ s = [(1, Some 7); (2, Some 8); (3, Some 10)]%nat /\ bl s = [] /\ lost s = [9]%nat | _ => False end.
Proof. vm_compute. by split_and!. Qed.
Example C62_demo_ep : match run (step false) (ls_init false) (demo_epoll ++ [EReport; ETake false true; EAccept 4 true; ETake false true; EClose; EReport; ETake false true; EDestroy]) with
  | Ok s _ => done_ s = [(1, Some 7); (2, Some 8); (3, Some 10); (4, None)]%nat /\ bl s = [] /\ gone s = true | _ => False end.
Proof. vm_compute. by split_and!. Qed.

(** * What does not hold *)
(** two accepts at a time: the first caller is forgotten *)
Theorem C62_two_accepts_refuted kq : match run (step kq) (ls_init kq) ([EAccept 1 true; EAccept 2 true; KConn 5] ++ (if kq then [EReport] else []) ++ [ETake false true]) with
  | Ok s _ => done_ s = [(2, Some 5)]%nat /\ iss s = [1; 2]%nat /\ loc s = LNone /\ pend s = false /\ bl s = [] | _ => False end.
Proof. destruct kq; vm_compute; by split_and!. Qed.
(** kqueue: kserver_close puts a listener into the ready list although no accept is waiting; a program that destroys it then makes
    the ready loop use freed memory *)
Theorem C62_kqueue_close_refuted : match run (step true) (ls_init true) [EAccept 1 true; KConn 5; EReport; ETake false true; EClose; EDestroy] with
  | Ok s _ => (forall i, ~ waiting s i) /\ step true s (ETake false true) = Crash | _ => False end.
Proof.
  destruct (run (step true) (ls_init true) _) as [| |s os] eqn:E; [by vm_compute in E..|]. vm_compute in E. injection E as <- <-.
  split; [|by vm_compute]. apply idleb_ok. by vm_compute.
Qed.
