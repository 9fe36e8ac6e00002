(** C57: with the io_uring backend every started operation calls its callback exactly once, with the kernel's result of its
    own request; theorems.  The specification is in UringSpec.v. *)
From Verif Require Export UringPipe.
Local Open Scope Z_scope.

Lemma run_snoc N s0 es e : run (step N) s0 (es ++ [e]) =
  match run (step N) s0 es with
  | Disabled => Disabled | Crash => Crash
  | Ok s os => match step N s e with Disabled => Disabled | Crash => Crash | Ok s' o => Ok s' (os ++ [o]) end
  end.
Proof. rewrite run_app. destruct (run (step N) s0 es) as [| |s os]; try done. cbn. by destruct (step N s e). Qed.
Lemma obeys_snoc N es e : obeys N (es ++ [e]) -> obeys N es.
Proof. intros H es1 e1 es2 s os -> Hr. eapply (H es1 e1 (es2 ++ [e])); [|done]. by rewrite <- app_assoc. Qed.
Lemma obeys_last N es e s os : obeys N (es ++ [e]) -> run (step N) init es = Ok s os -> permitted (hist s) e.
Proof. intros H Hr. by eapply (H es e []). Qed.

(** every number below [next] is the number of a call *)
Definition made_all (s : st) : Prop := forall k, (k < next s)%nat -> exists c, Made k c ∈ hist s.
Lemma gs_next N s sub s' : get_seq N s sub = Some s' -> next s' = next s.
Proof. unfold get_seq. destruct (decide _); [by intros [= <-]|]. destruct sub; [|done]. destruct (decide _); [|done]. by intros [= <-]. Qed.
Lemma arm_next N s o d k sl b sub : next (arm N s o d k sl b sub).1 = next s.
Proof. unfold arm. destruct (get_seq N s sub) as [s1|] eqn:E; [|done]. by apply gs_next in E. Qed.
Lemma try_next N s o d att sub s' ob : try_event N s o d att sub = Ok s' ob -> next s' = next s.
Proof.
  unfold try_event. destruct (slots s !! (o, d)) as [sl|]; [|done]. destruct (cbk sl) as [k| |]; [|done..].
  destruct (buf sl); destruct att; intros [= <- <-]; try done. apply arm_next.
Qed.
Lemma sf_next s i b v s' ob : sf_result s i b v = Ok s' ob -> next s' = next s.
Proof.
  unfold sf_result. destruct (sfs s !! i) as [x|]; [|done].
  set (x1 := if b then _ else _). destruct (decide (1 < f_refs x1)%nat); [by intros [= <- _]|].
  destruct (f_skip x1); [by intros [= <- _]|]. destruct (slots s !! (f_file x1, W)) as [fw|]; [|done]. destruct (cbk fw); try done. by intros [= <- _].
Qed.
Lemma act_next N s e s' o : act N s e = Ok s' o -> next s' = next s \/ next s' = S (next s) /\ exists c, Made (next s) c ∈ o.
Proof.
  destruct e as [o1|o1|o1|o1 d b main att sub|o1 d sub|o1 d|o1 f sub1 pok sub2|sub ok|n v| |o1 aw sw ar sr]; cbn [act].
  - case_decide; [done|]. intros [= <- <-]. by left.
  - intros [= <- <-]. by left.
  - destruct (slots s !! (o1, R)) as [x|], (slots s !! (o1, W)) as [y|]; try done. destruct (_ || _); [done|]. intros [= <- <-]. by left.
  - unfold start_rw. destruct (slots s !! (o1, d)) as [sl|]; [|done]. destruct (busy sl); [done|]. right.
    destruct (decide _).
    + destruct main; [injection H as <- <-; split; [done|]; eexists; left|].
      match type of H with context [try_event N ?x o1 d att sub] => destruct (try_event N x o1 d att sub) as [| |s2 o2] eqn:E end; [done|done|].
      injection H as <- <-. apply try_next in E. split; [done|]. eexists. left.
    + match type of H with context [arm N ?x o1 d ?k sl b sub] => pose proof (arm_next N x o1 d k sl b sub) as E end.
      injection H as <- <-. split; [done|]. eexists. left.
  - unfold start_plain. destruct (slots s !! (o1, d)) as [sl|]; [|done]. destruct (busy sl); [done|]. right.
    destruct (get_seq N _ sub) as [s1|] eqn:E.
    + apply gs_next in E. injection H as <- <-. split; [done|]. eexists. left.
    + injection H as <- <-. split; [done|]. eexists. left.
  - unfold start_next. destruct (slots s !! (o1, d)) as [sl|]; [|done]. destruct (_ || _); [done|]. intros [= <- <-]. right. split; [done|]. eexists. left.
  - unfold sendfile. destruct (slots s !! (o1, W)) as [x|]; [|done]. destruct (slots s !! (f, R)) as [y|]; [|done]. destruct (slots s !! (f, W)) as [z|]; [|done].
    right. destruct (get_seq N _ sub1) as [s1|] eqn:E1; [|injection H as <- <-; split; [done|]; eexists; left].
    apply gs_next in E1. destruct pok; cbn [negb] in H; [|injection H as <- <-; split; [done|]; eexists; left].
    match type of H with context [get_seq N ?x sub2] => destruct (get_seq N x sub2) as [s5|] eqn:E2 end.
    + apply gs_next in E2. injection H as <- <-. split; [by cbn in *; congruence|]. eexists. left.
    + injection H as <- <-. split; [done|]. eexists. left.
  - destruct (get_seq N s sub) as [s1|] eqn:E; [|done]. apply gs_next in E. destruct ok; intros [= <- <-]; by left.
  - destruct (infl s !! n) as [x|]; [|done]. intros [= <- <-]. by left.
  - destruct (cq s) as [|[[| |o1 d k] v] c]; try done; [intros [= <- <-]; by left|]. unfold handle. cbn [slots set_cq].
    destruct (slots s !! (o1, d)) as [sl|]; [|done]. destruct (slots s !! (o1, other d)) as [sl'|]; [|done].
    set (s1 := if busy sl && busy sl' then _ else _). assert (next s1 = next s) as E by (unfold s1; by destruct (busy sl && busy sl'), (rdy2 sl || rdy2 sl')).
    destruct (negb (busy sl)); [done|]. destruct (decide (o1 ∈ poll s1)); [intros [= <- <-]; by left|]. destruct (rdy sl || rdy2 sl); [done|].
    intros H. left. destruct (cbk sl); [by injection H as <- <-|apply sf_next in H; cbn in H; congruence..].
  - case_decide; [|done]. unfold pump. set (s0 := set_ready _ _).
    destruct (if fires s0 o1 W then try_event N s0 o1 W aw sw else Ok s0 []) as [| |s1 ow] eqn:E1; [done|done|].
    assert (next s1 = next s) as A1.
    { destruct (fires s0 o1 W); [|by injection E1 as <- <-]. by apply try_next in E1. }
    destruct (if fires s0 o1 R then try_event N s1 o1 R ar sr else Ok s1 []) as [| |s2 or] eqn:E2; [done|done|]. intros [= <- <-]. left.
    destruct (fires s0 o1 R); [by apply try_next in E2; congruence|]. by injection E2 as <- <-.
Qed.
Lemma made_all_step N s e s' o : made_all s -> step N s e = Ok s' o -> made_all s'.
Proof.
  intros Hm. unfold step. destruct (act N s e) as [| |s1 o1] eqn:Ha; [done|done|]. intros [= <- <-] k Hk. cbn in *.
  destruct (act_next N s e s1 o1 Ha) as [E|[E [c Hc]]].
  - rewrite E in Hk. destruct (Hm k Hk) as [c Hc]. exists c. by inl.
  - destruct (decide (k = next s)) as [->|Hne]; [exists c; apply elem_of_app; by right|]. destruct (Hm k) as [c' Hc']; [lia|]. exists c'. by inl.
Qed.

Definition K (s : st) : Prop := J s /\ Pp (hist s) s /\ made_all s.
Lemma K_run N es : (0 < N)%nat -> obeys N es ->
  match run (step N) init es with Crash => False | Disabled => True | Ok s os => K s /\ hist s = concat os end.
Proof.
  intros HN. induction es as [|e es IH] using rev_ind; intros Hob.
  { cbn. split_and!; [|done]. split_and!.
    - apply J_init.
    - split; cbn.
      + constructor.
      + intros i. split; [by intros ?%elem_of_nil|lia].
      + intros i b. split; [by intros ?%elem_of_nil|lia].
    - intros k Hk. cbn in Hk. lia. }
  rewrite run_snoc. specialize (IH (obeys_snoc _ _ _ Hob)).
  destruct (run (step N) init es) as [| |s os] eqn:Hr; try done. destruct IH as ((HJ & HP & HM) & Hh).
  pose proof (obeys_last _ _ _ _ _ Hob Hr) as Hp. pose proof (J_step N s e HN HJ Hp) as Hg.
  destruct (step N s e) as [| |s' o] eqn:Hs; try done. destruct Hg as (HJ' & Hh' & _). split; [split_and!|].
  - done.
  - by eapply (pp_step N s e).
  - by eapply (made_all_step N s e).
  - rewrite Hh', Hh, concat_app. cbn. by rewrite app_nil_r.
Qed.
Lemma K_reach N es s os : (0 < N)%nat -> obeys N es -> run (step N) init es = Ok s os -> K s /\ hist s = concat os.
Proof. intros HN Hob Hr. pose proof (K_run N es HN Hob) as H. by rewrite Hr in H. Qed.

(** ** theorems *)
(** no assertion fails, no destroyed object is touched *)
Theorem C57_no_crash N es : (0 < N)%nat -> obeys N es -> run (step N) init es <> Crash.
Proof. intros HN Hob Hr. pose proof (K_run N es HN Hob) as H. by rewrite Hr in H. Qed.

(** every callback belongs to a call that was made; no call returns twice (callback, or false returned) *)
Theorem C57_returns_once N es s os : (0 < N)%nat -> obeys N es -> run (step N) init es = Ok s os ->
  NoDup (rets (concat os)) /\ (forall k, k ∈ rets (concat os) -> exists c, Made k c ∈ concat os)
  /\ (forall k c c', Made k c ∈ concat os -> Made k c' ∈ concat os -> c = c').
Proof.
  intros HN Hob Hr. destruct (K_reach N es s os HN Hob Hr) as (([HI _] & _ & HM) & <-). destruct (v_g _ _ HI). split_and!; [done| |done].
  intros k Hk. apply HM. auto.
Qed.

(** at the moment of the callback its value is right *)
Theorem C57_own_result N es e s os s' o : (0 < N)%nat -> obeys N (es ++ [e]) -> run (step N) init es = Ok s os -> step N s e = Ok s' o ->
  (forall k v, Cb k v ∈ o -> retok (concat os ++ o) k v) /\ (forall k, Fail k ∈ o -> NoSqe k ∈ concat os ++ o).
Proof.
  intros HN Hob Hr Hs. destruct (K_reach N es s os HN (obeys_snoc _ _ _ Hob) Hr) as ((HJ & _ & _) & <-).
  pose proof (J_step N s e HN HJ (obeys_last _ _ _ _ _ Hob Hr)) as Hg. rewrite Hs in Hg. by destruct Hg as (_ & _ & H1 & H2).
Qed.

(** a call that has not returned has a request in the ring or in the kernel, or a completion to be handled, or its object
    is on the READY list: when all those are empty every call has returned *)
Theorem C57_not_forgotten N es s os k c : (0 < N)%nat -> obeys N es -> run (step N) init es = Ok s os ->
  Made k c ∈ concat os -> k ∉ rets (concat os) ->
  exists o d, (o, d) ∈ uses c /\ (SOp o d k ∈ sq s ++ infl s ++ (cq s).*1 \/ o ∈ ready s).
Proof.
  intros HN Hob Hr Hm Hk. destruct (K_reach N es s os HN Hob Hr) as (([HI HR] & _ & _) & Hh). rewrite <- Hh in *.
  assert (forall x k, k ∈ ents s x -> SOp x.1 x.2 k ∈ L s) as Hin.
  { intros [o1 d1] k1 H. apply elem_of_list_omap in H as ([| |o2 d2 k2] & He & Hx); try done. cbn in Hx. case_decide as E; [|done].
    injection Hx as ->. by injection E as -> ->. }
  pose proof (v_call _ _ HI k c Hm Hk) as Hc.
  assert (forall o d, busy_with s (o, d) (User k) -> SOp o d k ∈ L s \/ o ∈ ready s) as Hb.
  { intros o d (sl & Hsl & Hb & Hcb). pose proof (v_key _ _ HI (o, d)) as Hx. unfold PK in Hx. rewrite Hsl in Hx. destruct Hx as (Hok & _).
    destruct Hok as [r0 c0 b H1|k0 b H1 H2 H3|k0 H1 H2 H3 H4|k0 b H1 H2 H3|k0 r0 H1 H2 H3|i xf b H1 H2 H3 H4 H5|i xf b H1 H2 H3 H4]; cbn in Hb, Hcb; try done;
      injection Hcb as ->.
    - left. apply (Hin (o, d)). rewrite H1. by apply elem_of_list_singleton.
    - left. apply (Hin (o, d)). rewrite H1. by apply elem_of_list_singleton.
    - right. apply HR. assert (fires s o d = true) as Hf by (unfold fires; by rewrite Hsl). destruct d; auto.
    - right. apply HR. assert (fires s o d = true) as Hf by (unfold fires; rewrite Hsl; cbn; apply orb_true_r). destruct d; auto. }
  destruct c as [o d b|o d|o d|o f]; cbn in Hc |- *; try (exists o, d; split; [by apply elem_of_list_singleton|by apply Hb]).
  destruct Hc as (i & xf & Hi & <- & <- & <-).
  destruct (v_sf _ _ HI i xf Hi) as (P1 & P2 & P3 & P4 & P5 & P6 & P7 & P8 & P9 & P10 & P11 & P12).
  destruct (f_p0 xf) eqn:E0; [|destruct (f_p1 xf) eqn:E1; [|lia]].
  - exists (f_st xf), W. split; [left|]. left. destruct P10 as (sl & Hsl & Hbz & Hcb). pose proof (v_key _ _ HI (f_st xf, W)) as Hx. unfold PK in Hx. rewrite Hsl in Hx.
    destruct Hx as (Hok & _).
    destruct Hok as [r0 c0 b H1|k0 b H1 H2 H3|k0 H1 H2 H3 H4|k0 b H1 H2 H3|k0 r0 H1 H2 H3|j xj b H1 H2 H3 H4 H5|j xj b H1 H2 H3 H4]; cbn in Hbz, Hcb; try done.
    injection Hcb as ->. apply (Hin (f_st xf, W)). rewrite H1. apply elem_of_list_singleton. congruence.
  - exists (f_file xf), R. split; [right; left|]. left. destruct P11 as (sl & Hsl & Hbz & Hcb). pose proof (v_key _ _ HI (f_file xf, R)) as Hx. unfold PK in Hx. rewrite Hsl in Hx.
    destruct Hx as (Hok & _).
    destruct Hok as [r0 c0 b H1|k0 b H1 H2 H3|k0 H1 H2 H3 H4|k0 b H1 H2 H3|k0 r0 H1 H2 H3|j xj b H1 H2 H3 H4 H5|j xj b H1 H2 H3 H4]; cbn in Hbz, Hcb; try done.
    injection Hcb as ->. apply (Hin (f_file xf, R)). rewrite H1. apply elem_of_list_singleton. congruence.
Qed.
Theorem C57_drained N es s os k c : (0 < N)%nat -> obeys N es -> run (step N) init es = Ok s os ->
  sq s = [] -> infl s = [] -> cq s = [] -> ready s = ∅ -> Made k c ∈ concat os -> k ∈ rets (concat os).
Proof.
  intros HN Hob Hr H1 H2 H3 H4 Hm. destruct (decide (k ∈ rets (concat os))) as [|Hk]; [done|].
  destruct (C57_not_forgotten N es s os k c HN Hob Hr Hm Hk) as (o & d & _ & H). rewrite H1, H2, H3, H4 in H.
  destruct H as [H|H]; [by apply elem_of_nil in H|set_solver].
Qed.

(** a request the ring, the kernel or the completion queue still holds belongs to a call that has not returned (so its
    buffer is still the call's), for an object that still exists; never two requests for one side *)
Theorem C57_requests_live N es s os o d k : (0 < N)%nat -> obeys N es -> run (step N) init es = Ok s os ->
  SOp o d k ∈ sq s ++ infl s ++ (cq s).*1 ->
  k ∉ rets (concat os) /\ live (concat os) o /\ (exists c, Made k c ∈ concat os /\ (o, d) ∈ uses c)
  /\ (forall i j k1 k2, (sq s ++ infl s ++ (cq s).*1) !! i = Some (SOp o d k1) -> (sq s ++ infl s ++ (cq s).*1) !! j = Some (SOp o d k2) -> i = j).
Proof.
  intros HN Hob Hr Hin. destruct (K_reach N es s os HN Hob Hr) as (([HI HR] & _ & _) & Hh). rewrite <- Hh. change (sq s ++ infl s ++ (cq s).*1) with (L s) in *.
  assert (k ∈ ents s (o, d)) as Hk.
  { apply elem_of_list_omap. exists (SOp o d k). split; [done|apply entof_eq]. }
  pose proof (v_key _ _ HI (o, d)) as Hx. unfold PK in Hx. destruct (slots s !! (o, d)) as [sl|] eqn:Hsl; [|rewrite Hx in Hk; by apply elem_of_nil in Hk].
  destruct Hx as (Hok & _).
  assert (live (hist s) o) as Hlv by (apply (v_live _ _ (v_g _ _ HI) o d); by rewrite Hsl).
  assert (k ∉ rets (hist s) /\ exists c, Made k c ∈ hist s /\ (o, d) ∈ uses c) as [Hq1 Hq2].
  { destruct Hok as [r0 c0 b H1|k0 b H1 H2 H3|k0 H1 H2 H3 H4|k0 b H1 H2 H3|k0 r0 H1 H2 H3|i xf b H1 H2 H3 H4 H5|i xf b H1 H2 H3 H4];
      rewrite H1 in Hk; try (by apply elem_of_nil in Hk); apply elem_of_list_singleton in Hk as ->.
    - split; [done|]. eexists. split; [done|]. by apply elem_of_list_singleton.
    - split; [done|]. eexists. split; [done|]. by apply elem_of_list_singleton.
    - destruct (v_sf _ _ HI i xf H2) as (P1 & P2 & _). split; [done|]. eexists. split; [done|]. rewrite H3. left.
    - destruct (v_sf _ _ HI i xf H2) as (P1 & P2 & _). split; [done|]. eexists. split; [done|]. rewrite H3. right. left. }
  split_and!; [done|done|done|].
  intros i j k1 k2 Hi Hj. pose proof (Inv_lean _ _ HI (o, d)) as Hlen. unfold ents in Hlen.
  revert i j Hi Hj. clear -Hlen. induction (L s) as [|a l IH]; intros i j Hi Hj; [done|].
  assert (forall n k', l !! n = Some (SOp o d k') -> (1 <= length (omap (entof (o, d)) l))%nat) as Hge.
  { intros n k' Hn. destruct (omap (entof (o, d)) l) eqn:E; [|cbn; lia]. assert (k' ∈ omap (entof (o, d)) l) as Hx.
    { apply elem_of_list_omap. exists (SOp o d k'). split; [by apply elem_of_list_lookup_2 with n|apply entof_eq]. }
    rewrite E in Hx. by apply elem_of_nil in Hx. }
  assert (length (omap (entof (o, d)) (a :: l)) = ((if entof (o, d) a then 1 else 0) + length (omap (entof (o, d)) l))%nat) as Hc
    by (cbn; by destruct (entof (o, d) a)).
  rewrite Hc in Hlen.
  destruct i as [|i], j as [|j]; cbn in Hi, Hj; [done| | |].
  - injection Hi as ->. rewrite entof_eq in Hlen. specialize (Hge _ _ Hj). lia.
  - injection Hj as ->. rewrite entof_eq in Hlen. specialize (Hge _ _ Hi). lia.
  - f_equal. eapply IH; try done. lia.
Qed.

(** every end of every pipe made for a sendfile is closed at most once, and both are once no sendfile is going on *)
Theorem C57_pipes N es s os : (0 < N)%nat -> obeys N es -> run (step N) init es = Ok s os ->
  NoDup (pcl (concat os)) /\ (forall i b, PClose i b ∈ concat os -> Pipe i ∈ concat os)
  /\ ((forall k o f, Made k (CSf o f) ∈ concat os -> k ∈ rets (concat os)) -> forall i b, Pipe i ∈ concat os -> PClose i b ∈ concat os).
Proof.
  intros HN Hob Hr. destruct (K_reach N es s os HN Hob Hr) as (([HI HR] & [Q1 Q2 Q3] & _) & Hh). rewrite <- Hh.
  assert (forall i b, PClose i b ∈ hist s <-> (i, b) ∈ pcl (hist s)) as Hpc.
  { intros i b. unfold pcl. rewrite elem_of_list_omap. split.
    - intros H. by exists (PClose i b).
    - intros (x & Hx & He). destruct x; try done. by injection He as -> ->. }
  split_and!; [done| |].
  - intros i b H. apply Hpc, Q3 in H as [H _]. by apply Q2.
  - intros Hall i b Hi. apply Q2 in Hi. apply Hpc, Q3. split; [done|]. destruct (sfs s !! i) as [xf|] eqn:E; [|done].
    destruct (v_sf _ _ HI i xf E) as (P1 & P2 & _). destruct P2. by eapply Hall.
Qed.

(** ** the hypotheses are met: computed checks *)
Global Instance call_eq_dec : EqDecision call.
Proof. solve_decision. Defined.
Global Instance obs_eq_dec : EqDecision obs.
Proof. solve_decision. Defined.
Definition out_b (h : list obs) (x : nat * dir) : bool :=
  existsb (fun a => match a with Made k c => bool_decide (x ∈ uses c) && negb (bool_decide (k ∈ rets h)) | _ => false end) h.
Lemma out_b_false h x : out_b h x = false -> ~ out h x.
Proof.
  intros H (k & c & Hm & Hu & Hr). assert (out_b h x = true) as E; [|congruence]. apply existsb_exists. exists (Made k c).
  split; [by apply elem_of_list_In|]. by rewrite bool_decide_true, bool_decide_false.
Qed.
Definition nowait_b (h : list obs) (o : nat) : bool :=
  forallb (fun a => match a with Made _ c => bool_decide (c <> CRw o W false) | _ => true end) h.
Definition permitted_b (h : list obs) (e : ev) : bool :=
  match e with
  | Rw o d _ _ _ _ | Nxt o d => bool_decide (live h o) && negb (out_b h (o, d))
  | Plain o d _ => bool_decide (live h o) && negb (out_b h (o, d)) && bool_decide (Polled o ∉ h)
  | Sendfile o f _ pok sub2 =>
      bool_decide (live h o /\ live h f /\ o <> f /\ Polled o ∉ h /\ Polled f ∉ h /\ pok = true /\ sub2 = true)
      && negb (out_b h (o, W)) && negb (out_b h (f, R)) && negb (out_b h (f, W)) && nowait_b h o
  | SetPoll o | Free o => bool_decide (live h o) && negb (out_b h (o, R)) && negb (out_b h (o, W))
  | Select sub _ => sub
  | _ => true
  end.
Lemma permitted_b_sound h e : permitted_b h e = true -> permitted h e.
Proof.
  destruct e; cbn; try done; rewrite ?andb_true_iff, ?negb_true_iff; intros H;
    repeat match goal with H : _ /\ _ |- _ => destruct H end;
    repeat match goal with H : bool_decide _ = true |- _ => apply bool_decide_eq_true_1 in H | H : out_b _ _ = false |- _ => apply out_b_false in H end;
    try done.
  repeat match goal with H : _ /\ _ |- _ => destruct H end. subst. split_and!; try done.
  intros k Hk. unfold nowait_b in *. match goal with H : forallb _ _ = true |- _ => rewrite forallb_forall in H; apply elem_of_list_In in Hk; specialize (H _ Hk) end.
  cbn in *. by case_bool_decide.
Qed.
Fixpoint obeys_b (N : nat) (s : st) (es : list ev) : bool :=
  match es with
  | [] => true
  | e :: es => permitted_b (hist s) e && match step N s e with Ok s' _ => obeys_b N s' es | _ => true end
  end.
Lemma obeys_b_sound N es : forall s, obeys_b N s es = true -> forall es1 e es2 s1 os1, es = es1 ++ e :: es2 ->
  run (step N) s es1 = Ok s1 os1 -> permitted (hist s1) e.
Proof.
  induction es as [|e0 es IH]; intros s Hb es1 e es2 s1 os1 Heq Hr; [by destruct es1|].
  cbn in Hb. apply andb_true_iff in Hb as [Hp Hb]. destruct es1 as [|e1 es1]; cbn in Heq; injection Heq as -> ->.
  - cbn in Hr. injection Hr as <- <-. by apply permitted_b_sound.
  - cbn in Hr. destruct (step N s e1) as [| |s2 o] eqn:E; [done|done|]. destruct (run (step N) s2 es1) as [| |s3 os3] eqn:E2; [done|done|].
    injection Hr as -> <-. by eapply IH.
Qed.
Lemma obeys_compute N es : obeys_b N init es = true -> obeys N es.
Proof. intros H es1 e es2 s os Heq Hr. by eapply (obeys_b_sound N es init). Qed.

(** a read, a write and a sendfile at the same time on a ring of 2 entries, a poll-model socket whose first attempt gives
    EAGAIN, a callback posted to the READY list, and a refused connect *)
Definition demo : list ev :=
  [New 0; New 1; New 2; SetPoll 2; Rw 0 R true true None true; Sendfile 0 1 true true true; Rw 2 R true true None true;
   Select true true; KDone 0 7; Reap; KDone 0 100; Reap; KDone 1 1; Reap; KDone 0 64; Reap; KDone 0 0; Reap;
   Pump 2 None true None true; Select true true; KDone 0 1; Reap; Pump 2 None true (Some 5) true; KDone 0 0; Reap;
   Nxt 0 W; Pump 0 None true None true;
   Rw 1 R true true None true; Rw 1 W true true None true; Plain 0 W false; Select true true]%Z.
Definition demo_final : list obs :=
  match run (step 2) init demo with Ok s os => List.filter (fun a => match a with Cb _ _ | Fail _ | PClose _ _ => true | _ => false end) (concat os) | _ => [] end.
Example demo_obeys : obeys 2 demo.
Proof. apply obeys_compute. by vm_compute. Qed.
Example demo_runs : demo_final = [Cb 0 7; PClose 0 true; PClose 0 false; Cb 1 64; Cb 2 5; Cb 3 0; Fail 6]%Z
  /\ match run (step 2) init demo with Ok s os => infl s = [SOp 1 R 4; SOp 1 W 5; STmo] | _ => False end.
Proof. by vm_compute. Qed.

(** ** what goes wrong without the assumptions *)
Ltac here := repeat first [apply elem_of_list_here | apply elem_of_list_further].
(** pipe2 fails after a submission entry was taken: the entry still holds an old request, which is submitted again.  Here
    the read of call 0 has returned; its stale copy completes and an assertion fails (with another read going on it would
    end that one with a wrong result) *)
Theorem C57_pipe_fail_refuted :
  run (step 2) init [New 0; New 1; New 2; Rw 2 R true true None true; Select true true; KDone 0 9; KDone 0 0; Reap; Reap;
    Sendfile 0 1 true false true; Select true true; KDone 0 9; Reap] = Crash
  /\ match run (step 2) init [New 0; New 1; New 2; Rw 2 R true true None true; Select true true; KDone 0 9; KDone 0 0; Reap; Reap;
    Sendfile 0 1 true false true; Rw 2 R true true None true; Select true true; KDone 0 9; Reap] with
     | Ok _ os => Made 2 (CRw 2 R true) ∈ concat os /\ Cb 2 9 ∈ concat os /\ (forall v, KRes 2 2 R v ∉ concat os)
     | _ => False end.
Proof.
  split; [by vm_compute|]. vm_compute. split_and!; [here|here|].
  intros v H. repeat (apply elem_of_cons in H as [H|H]; [discriminate H|]). by apply elem_of_nil in H.
Qed.
(** the ring has no room for the second request of a sendfile and submitting fails: the callback is called with -1 while
    the file request is still going on, so destroying the file afterwards (no call is unreturned) is a use after free *)
Theorem C57_second_entry_refuted :
  match run (step 1) init [New 0; New 1; Sendfile 0 1 true true false] with
  | Ok s os => Cb 0 (-1) ∈ concat os /\ SOp 1 R 0 ∈ sq s /\ permitted (hist s) (Free 1) /\ step 1 s (Free 1) = Crash
  | _ => False end.
Proof.
  assert (permitted_b [Born 0; Born 1; Made 0 (CSf 0 1); Pipe 0; NoSqe 0; Cb 0 (-1)] (Free 1) = true) as H by by vm_compute.
  apply permitted_b_sound in H. vm_compute run. split_and!; [cbn; here|cbn; here|exact H|by vm_compute].
Qed.
(** waiting for writability without a buffer leaves a mark in the socket; a later sendfile then reports 0 although
    100 bytes were sent *)
Theorem C57_stale_buffer_refuted :
  match run (step 4) init [New 0; New 1; Rw 0 W false true None true; Select true true; KDone 0 4; KDone 0 0; Reap; Reap;
    Sendfile 0 1 true true true; Select true true; KDone 0 100; KDone 0 100; Reap; Reap] with
  | Ok _ os => Made 1 (CSf 0 1) ∈ concat os /\ KRes 1 0 W 100 ∈ concat os /\ Cb 1 0 ∈ concat os
  | _ => False end.
Proof. vm_compute. split_and!; here. Qed.
(** no entry for the timeout of select: NULL is dereferenced *)
Theorem C57_select_refuted : run (step 1) init [New 0; Rw 0 R true true None true; Select false true] = Crash.
Proof. by vm_compute. Qed.
(** reading the file fails, the splice to the socket ends with 0: the sendfile reports 0, not the error *)
Theorem C57_file_error_refuted :
  let es := [New 0; New 1; Sendfile 0 1 true true true; Select true true; KDone 0 (-5); Reap; KDone 0 0; Reap] in
  obeys 4 es /\ match run (step 4) init es with Ok _ os => KRes 0 1 R (-5) ∈ concat os /\ Cb 0 0 ∈ concat os | _ => False end.
Proof.
  split; [apply obeys_compute; by vm_compute|]. vm_compute. split; here.
Qed.
