(** Property C55: TLS handshake and shutdown end exactly once.  Model: SslHsModel.v. *)
From Verif Require Import Lts SslHsModel.
Local Open Scope Z_scope.

(** ** Specification *)
(** no read timeout is delivered during handshake and shutdown *)
Definition no_timeout (e : ev) : Prop := match e with Timeout _ => False | _ => True end.

(** What OpenSSL said, read from its manual: success, wants to read, wants to write, or failed. *)
Inductive verdict := VDone | VRead | VWrite | VFail.
Definition says_err (err : Z) (v : verdict) : Prop :=
  match v with
  | VDone => False
  | VRead => err = 2
  | VWrite => err = 3 \/ err = 7 \/ err = 8
  | VFail => err <> 2 /\ err <> 3 /\ err <> 7 /\ err <> 8
  end.
(** [e]: early data is still to be tried *)
Definition says_hs (e : bool) (a : ans) (v : verdict) : Prop :=
  if e then
    (a_early a = 1 /\ v = VDone) \/
    (a_early a = 2 /\ (0 < a_hs a /\ v = VDone \/ a_hs a <= 0 /\ says_err (a_err a) v)) \/
    (a_early a <> 1 /\ a_early a <> 2 /\ says_err (a_err a) v)
  else 0 < a_hs a /\ v = VDone \/ a_hs a <= 0 /\ says_err (a_err a) v.
Definition says_sd (a : ans) (v : verdict) : Prop :=
  match v with
  | VDone => a_sd a = 1
  | VRead => a_sd a <> 1 /\ a_err a = 2
  | VWrite => a_sd a <> 1 /\ a_err a = 3
  | VFail => a_sd a <> 1 /\ a_err a <> 2 /\ a_err a <> 3
  end.

Global Instance obs_eq_dec : EqDecision obs.
Proof. solve_decision. Defined.

(** the values the handshake callback was called with, and how often the connection was destroyed *)
Definition calls (os : list (list obs)) : list Z :=
  concat os ≫= fun o => match o with OCall v => [v] | ODestroy => [] end.
Definition destroys (os : list (list obs)) : nat :=
  length (filter (fun o => o = ODestroy) (concat os)).
Definition started (es : list ev) : Prop := exists a, Start a ∈ es.
Definition closed (es : list ev) : Prop := exists b a, Destroy b a ∈ es.
(** exactly one socket request of the handshake or shutdown is outstanding *)
Definition one_request (s : st) : Prop := rd s = true /\ wr s = false \/ rd s = false /\ wr s = true.
Definition no_request (s : st) : Prop := rd s = false /\ wr s = false.

(** ** Invariant *)
Record inv (f : bool) (s : st) (es : list ev) (cs : list Z) (ds : nat) : Prop := {
  i_fib : fib s = f;
  i_init : ph s = Init -> ~ started es /\ ~ closed es /\ cs = [] /\ ds = 0%nat /\ no_request s /\ param s = false /\ shake s = false;
  i_hs : ph s = Hs -> started es /\ ~ closed es /\ cs = [] /\ ds = 0%nat /\ one_request s /\ param s = negb f;
  i_up : ph s = Up -> started es /\ ~ closed es /\ (cs = [0] \/ cs = [-1]) /\ ds = 0%nat /\ no_request s /\ param s = false;
  i_closing : ph s = Closing -> closed es /\ started es /\ (cs = [0] \/ cs = [-1]) /\ ds = 0%nat /\ one_request s /\ param s = false;
  i_gone : ph s = Gone -> closed es /\ (started es -> cs = [0] \/ cs = [-1]) /\ (~ started es -> cs = []) /\ ds = 1%nat /\ no_request s /\ param s = false
}.

Lemma started_snoc es e : started (es ++ [e]) <-> started es \/ exists a, e = Start a.
Proof.
  unfold started. split.
  - intros (a & H). apply elem_of_app in H as [H|H]; [left; by exists a|]. right. apply elem_of_list_singleton in H. by exists a.
  - intros [(a & H)|(a & ->)]; exists a; apply elem_of_app; [by left|right; by apply elem_of_list_singleton].
Qed.
Lemma closed_snoc es e : closed (es ++ [e]) <-> closed es \/ exists b a, e = Destroy b a.
Proof.
  unfold closed. split.
  - intros (b & a & H). apply elem_of_app in H as [H|H]; [left; by exists b, a|]. right. apply elem_of_list_singleton in H. by exists b, a.
  - intros [(b & a & H)|(b & a & ->)]; exists b, a; apply elem_of_app; [by left|right; by apply elem_of_list_singleton].
Qed.
Lemma calls_snoc os o : calls (os ++ [o]) = calls os ++ calls [o].
Proof. unfold calls. rewrite concat_app, bind_app. done. Qed.
Lemma destroys_snoc os o : destroys (os ++ [o]) = (destroys os + destroys [o])%nat.
Proof. unfold destroys. by rewrite concat_app, filter_app, app_length. Qed.

Definition good (f : bool) (r : res st (list obs)) (es : list ev) (cs : list Z) (ds : nat) : Prop :=
  match r with
  | Disabled => True | Crash => False
  | Ok s o => inv f s es (cs ++ calls [o]) (ds + destroys [o])
  end.

(** from the middle of a handshake (no request outstanding) *)
Lemma good_hs_result f s got es : fib s = f -> ph s = Hs -> no_request s -> param s = negb f ->
  started es -> ~ closed es -> good f (hs_result s got) es [] 0.
Proof.
  intros Hf Hp [Hr Hw] Hpa Hst Hcl. unfold hs_result, hs_done, good.
  assert (negb (fib s) && negb (param s) = false) as Hg by (rewrite Hpa, Hf; by destruct f).
  destruct (decide (got = -1)); rewrite Hg; (constructor; cbn; [done|discriminate..| |discriminate|discriminate];
    intros _; split_and!; [done|done| |done|by split|done]); [by right|by left].
Qed.
Lemma good_read f s es cs : fib s = f -> no_request s -> 
  (ph s = Hs /\ param s = negb f /\ started es /\ ~ closed es /\ cs = [] \/
   ph s = Closing /\ param s = false /\ started es /\ closed es /\ (cs = [0] \/ cs = [-1])) -> good f (req_read s) es cs 0.
Proof.
  intros Hf [Hr Hw] H. unfold req_read, good. rewrite Hr. replace (cs ++ calls [[]]) with cs by (unfold calls; cbn; by rewrite app_nil_r).
  change (0 + destroys [[]])%nat with 0%nat.
  destruct H as [(Hp & Hpa & Hst & Hcl & ->)|(Hp & Hpa & Hst & Hcl & Hcs)]; constructor; cbn; try done; try congruence; intros _;
    split_and!; try done; left; by split.
Qed.
Lemma good_write f s es cs : fib s = f -> no_request s -> 
  (ph s = Hs /\ param s = negb f /\ started es /\ ~ closed es /\ cs = [] \/
   ph s = Closing /\ param s = false /\ started es /\ closed es /\ (cs = [0] \/ cs = [-1])) -> good f (req_write s) es cs 0.
Proof.
  intros Hf [Hr Hw] H. unfold req_write, good. rewrite Hw. replace (cs ++ calls [[]]) with cs by (unfold calls; cbn; by rewrite app_nil_r).
  change (0 + destroys [[]])%nat with 0%nat.
  destruct H as [(Hp & Hpa & Hst & Hcl & ->)|(Hp & Hpa & Hst & Hcl & Hcs)]; constructor; cbn; try done; try congruence; intros _;
    split_and!; try done; right; by split.
Qed.
Lemma good_handshake f s a es : fib s = f -> ph s = Hs -> no_request s -> param s = negb f ->
  started es -> ~ closed es -> good f (handshake s a) es [] 0.
Proof.
  intros Hf Hp Hn Hpa Hst Hcl. unfold handshake.
  destruct (early s && bool_decide (a_early a = SSL_READ_EARLY_DATA_SUCCESS)) eqn:Ee.
  { by apply good_hs_result. }
  set (p := if early s then _ else _). assert (exists s' z, p = (s', z) /\ fib s' = f /\ ph s' = Hs /\ no_request s' /\ param s' = negb f) as (s' & z & -> & Hf' & Hp' & Hn' & Hpa').
  { unfold p. destruct (early s); [destruct (decide _)|]; eexists _, _; by split_and!. }
  clear Ee. destruct (decide (z = ret_ok)); [by apply good_hs_result|].
  destruct (decide (z = ret_want_read)); [apply good_read; [done|done|left; by split_and!]|].
  destruct (decide (z = ret_want_write)); [apply good_write; [done|done|left; by split_and!]|].
  by apply good_hs_result.
Qed.
Lemma good_destroy f s es cs : fib s = f -> no_request s -> param s = false -> closed es ->
  (started es -> cs = [0] \/ cs = [-1]) -> (~ started es -> cs = []) -> good f (real_destroy s) es cs 0.
Proof.
  intros Hf [Hr Hw] Hpa Hcl H1 H2. unfold real_destroy, good. rewrite Hr, Hw. cbn [orb].
  replace (cs ++ calls [[ODestroy]]) with cs by (unfold calls; cbn; by rewrite app_nil_r).
  change (0 + destroys [[ODestroy]])%nat with 1%nat.
  constructor; cbn; try done. 
Qed.
Lemma good_shutdown f s a es cs : fib s = f -> ph s = Closing -> no_request s -> param s = false -> closed es -> started es ->
  (cs = [0] \/ cs = [-1]) -> good f (shutdown s a) es cs 0.
Proof.
  intros Hf Hp Hn Hpa Hcl Hst Hcs. unfold shutdown.
  destruct (decide (_ = SSL_ERROR_WANT_READ)); [apply good_read; [done|done|right; by split_and!]|].
  destruct (decide (_ = SSL_ERROR_WANT_WRITE)); [apply good_write; [done|done|right; by split_and!]|].
  by apply good_destroy.
Qed.

Lemma step_good f s es cs ds e : no_timeout e -> inv f s es cs ds -> 
  match step s e with Disabled => True | _ => good f (step s e) (es ++ [e]) cs ds end.
Proof.
  intros Hn HI. destruct e as [a|b a|got a|got a|a]; [| | | |done]; cbn [step].
  - destruct (ph s) eqn:Hp; try done. destruct (i_init _ _ _ _ _ HI Hp) as (Hs & Hc & -> & -> & [Hr Hw] & Hpa & Hsh).
    set (s1 := set_ph _ _). assert (good f (handshake s1 a) (es ++ [Start a]) [] 0) as H.
    { apply good_handshake; try done.
      - by destruct HI.
      - cbn. by rewrite (i_fib _ _ _ _ _ HI).
      - apply started_snoc. right. by exists a.
      - rewrite closed_snoc. intros [?|(? & ? & ?)]; done. }
    destruct (handshake s1 a); done.
  - assert (ph s = Init \/ ph s = Up \/ (match ph s with Init | Up => False | _ => True end)) as [Hp|[Hp|Hp]] by (destruct (ph s); auto).
    + rewrite Hp. destruct (i_init _ _ _ _ _ HI Hp) as (Hs & Hc & -> & -> & Hq & Hpa & Hsh). rewrite Hsh. cbn [andb].
      assert (good f (real_destroy s) (es ++ [Destroy b a]) [] 0) as H.
      { apply good_destroy; try done; [by destruct HI|apply closed_snoc; right; by exists b, a|].
        rewrite started_snoc. intros [?|(? & ?)]; done. }
      destruct (real_destroy s); done.
    + rewrite Hp. destruct (i_up _ _ _ _ _ HI Hp) as (Hs & Hc & Hcs & -> & Hq & Hpa).
      assert (started (es ++ [Destroy b a])) by (apply started_snoc; by left).
      assert (closed (es ++ [Destroy b a])) by (apply closed_snoc; right; by exists b, a).
      destruct (shake s && negb b).
      * set (s1 := set_ph _ _). assert (good f (shutdown s1 a) (es ++ [Destroy b a]) cs 0) as H1.
        { apply good_shutdown; try done. by destruct HI. }
        destruct (shutdown s1 a); done.
      * assert (good f (real_destroy s) (es ++ [Destroy b a]) cs 0) as H1.
        { apply good_destroy; try done. by destruct HI. }
        destruct (real_destroy s); done.
    + destruct (ph s); done.
  - destruct (rd s && bool_decide (got = 0 \/ got = -1)) eqn:E; [|done].
    apply andb_true_iff in E as [Er Eg%bool_decide_eq_true].
    set (s1 := set_rd s false).
    assert (Hs1 : forall P, started es -> (started (es ++ [IoR got a]) -> P) -> P) by (intros P H HP; apply HP, started_snoc; by left).
    assert (Hncl : ~ closed es -> ~ closed (es ++ [IoR got a])) by (intros H; rewrite closed_snoc; intros [?|(? & ? & ?)]; done).
    assert (good f (on_result s1 got a) (es ++ [IoR got a]) cs ds) as H; [|destruct (on_result s1 got a); done].
    unfold on_result. change (ph s1) with (ph s). change (fib s1) with (fib s). destruct (ph s) eqn:Hp.
    + destruct (i_init _ _ _ _ _ HI Hp) as (_ & _ & _ & _ & [? _] & _). congruence.
    + destruct (i_hs _ _ _ _ _ HI Hp) as (Hs & Hc & -> & -> & [[_ Hw]|[? _]] & Hpa); [|congruence].
      assert (Hfi : fib s1 = f) by (by destruct HI).
      assert (Hst : started (es ++ [IoR got a])) by (apply started_snoc; by left).
      destruct (decide (got = -1 \/ got = 1)); [apply good_hs_result|apply good_handshake]; try done; try (by split); by apply Hncl.
    + destruct (i_up _ _ _ _ _ HI Hp) as (_ & _ & _ & _ & [? _] & _). congruence.
    + destruct (i_closing _ _ _ _ _ HI Hp) as (Hc & Hs & Hcs & -> & [[_ Hw]|[? _]] & Hpa); [|congruence].
      assert (Hfi : fib s1 = f) by (by destruct HI).
      assert (Hst : started (es ++ [IoR got a])) by (apply started_snoc; by left).
      assert (Hcl : closed (es ++ [IoR got a])) by (apply closed_snoc; by left).
      assert (Hd : good f (real_destroy s1) (es ++ [IoR got a]) cs 0) by (apply good_destroy; done).
      assert (Hsd : good f (shutdown s1 a) (es ++ [IoR got a]) cs 0) by (apply good_shutdown; done).
      destruct (fib s); destruct (decide _); done.
    + destruct (i_gone _ _ _ _ _ HI Hp) as (_ & _ & _ & _ & [? _] & _). congruence.
  - destruct (wr s && bool_decide (got = 0 \/ got = -1)) eqn:E; [|done].
    apply andb_true_iff in E as [Er Eg%bool_decide_eq_true].
    set (s1 := set_wr s false).
    assert (Hncl : ~ closed es -> ~ closed (es ++ [IoW got a])) by (intros H; rewrite closed_snoc; intros [?|(? & ? & ?)]; done).
    assert (good f (on_result s1 got a) (es ++ [IoW got a]) cs ds) as H; [|destruct (on_result s1 got a); done].
    unfold on_result. change (ph s1) with (ph s). change (fib s1) with (fib s). destruct (ph s) eqn:Hp.
    + destruct (i_init _ _ _ _ _ HI Hp) as (_ & _ & _ & _ & [_ ?] & _). congruence.
    + destruct (i_hs _ _ _ _ _ HI Hp) as (Hs & Hc & -> & -> & [[_ ?]|[Hw _]] & Hpa); [congruence|].
      assert (Hfi : fib s1 = f) by (by destruct HI).
      assert (Hst : started (es ++ [IoW got a])) by (apply started_snoc; by left).
      destruct (decide (got = -1 \/ got = 1)); [apply good_hs_result|apply good_handshake]; try done; try (by split); by apply Hncl.
    + destruct (i_up _ _ _ _ _ HI Hp) as (_ & _ & _ & _ & [_ ?] & _). congruence.
    + destruct (i_closing _ _ _ _ _ HI Hp) as (Hc & Hs & Hcs & -> & [[_ ?]|[Hw _]] & Hpa); [congruence|].
      assert (Hfi : fib s1 = f) by (by destruct HI).
      assert (Hst : started (es ++ [IoW got a])) by (apply started_snoc; by left).
      assert (Hcl : closed (es ++ [IoW got a])) by (apply closed_snoc; by left).
      assert (Hd : good f (real_destroy s1) (es ++ [IoW got a]) cs 0) by (apply good_destroy; done).
      assert (Hsd : good f (shutdown s1 a) (es ++ [IoW got a]) cs 0) by (apply good_shutdown; done).
      destruct (fib s); destruct (decide _); done.
    + destruct (i_gone _ _ _ _ _ HI Hp) as (_ & _ & _ & _ & [_ ?] & _). congruence.
Qed.

Lemma inv_start f e : inv f (start f e) [] [] 0.
Proof.
  constructor; cbn; try done. intros _. split_and!; try done.
  - by intros (a & H%elem_of_nil).
  - by intros (b & a & H%elem_of_nil).
Qed.

Lemma run_good f es0 os0 s es : Forall no_timeout es -> inv f s es0 (calls os0) (destroys os0) ->
  match run step s es with
  | Disabled => True | Crash => False
  | Ok s' os => inv f s' (es0 ++ es) (calls (os0 ++ os)) (destroys (os0 ++ os))
  end.
Proof.
  intros Hn. revert s es0 os0. induction Hn as [|e es He Hn IH]; intros s es0 os0 HI; cbn [run].
  - by rewrite !app_nil_r.
  - pose proof (step_good _ _ _ _ _ e He HI) as Hst. destruct (step s e) as [| |s1 o]; try done. cbn [good] in Hst.
    rewrite <- calls_snoc, <- destroys_snoc in Hst.
    specialize (IH _ _ _ Hst). destruct (run step s1 es) as [| |s2 os]; try done.
    by rewrite <- !app_assoc in IH.
Qed.

(** ** C55 *)
(** No schedule without read timeouts violates an assertion or uses the freed handshake record. *)
Theorem C55_safe_partial f e es : Forall no_timeout es -> run step (start f e) es <> Crash.
Proof. intros Hn Hc. pose proof (run_good f [] [] (start f e) es Hn (inv_start f e)) as H. by rewrite Hc in H. Qed.

(** Once a handshake was started, either its callback was called exactly once, with 0 or -1, or exactly one socket request
    is outstanding and it was not called; the record of the handshake lives exactly that long.  Once the connection was
    closed, either it was destroyed exactly once or exactly one socket request is outstanding; it is never destroyed before. *)
Theorem C55_once_partial f e es s os : Forall no_timeout es -> run step (start f e) es = Ok s os ->
  (started es -> calls os = [0] \/ calls os = [-1] \/ calls os = [] /\ one_request s) /\
  (~ started es -> calls os = []) /\
  (closed es -> destroys os = 1%nat /\ no_request s \/ destroys os = 0%nat /\ one_request s) /\
  (~ closed es -> destroys os = 0%nat) /\
  (param s = true <-> f = false /\ started es /\ calls os = []).
Proof.
  intros Hn Hr. pose proof (run_good f [] [] (start f e) es Hn (inv_start f e)) as HI. rewrite Hr in HI. cbn [app] in HI.
  destruct (ph s) eqn:Hp.
  - destruct (i_init _ _ _ _ _ HI Hp) as (? & ? & Hcs & Hds & ? & Hpa & _). rewrite Hpa. split_and!; try done. split; [done|by intros (_ & ? & _)].
  - destruct (i_hs _ _ _ _ _ HI Hp) as (? & ? & Hcs & Hds & ? & Hpa). rewrite Hpa, Hcs, Hds. split_and!; try done; [auto|].
    destruct f; split; try done; by intros (? & _).
  - destruct (i_up _ _ _ _ _ HI Hp) as (? & ? & Hcs & Hds & ? & Hpa). rewrite Hpa, Hds. split_and!; try done; [tauto|].
    split; [done|]. intros (_ & _ & H'). rewrite H' in Hcs. by destruct Hcs.
  - destruct (i_closing _ _ _ _ _ HI Hp) as (? & ? & Hcs & Hds & ? & Hpa). rewrite Hpa, Hds. split_and!; try done; [tauto|auto|].
    split; [done|]. intros (_ & _ & H'). rewrite H' in Hcs. by destruct Hcs.
  - destruct (i_gone _ _ _ _ _ HI Hp) as (? & Hcs & Hcs' & Hds & ? & Hpa). rewrite Hpa, Hds. split_and!; try done; [tauto|auto|].
    split; [done|]. intros (_ & Hst & H'). specialize (Hcs Hst). rewrite H' in Hcs. by destruct Hcs.
Qed.

(** What each answer of OpenSSL leads to.  [e']: early data still to be tried when the engine is asked. *)
Definition hs_outcome (v : verdict) (s' : st) (o : list obs) : Prop :=
  match v with
  | VDone => o = [OCall 0] /\ no_request s'
  | VRead => o = [] /\ rd s' = true /\ wr s' = false
  | VWrite => o = [] /\ rd s' = false /\ wr s' = true
  | VFail => o = [OCall (-1)] /\ no_request s'
  end.

Lemma handshake_outcome f s a v : fib s = f -> ph s = Hs -> no_request s -> param s = negb f -> says_hs (early s) a v ->
  exists s' o, handshake s a = Ok s' o /\ hs_outcome v s' o.
Proof.
  intros Hf Hp [Hr Hw] Hpa Hsay. unfold handshake.
  assert (Hd : forall t, fib t = f -> param t = negb f -> rd t = false -> wr t = false ->
     (exists s' o, hs_result t 1 = Ok s' o /\ hs_outcome VDone s' o) /\ (exists s' o, hs_result t (-1) = Ok s' o /\ hs_outcome VFail s' o)).
  { intros t Ht Hpt Hrt Hwt. unfold hs_result, hs_done.
    assert (negb (fib t) && negb (param t) = false) as -> by (rewrite Hpt, Ht; by destruct f).
    split; (destruct (decide _); [|]; try done; try lia; eexists _, _; split; [done|]; cbn; split; [done|by split]). }
  assert (Hrest : forall t z, fib t = f -> param t = negb f -> rd t = false -> wr t = false ->
     (v = VDone /\ z = ret_ok \/ z = handshake_status (a_err a) /\ says_err (a_err a) v) ->
     exists s' o, (if decide (z = ret_ok) then hs_result t 1
      else if decide (z = ret_want_read) then req_read t
      else if decide (z = ret_want_write) then req_write t else hs_result t (-1)) = Ok s' o /\ hs_outcome v s' o).
  { intros t z Ht Hpt Hrt Hwt [[-> ->]|[-> Hs]].
    - by apply Hd.
    - unfold handshake_status, SSL_ERROR_WANT_READ, SSL_ERROR_WANT_WRITE, SSL_ERROR_WANT_CONNECT, SSL_ERROR_WANT_ACCEPT, SSL_ERROR_WANT_X509_LOOKUP.
      destruct v; cbn [says_err] in Hs.
      + done.
      + destruct (decide (a_err a = 2)); [|done]. cbn. unfold req_read. rewrite Hrt. eexists _, _. split; [done|]. by cbn.
      + destruct (decide (a_err a = 2)); [lia|]. destruct (decide (a_err a = 3 \/ _)); [|tauto]. cbn. unfold req_write. rewrite Hwt.
        eexists _, _. split; [done|]. by cbn.
      + destruct (decide (a_err a = 2)); [lia|]. destruct (decide (a_err a = 3 \/ _)); [lia|].
        destruct (decide (a_err a = 4)); cbn; by apply Hd. }
  destruct (early s) eqn:Ee; cbn [andb says_hs] in *; unfold says_hs in Hsay.
  - destruct Hsay as [[He ->]|[[He H]|(He1 & He2 & H)]].
    + rewrite bool_decide_true by done. by apply Hd.
    + rewrite bool_decide_false by (unfold SSL_READ_EARLY_DATA_SUCCESS; lia).
      rewrite decide_True by done. apply Hrest; [done..|]. unfold ssl_handshake.
      destruct H as [[? ->]|[? ?]]; [left|right]; destruct (decide (a_hs a <= 0)); try lia; done.
    + rewrite bool_decide_false by done. rewrite decide_False by done. apply Hrest; [done..|]. by right.
  - apply Hrest; [done..|]. unfold ssl_handshake.
    destruct Hsay as [[? ->]|[? ?]]; [left|right]; destruct (decide (a_hs a <= 0)); try lia; done.
Qed.

Lemma reach_inv' f e es s os : Forall no_timeout es -> run step (start f e) es = Ok s os -> inv f s es (calls os) (destroys os).
Proof.
  intros Hn Hr. pose proof (run_good f [] [] (start f e) es Hn (inv_start f e)) as HI. by rewrite Hr in HI.
Qed.

(** Early data is tried until OpenSSL says success (1) or finished (2) and never again afterwards; the byte that a
    successful try delivers is remembered. *)
Definition asked (s : st) (e : ev) : option ans :=
  match e, ph s with
  | Start a, Init => Some a
  | IoR got a, Hs | IoW got a, Hs => if decide (got = -1) then None else Some a
  | _, _ => None
  end.
Theorem C55_early f e es s os v s' o : Forall no_timeout es -> run step (start f e) es = Ok s os -> no_timeout v ->
  step s v = Ok s' o ->
  match asked s v with
  | Some a => (early s' = true <-> early s = true /\ a_early a <> 1 /\ a_early a <> 2)
              /\ (pre s' = true <-> pre s = true \/ early s = true /\ a_early a = 1)
  | None => early s' = early s /\ pre s' = pre s
  end.
Proof.
  intros _ _ Hnt.
  assert (HR : forall t g u w, hs_result t g = Ok u w -> early u = early t /\ pre u = pre t).
  { intros t g u w. unfold hs_result, hs_done. repeat case_match; intros; by simplify_eq. }
  assert (HQ : forall t u w, req_read t = Ok u w -> early u = early t /\ pre u = pre t).
  { intros t u w. unfold req_read. case_match; intros; by simplify_eq. }
  assert (HW : forall t u w, req_write t = Ok u w -> early u = early t /\ pre u = pre t).
  { intros t u w. unfold req_write. case_match; intros; by simplify_eq. }
  assert (HD : forall t u w, real_destroy t = Ok u w -> early u = early t /\ pre u = pre t).
  { intros t u w. unfold real_destroy. case_match; intros; by simplify_eq. }
  assert (HS : forall t a u w, shutdown t a = Ok u w -> early u = early t /\ pre u = pre t).
  { intros t a u w. unfold shutdown. repeat case_match; eauto. }
  assert (HH : forall t a u w, handshake t a = Ok u w ->
    (early u = true <-> early t = true /\ a_early a <> 1 /\ a_early a <> 2)
    /\ (pre u = true <-> pre t = true \/ early t = true /\ a_early a = 1)).
  { intros t a u w. unfold handshake, SSL_READ_EARLY_DATA_SUCCESS, SSL_READ_EARLY_DATA_FINISH.
    destruct (early t) eqn:Et; cbn [andb].
    - destruct (bool_decide _) eqn:Eb.
      + apply bool_decide_eq_true in Eb. intros H. apply HR in H as [-> ->]. cbn. split; split; intros; try done; auto. lia.
      + apply bool_decide_eq_false in Eb. destruct (decide _) as [E2|E2].
        * assert (Hx : early u = false /\ pre u = pre t -> (early u = true <-> true = true /\ a_early a <> 1 /\ a_early a <> 2)
            /\ (pre u = true <-> pre t = true \/ true = true /\ a_early a = 1)).
          { intros [-> ->]. split; split; intros; try done; auto; [lia|]. destruct H as [?|[_ ?]]; [done|lia]. }
          intros H. apply Hx. repeat case_decide; first [apply HR in H|apply HQ in H|apply HW in H]; by destruct H as [-> ->].
        * assert (Hx : early u = true /\ pre u = pre t -> (early u = true <-> true = true /\ a_early a <> 1 /\ a_early a <> 2)
            /\ (pre u = true <-> pre t = true \/ true = true /\ a_early a = 1)).
          { intros [-> ->]. split; split; intros; try done; auto. destruct H as [?|[_ ?]]; [done|lia]. }
          intros H. apply Hx. rewrite <- Et. repeat case_decide; first [by apply HR in H|by apply HQ in H|by apply HW in H].
    - assert (Hx : early u = false /\ pre u = pre t -> (early u = true <-> false = true /\ a_early a <> 1 /\ a_early a <> 2)
            /\ (pre u = true <-> pre t = true \/ false = true /\ a_early a = 1)).
      { intros [-> ->]. split; split; intros; try done; auto; [by destruct H|]. destruct H as [?|[? ?]]; done. }
      intros H. apply Hx. rewrite <- Et. repeat case_decide; first [by apply HR in H|by apply HQ in H|by apply HW in H]. }
  assert (HO : forall t got a u w, (got = 0 \/ got = -1) -> on_result t got a = Ok u w ->
    match ph t with
    | Hs => if decide (got = -1) then early u = early t /\ pre u = pre t else
       (early u = true <-> early t = true /\ a_early a <> 1 /\ a_early a <> 2)
       /\ (pre u = true <-> pre t = true \/ early t = true /\ a_early a = 1)
    | _ => early u = early t /\ pre u = pre t
    end).
  { intros t got a u w Hg. unfold on_result. destruct (ph t).
    1,3,5: case_match; intros; by simplify_eq.
    - destruct (decide (got = -1)) as [->|Hn].
      + rewrite decide_True by auto. eauto.
      + rewrite decide_False by lia. eauto.
    - destruct (fib t), (decide _); eauto. }
  destruct v as [a|err a|got a|got a|a]; cbn [step asked]; try done.
  - destruct (ph s) eqn:Hp; try done. intros H. apply HH in H. exact H.
  - destruct (ph s) eqn:Hp; try done; (destruct (shake s && negb err); [intros H; apply HS in H; exact H|apply HD]).
  - destruct (rd s && _) eqn:Eb; [|done]. apply andb_true_iff in Eb as [_ Eb]. apply bool_decide_eq_true in Eb. intros H. apply HO in H; [|done]. cbn in H.
    destruct (ph s); try done. by destruct (decide _).
  - destruct (wr s && _) eqn:Eb; [|done]. apply andb_true_iff in Eb as [_ Eb]. apply bool_decide_eq_true in Eb. intros H. apply HO in H; [|done]. cbn in H.
    destruct (ph s); try done. by destruct (decide _).
Qed.
Print Assumptions C55_early.

(** The handshake callback gets 0 exactly when OpenSSL reports a finished handshake (or accepted early data), -1 when it
    reports a failure or the socket failed; otherwise the code waits for the direction OpenSSL asked for. *)
Theorem C55_handshake_partial f e es s os a v : Forall no_timeout es -> run step (start f e) es = Ok s os ->
  says_hs (early s) a v ->
  (ph s = Init -> exists s' o, step s (Start a) = Ok s' o /\ hs_outcome v s' o) /\
  (ph s = Hs -> rd s = true -> (exists s' o, step s (IoR 0 a) = Ok s' o /\ hs_outcome v s' o) /\
                               exists s', step s (IoR (-1) a) = Ok s' [OCall (-1)] /\ no_request s') /\
  (ph s = Hs -> wr s = true -> (exists s' o, step s (IoW 0 a) = Ok s' o /\ hs_outcome v s' o) /\
                               exists s', step s (IoW (-1) a) = Ok s' [OCall (-1)] /\ no_request s').
Proof.
  intros Hn Hr Hsay. pose proof (reach_inv' _ _ _ _ _ Hn Hr) as HI. pose proof (i_fib _ _ _ _ _ HI) as Hf.
  split_and!.
  - intros Hp. cbn [step]. rewrite Hp. destruct (i_init _ _ _ _ _ HI Hp) as (_ & _ & _ & _ & [? ?] & _ & _).
    eapply (handshake_outcome f); try done; cbn; by rewrite Hf.
  - intros Hp Hrd. destruct (i_hs _ _ _ _ _ HI Hp) as (_ & _ & _ & _ & [[_ Hw]|[? _]] & Hpa); [|congruence].
    cbn [step]. rewrite Hrd. cbn [andb]. unfold on_result. change (ph (set_rd s false)) with (ph s). rewrite Hp. split.
    + rewrite bool_decide_true by auto. rewrite decide_False by lia. eapply (handshake_outcome f); done.
    + rewrite bool_decide_true by auto. rewrite decide_True by auto. unfold hs_result, hs_done. cbn [fib param set_rd].
      rewrite decide_True by done. rewrite Hf, Hpa. assert (negb f && negb (negb f) = false) as -> by (by destruct f).
      eexists. split; [done|]. by split.
  - intros Hp Hwr. destruct (i_hs _ _ _ _ _ HI Hp) as (_ & _ & _ & _ & [[_ ?]|[Hrd _]] & Hpa); [congruence|].
    cbn [step]. rewrite Hwr. cbn [andb]. unfold on_result. change (ph (set_wr s false)) with (ph s). rewrite Hp. split.
    + rewrite bool_decide_true by auto. rewrite decide_False by lia. eapply (handshake_outcome f); done.
    + rewrite bool_decide_true by auto. rewrite decide_True by auto. unfold hs_result, hs_done. cbn [fib param set_wr].
      rewrite decide_True by done. rewrite Hf, Hpa. assert (negb f && negb (negb f) = false) as -> by (by destruct f).
      eexists. split; [done|]. by split.
Qed.

(** Closing: the TLS session is shut down first (unless there is none or the socket has failed), as long as OpenSSL wants
    to read or write; then the connection is destroyed. *)
Definition sd_outcome (v : verdict) (s' : st) (o : list obs) : Prop :=
  match v with
  | VRead => o = [] /\ rd s' = true /\ wr s' = false
  | VWrite => o = [] /\ rd s' = false /\ wr s' = true
  | VDone | VFail => o = [ODestroy] /\ no_request s'
  end.
Lemma shutdown_outcome s a v : no_request s -> says_sd a v -> exists s' o, shutdown s a = Ok s' o /\ sd_outcome v s' o.
Proof.
  intros [Hr Hw] Hs. unfold shutdown.
  assert (ssl_shutdown a = match v with VDone => 1 | VRead => 2 | VWrite => 3 | VFail => 0 end) as ->.
  { unfold ssl_shutdown, SSL_ERROR_WANT_READ, SSL_ERROR_WANT_WRITE.
    destruct v; cbn [says_sd] in Hs; destruct (decide (a_sd a = 1)); try lia; destruct (decide (a_err a = 2)); try lia;
      destruct (decide (a_err a = 3)); try lia; done. }
  unfold real_destroy, req_read, req_write. destruct v; cbn; rewrite ?Hr, ?Hw; cbn [orb];
    eexists _, _; (split; [reflexivity|]); by cbn.
Qed.
Theorem C55_shutdown_partial f e es s os a v : Forall no_timeout es -> run step (start f e) es = Ok s os ->
  says_sd a v ->
  (ph s = Up -> (exists s', step s (Destroy true a) = Ok s' [ODestroy]) /\
                (shake s = true -> exists s' o, step s (Destroy false a) = Ok s' o /\ sd_outcome v s' o)) /\
  (ph s = Closing -> rd s = true -> (exists s' o, step s (IoR 0 a) = Ok s' o /\ sd_outcome v s' o) /\
                               exists s', step s (IoR (-1) a) = Ok s' [ODestroy]) /\
  (ph s = Closing -> wr s = true -> (exists s' o, step s (IoW 0 a) = Ok s' o /\ sd_outcome v s' o) /\
                               exists s', step s (IoW (-1) a) = Ok s' [ODestroy]).
Proof.
  intros Hn Hr Hsay. pose proof (reach_inv' _ _ _ _ _ Hn Hr) as HI. pose proof (i_fib _ _ _ _ _ HI) as Hf.
  split_and!.
  - intros Hp. destruct (i_up _ _ _ _ _ HI Hp) as (_ & _ & _ & _ & [Hrd Hwr] & _). cbn [step]. rewrite Hp. split.
    + rewrite andb_false_r. unfold real_destroy. rewrite Hrd, Hwr. by eexists.
    + intros ->. cbn [andb negb]. by apply shutdown_outcome.
  - intros Hp Hrd. destruct (i_closing _ _ _ _ _ HI Hp) as (_ & _ & _ & _ & [[_ Hw]|[? _]] & Hpa); [|congruence].
    cbn [step]. rewrite Hrd. cbn [andb]. unfold on_result. change (ph (set_rd s false)) with (ph s). rewrite Hp.
    change (fib (set_rd s false)) with (fib s).
    rewrite !bool_decide_true by auto. split.
    + assert (exists s' o, shutdown (set_rd s false) a = Ok s' o /\ sd_outcome v s' o) by (by apply shutdown_outcome).
      destruct (fib s); [rewrite decide_False by lia|rewrite decide_True by done]; done.
    + destruct (fib s); [rewrite decide_True by auto|rewrite decide_False by lia]; unfold real_destroy; cbn [rd wr set_rd]; rewrite Hw; by eexists.
  - intros Hp Hwr. destruct (i_closing _ _ _ _ _ HI Hp) as (_ & _ & _ & _ & [[_ ?]|[Hrd _]] & Hpa); [congruence|].
    cbn [step]. rewrite Hwr. cbn [andb]. unfold on_result. change (ph (set_wr s false)) with (ph s). rewrite Hp.
    change (fib (set_wr s false)) with (fib s).
    rewrite !bool_decide_true by auto. split.
    + assert (exists s' o, shutdown (set_wr s false) a = Ok s' o /\ sd_outcome v s' o) by (by apply shutdown_outcome).
      destruct (fib s); [rewrite decide_False by lia|rewrite decide_True by done]; done.
    + destruct (fib s); [rewrite decide_True by auto|rewrite decide_False by lia]; unfold real_destroy; cbn [rd wr set_wr]; rewrite Hrd; by eexists.
Qed.

(** The session bit is set by the handshake, so after one the close really asks OpenSSL. *)
Definition keeps (b : bool) (r : res st (list obs)) : Prop := match r with Ok s _ => shake s = b | _ => True end.
Lemma keeps_hs b s got : shake s = b -> keeps b (hs_result s got).
Proof. intros H. unfold hs_result, hs_done. destruct (decide _); destruct (negb (fib s) && negb (param s)); done. Qed.
Lemma keeps_rd b s : shake s = b -> keeps b (req_read s).
Proof. intros H. unfold req_read. by destruct (rd s). Qed.
Lemma keeps_wr b s : shake s = b -> keeps b (req_write s).
Proof. intros H. unfold req_write. by destruct (wr s). Qed.
Lemma keeps_destroy b s : shake s = b -> keeps b (real_destroy s).
Proof. intros H. unfold real_destroy. by destruct (rd s || wr s). Qed.
Lemma keeps_shutdown b s a : shake s = b -> keeps b (shutdown s a).
Proof.
  intros H. unfold shutdown. destruct (decide _); [by apply keeps_rd|].
  destruct (decide _); [by apply keeps_wr|by apply keeps_destroy].
Qed.
Lemma keeps_handshake b s a : shake s = b -> keeps b (handshake s a).
Proof.
  intros H. unfold handshake. destruct (early s && _); [by apply keeps_hs|].
  set (p := if early s then _ else _). assert (shake p.1 = b) as Hp by (unfold p; destruct (early s); [destruct (decide _)|]; done).
  destruct p as [s1 z]. cbn in Hp. repeat (destruct (decide _); [by (apply keeps_hs || apply keeps_rd || apply keeps_wr)|]). by apply keeps_hs.
Qed.
Lemma keeps_on b s got a : shake s = b -> keeps b (on_result s got a).
Proof.
  intros H. unfold on_result. destruct (ph s); try (destruct (fib s); done).
  - destruct (decide _); [by apply keeps_hs|by apply keeps_handshake].
  - destruct (fib s); destruct (decide _); by (apply keeps_destroy || apply keeps_shutdown).
Qed.
Lemma on_ph s got a s' o : on_result s got a = Ok s' o -> ph s = Init -> ph s' = Init /\ fib s = true.
Proof. unfold on_result. intros H Hp. rewrite Hp in H. destruct (fib s); [|done]. by injection H as <- <-. Qed.
Theorem C55_session f e es s os : run step (start f e) es = Ok s os -> (ph s = Hs \/ ph s = Up) -> shake s = true.
Proof.
  intros Hr Hp.
  assert ((ph s = Init \/ ph s = Gone) \/ shake s = true) as [[H|H]|H]; [|by destruct Hp; congruence..|done].
  eapply (run_inv step (fun s => (ph s = Init \/ ph s = Gone) \/ shake s = true) ) with (s := start f e); [|left; left; reflexivity|exact Hr].
  clear. intros s e s' o H Hst.
  assert (Hkeep : forall b r, keeps b r -> r = Ok s' o -> b = true -> (ph s' = Init \/ ph s' = Gone) \/ shake s' = true).
  { intros b r Hk -> ->. right. exact Hk. }
  assert (Hon : forall t got a, ph t = ph s -> shake t = shake s -> on_result t got a = Ok s' o ->
     (ph s' = Init \/ ph s' = Gone) \/ shake s' = true).
  { intros t got a Ht1 Ht2 Ht. destruct H as [[H|H]|H].
    - destruct (on_ph _ _ _ _ _ Ht) as [? _]; [congruence|]. left; left; done.
    - unfold on_result in Ht. rewrite Ht1, H in Ht. destruct (fib t); [|done]. injection Ht as <- <-. left; right. congruence.
    - eapply Hkeep; [by apply keeps_on|exact Ht|congruence]. }
  destruct e as [a|b a|got a|got a|a]; cbn [step] in Hst.
  - destruct (ph s); try done. eapply Hkeep; [apply keeps_handshake; reflexivity|exact Hst|done].
  - assert (Hd : real_destroy s = Ok s' o -> (ph s' = Init \/ ph s' = Gone) \/ shake s' = true).
    { unfold real_destroy. destruct (rd s || wr s); [done|]. intros [= <- <-]. left; right; done. }
    destruct (ph s) eqn:Ep; try done; (destruct (shake s) eqn:Es; cbn [andb] in Hst; [destruct (negb b)|]; [|by apply Hd..]);
      (eapply Hkeep; [apply keeps_shutdown; reflexivity|exact Hst|exact Es]).
  - destruct (rd s && _); [|done]. by eapply Hon; [..|exact Hst].
  - destruct (wr s && _); [|done]. by eapply Hon; [..|exact Hst].
  - destruct (rd s); [|done]. by eapply Hon; [..|exact Hst].
Qed.

(** ** Where the unconditional claim fails: a socket with a read timeout (STF_RTIME_OUT) *)
Definition wr_ : ans := Ans 0 0 0 2.   (* OpenSSL wants to read *)
Definition ok_ : ans := Ans 0 1 1 0.   (* OpenSSL has finished *)
(** The timeout restarts the handshake while the read is still registered: assertion failure. *)
Theorem C55_timeout_refuted : forall f, run step (start f false) [Start wr_; Timeout wr_] = Crash.
Proof. by intros []. Qed.
(** If OpenSSL can finish at that moment, the registered read later calls back into the freed record. *)
Theorem C55_timeout_uaf_refuted : run step (start false false) [Start wr_; Timeout ok_; IoR 0 ok_] = Crash.
Proof. done. Qed.
(** The same while closing: the connection is destroyed although a read is registered. *)
Theorem C55_timeout_close_refuted : forall f,
  run step (start f false) [Start ok_; Destroy false wr_; Timeout (Ans 0 0 0 0)] = Crash.
Proof. by intros []. Qed.

(** A complete life: early data is tried and finished, then OpenSSL reads, writes, is done; on close it writes once. *)
Definition demo : list ev :=
  [Start (Ans 2 0 0 2); IoR 0 (Ans 0 (-1) 0 3); IoW 0 (Ans 0 1 0 0); Destroy false (Ans 0 0 0 3); IoW 0 (Ans 0 0 1 0)].
Example C55_demo : Forall no_timeout demo /\
  match run step (start false true) demo with
  | Ok s os => calls os = [0] /\ destroys os = 1%nat /\ ph s = Gone
  | _ => False
  end.
Proof. split; [repeat constructor|]. vm_compute. by split_and!. Qed.

Print Assumptions C55_safe_partial.
Print Assumptions C55_once_partial.
Print Assumptions C55_handshake_partial.
Print Assumptions C55_shutdown_partial.
