(** Property C64: fiber file I/O on epoll with Linux AIO.  Model: AioModel.v, specification: AioSpec.v *)
From Verif Require Import AioModel AioSpec AioProof AioProof2.
Local Open Scope Z_scope.

Section props.
(** the block size is a power of two up to 32768 *)
Context (kk : Z) (Hkk : 0 <= kk <= 15) (nd : bool) (c0 : nat -> list Z).
Notation A := (2 ^ kk).
Notation AI := (AI A nd c0).
Notation step := (astep A nd).

Lemma AI_step s e s' o : AI s -> duty A nd s e -> step s e = Ok s' o -> AI s'.
Proof.
  intros HI HD HS. pose proof (A_pos kk Hkk) as HA. destruct e as [t f len al ok|t f d al ok|t f p off|t f|t f on_ ok|t|i k|i err| | |r| | |]; cbn in HS.
  - destruct (pc s) eqn:Ep; [|done]. destruct (fib s t) eqn:Et; try done. destruct HD as [HD _]. destruct (fdir (fls s f)) eqn:Ed.
    + destruct (negb nd && negb al); [done|]. injection HS as <- _.
      pose proof (doff_gap kk Hkk (foff (fls s f))) as EG. pose proof (gap_bound kk Hkk None (foff (fls s f)) true) as GB.
      destruct ok.
      * apply AI_submit; cbn [foff fdir fdoff folen fdata]; try done; rewrite ?EG; try done; try lia.
        -- unfold adj_off. cbn [foff fdoff]. rewrite i16_small by lia. done.
        -- intros [|]; done.
      * apply AI_reject; cbn [foff fdir fdoff folen fdata]; try done. rewrite EG. lia.
    + injection HS as <- _. destruct ok; [|by apply AI_reject]. apply AI_submit; cbn [foff fdir fdoff folen fdata]; try done.
  - destruct (pc s) eqn:Ep; [|done]. destruct (fib s t) eqn:Et; try done. destruct HD as [HD _]. destruct (fdir (fls s f)) eqn:Ed.
    + destruct (negb nd && _); [done|]. injection HS as <- _. destruct ok; [|by apply AI_reject]. apply AI_submit; cbn [foff fdir fdoff folen fdata]; try done. by intros d' [= ->].
    + injection HS as <- _. destruct ok; [|by apply AI_reject]. apply AI_submit; cbn [foff fdir fdoff folen fdata]; try done. by intros d' [= ->].
  - destruct (pc s) eqn:Ep; [|done]. destruct (fib s t) eqn:Et; try done. destruct p; injection HS as <- _; [| |done].
    + unfold log, set_fls. cbn. apply (AI_file kk nd c0 s f (mkf off _ _ _ _) [HSeek f off]); try done; [apply HI|by right].
    + unfold log, set_fls. cbn. apply (AI_file kk nd c0 s f (mkf (foff (fls s f) + off) _ _ _ _) [HSeek f (foff (fls s f) + off)]); try done; [apply HI|by right].
  - destruct (pc s); [|done]. destruct (fib s t); try done. by injection HS as <- _.
  - destruct (pc s) eqn:Ep; [|done]. destruct (fib s t) eqn:Et; try done. destruct ok; injection HS as <- _; [|done].
    pose proof (AI_file kk nd c0 s f (mkf (foff (fls s f)) on_ (fdoff (fls s f)) (folen (fls s f)) (fdata (fls s f))) [] HI HD) as H.
    rewrite app_nil_r in H. apply H; [apply HI|by left].
  - destruct (pc s) eqn:Ep; [|done]. destruct (fib s t) as [| |id f r] eqn:Et; try done. injection HS as <- _. rewrite <- Ep. by apply AI_resume.
  - destruct (infl s !! i) as [o'|] eqn:Ei; [|done]. destruct (negb _) eqn:Eb; [done|].
    apply negb_false_iff, andb_true_iff in Eb as [E1 E2]. apply Z.leb_le in E1, E2. specialize (HD _ Ei).
    destruct (i_wr o') as [d|] eqn:Ew.
    + injection HS as <- _. apply AI_complete; try done. intros off dir len H1 H2 H3 H4 H5. rewrite Ew in *. cbn [gap] in *.
      assert (Hl : len = length d) by (by apply H3). assert (Hil : i_len o' = Z.of_nat len) by (apply H2; by right).
      split_and!; try lia; [|done|].
      * unfold kernel_did. split; [intros ?; rewrite decide_True by lia; done|]. intros Hk. split_and!; [lia|lia|]. rewrite decide_False by lia.
        rewrite Nat2Z.id. by replace off with (i_off o') by lia.
      * intros Hn Hd. rewrite <- H5. apply HD; congruence.
    + case_decide as Hl; [|done]. injection HS as <- _. apply AI_complete; try done. intros off dir len H1 H2 H3 H4 H5. rewrite Ew in *.
      split_and!.
      * unfold kernel_did. split; [done|]. intros Hk. destruct k as [|k]; [by right|]. left. lia.
      * intros Hd. rewrite <- H2; [done|]. done.
      * intros _ Hk. rewrite <- H1. split_and!; [lia| |lia]. unfold slice. by rewrite Nat2Z.id.
      * intros Hn Hd. rewrite <- H5. apply HD; congruence.
  - destruct (infl s !! i) as [o'|] eqn:Ei; [|done]. destruct (0 <? err) eqn:Eb; [|done]. injection HS as <- _. apply Z.ltb_lt in Eb.
    specialize (HD _ Ei). apply AI_complete; try done. intros off dir len H1 H2 H3 H4 H5. split_and!; try lia.
    + unfold kernel_did. destruct (i_wr o'); split; try done; lia.
    + intros Hn Hd. specialize (HD Hn). congruence.
  - destruct (unsig s) as [|n] eqn:Eu; [done|]. injection HS as <- _. eapply (AI_book kk nd c0 s); try done. cbn. pose proof (a_cnt _ _ _ _ HI). unfold owed in *. cbn. lia.
  - destruct (pc s) eqn:Ep; [|done]. destruct (evfd s) as [|n] eqn:Eu; [done|]. injection HS as <- _. eapply (AI_book kk nd c0 s); try done.
    + unfold batch. by rewrite Ep.
    + pose proof (a_cnt _ _ _ _ HI). unfold owed in *. rewrite Ep in *. cbn. lia.
  - destruct (pc s) as [|[|n] [|]] eqn:Ep; try done. case_decide as Hr; [|done]. injection HS as <- _. eapply (AI_book kk nd c0 s); try done.
    + unfold batch. rewrite Ep. cbn. apply take_drop.
    + pose proof (a_cnt _ _ _ _ HI). unfold owed in *. rewrite Ep in *. cbn [ring unsig evfd pc]. rewrite drop_length. lia.
  - destruct (pc s) as [|[|n] [|]]; try done. by injection HS as <- _.
  - destruct (pc s) as [|n [|c b]] eqn:Ep; try done. destruct (adj_res nd (fls s (c_file c)) (c_res c)) as [r|] eqn:Er; [|done].
    destruct (AI_cb kk Hkk nd c0 s n c b r HI Ep Er) as [H1 H2]. rewrite H1 in HS. injection HS as <- _. done.
  - destruct (pc s) as [|[|n] [|]] eqn:Ep; try done. injection HS as <- _. eapply (AI_book kk nd c0 s); try done.
    + unfold batch. by rewrite Ep.
    + pose proof (a_cnt _ _ _ _ HI). unfold owed in *. by rewrite Ep in *.
Qed.
Lemma cb_some s n c b : AI s -> pc s = ADrain n (c :: b) -> exists r, adj_res nd (fls s (c_file c)) (c_res c) = Some r.
Proof.
  intros HI Ep. unfold adj_res. pose proof (a_doff _ _ _ _ HI (c_file c)) as H0.
  rewrite (proj2 (Z.ltb_ge _ _) H0), andb_false_r. destruct (fdir (fls s (c_file c))) eqn:Ed; cbn; [|eauto].
  assert (Hc : c ∈ batch s ++ ring s) by (unfold batch; rewrite Ep; cbn; apply elem_of_cons; by left).
  destruct (a_ring _ _ _ _ HI c Hc) as (t & wr & off & len & dir & bf & af & M1 & M2 & M3 & M4 & M5 & M6).
  assert (Hct : (c_id c, c_file c) ∈ toks s). { unfold toks. apply elem_of_app. right. apply elem_of_list_fmap. by exists c. }
  pose proof (tok_on kk nd c0 s _ _ HI Hct) as Ho. destruct (a_info _ _ _ _ HI _ _ _ Ho) as (w & o & l & d & N1 & N2 & N3 & _).
  destruct (AI_uniq _ _ _ _ _ _ _ _ _ _ _ _ _ _ _ _ _ HI N1 M1) as (_ & _ & -> & -> & -> & ->). rewrite N3.
  destruct nd eqn:En; cbn; [destruct (_ <? _); eauto|]. rewrite (proj2 (Z.ltb_lt _ _)); [|apply M6; congruence]. cbn. destruct (_ <? _); eauto.
Qed.
Lemma AI_nocrash s e : AI s -> duty A nd s e -> step s e <> Crash.
Proof.
  intros HI HD HS. destruct e as [t f len al ok|t f d al ok|t f p off|t f|t f on_ ok|t|i k|i err| | |r| | |]; cbn in HS.
  - destruct (pc s); [|done]. destruct (fib s t); try done. destruct HD as [_ HD]. destruct (fdir (fls s f)); [|done].
    destruct nd; cbn in HS; [done|]. rewrite HD in HS; done.
  - destruct (pc s); [|done]. destruct (fib s t); try done. destruct HD as [_ HD]. destruct (fdir (fls s f)); [|done].
    destruct nd; cbn in HS; [done|]. destruct HD as [H1 H2]; try done. by rewrite H1, <- H2, Z.eqb_refl in HS.
  - destruct (pc s); [|done]. destruct (fib s t); try done. by destruct p.
  - destruct (pc s); [|done]. by destruct (fib s t).
  - destruct (pc s); [|done]. destruct (fib s t); try done. by destruct ok.
  - destruct (pc s); [|done]. by destruct (fib s t).
  - destruct (infl s !! i) as [o'|]; [|done]. destruct (negb _); [done|]. destruct (i_wr o'); [done|]. by case_decide.
  - destruct (infl s !! i) as [o'|]; [|done]. by destruct (0 <? err).
  - by destruct (unsig s).
  - destruct (pc s); [|done]. by destruct (evfd s).
  - destruct (pc s) as [|[|n] [|]]; try done. by case_decide.
  - by destruct (pc s) as [|[|n] [|]].
  - destruct (pc s) as [|n [|c b]] eqn:Ep; try done. destruct (cb_some s n c b HI Ep) as [r Er]. rewrite Er in HS.
    destruct (AI_cb kk Hkk nd c0 s n c b r HI Ep Er) as [H1 H2]. by rewrite H1 in HS.
  - by destruct (pc s) as [|[|n] [|]].
Qed.
Lemma AI_run es : forall s s' os, AI s -> keeps A nd s es -> run step s es = Ok s' os -> AI s'.
Proof.
  induction es as [|e es IH]; intros s s' os HI HK HR; cbn in HR; [by injection HR as <- <-|].
  destruct HK as [HD HK]. destruct (step s e) as [| |s1 o1] eqn:E; try done. destruct (run step s1 es) as [| |s2 os2] eqn:ER; try done.
  injection HR as <- <-. eapply IH; [|done|done]. by eapply AI_step.
Qed.
(** states reached by programs that keep their duties *)
Definition reach (s : sys) : Prop := exists es os, run step (ainit c0) es = Ok s os /\ keeps A nd (ainit c0) es.
Lemma reach_AI s : reach s -> AI s.
Proof. intros (es & os & HR & HK). eapply AI_run; [apply AI_init|done|done]. Qed.

(** C64 (safe).  A program that uses each file for one operation at a time runs into no failed assertion and no wake-up of a fiber that
    does not wait.  Partial: with assertions compiled in, the duties exclude direct operations that meet the end of the file or an error. *)
Theorem C64_safe_partial es : keeps A nd (ainit c0) es -> run step (ainit c0) es <> Crash.
Proof.
  generalize (AI_init A nd c0). generalize (ainit c0). induction es as [|e es IH]; intros s HI HK; cbn; [done|]. destruct HK as [HD HK].
  destruct (step s e) as [| |s1 o1] eqn:E; try done; [by apply AI_nocrash in E|].
  specialize (IH s1 (AI_step _ _ _ _ HI HD E) HK). by destruct (run step s1 es).
Qed.
(** (exactly once) Call numbers are distinct; the kernel performs each accepted operation at most once and the call returns at most once;
    an accepted call that has not returned has its fiber suspended in it. *)
Theorem C64_once s : reach s -> NoDup (called (hist s)) /\ NoDup (executed (hist s)) /\ NoDup (returned (hist s)) /\
  forall id, id ∈ accepted (hist s) -> id ∈ returned (hist s) \/ exists t f, fib s t = FWait id f \/ exists r, fib s t = FReady id f r.
Proof.
  intros HR%reach_AI. rewrite (a_called _ _ _ _ HR). split_and!; [apply NoDup_seq|apply HR|apply HR|apply HR].
Qed.
(** (result) A call returns what the kernel did for exactly this call: the operation asked for, at the position of the call, by the fiber that
    made it; and for a read, at the place where the caller looks, the file's bytes from the position on. *)
Theorem C64_result s id t f r bytes : reach s -> HRet id t f r bytes ∈ hist s ->
  exists wr off len dir res before after,
    HCall id t f wr off len dir true ∈ hist s /\ HExec id f res before after ∈ hist s /\
    kernel_did A wr off dir res before after /\ result_ok A wr off len dir res before r bytes.
Proof. intros HR%reach_AI H. exact (a_ret _ _ _ _ HR _ _ _ _ _ H). Qed.
(** (position) Every call is made at the position given by the history: the last seek plus what was read and written since; so does tell; *)
Theorem C64_position s h1 h2 id t f wr off len dir acc : reach s -> hist s = h1 ++ HCall id t f wr off len dir acc :: h2 -> off = pos f h1.
Proof. intros HR%reach_AI. apply (a_hcall _ _ _ _ HR). Qed.
Theorem C64_tell s t f s' o : reach s -> ~ busy s f -> step s (ATell t f) = Ok s' o -> o = Some (pos f (hist s)) /\ s' = s.
Proof.
  intros HR%reach_AI Hb HS. cbn in HS. destruct (pc s); [|done]. destruct (fib s t); try done. injection HS as <- <-.
  split; [|done]. f_equal. by eapply free_pos.
Qed.
(** and the contents the kernel works on are those left by the previous operation on the file *)
Theorem C64_contents s h1 h2 id f res before after : reach s -> hist s = h1 ++ HExec id f res before after :: h2 ->
  before = contents (c0 f) f h1.
Proof. intros HR%reach_AI. apply (a_hexec _ _ _ _ HR). Qed.
(** (wake-up) Whenever the selector is back in epoll and the kernel has signalled what it finished, a finished operation whose fiber was not
    woken means that the eventfd is readable; and inside the completion loop there is always an event for io_getevents to return: the loop
    never spins on an empty queue. *)
Theorem C64_wakeup s : reach s -> pc s = AIdle -> unsig s = 0%nat -> ring s <> [] -> (0 < evfd s)%nat.
Proof.
  intros HR%reach_AI Hp Hu Hr. pose proof (a_cnt _ _ _ _ HR) as H. unfold owed in H. rewrite Hp in H. destruct (ring s); [done|cbn in H; lia].
Qed.
Theorem C64_no_spin s n : reach s -> pc s = ADrain (S n) [] -> exists s', step s (SGet 1) = Ok s' None.
Proof.
  intros HR%reach_AI Hp. pose proof (a_cnt _ _ _ _ HR) as H. unfold owed in H. rewrite Hp in H. cbn. rewrite Hp.
  unfold maxevent. rewrite decide_True; [eauto|]. lia.
Qed.

(** (returns) Once the kernel has performed what was submitted, the selector alone (with the kernel's signals) makes every suspended call return. *)
Definition by_loop (e : aev) : Prop := match e with KSignal | SRead | SGet _ | SCb | SDone | AResume _ => True | _ => False end.
Lemma by_loop_duty s e : by_loop e -> duty A nd s e.
Proof. by destruct e. Qed.
Lemma one_cb s n c b : AI s -> pc s = ADrain n (c :: b) -> exists s' o, step s SCb = Ok s' o /\ AI s' /\ pc s' = ADrain n b /\
  ring s' = ring s /\ unsig s' = unsig s /\ evfd s' = evfd s /\ infl s' = infl s /\ forall t id f, on s t id f -> on s' t id f.
Proof.
  intros HI Ep. destruct (cb_some s n c b HI Ep) as [r Er]. destruct (AI_cb kk Hkk nd c0 s n c b r HI Ep Er) as [H1 H2].
  eexists _, _. split; [cbn; rewrite Ep, Er, H1; done|]. split_and!; try done.
  intros t id f Ho. unfold on. cbn [fib]. destruct (decide (t = fdata (fls s (c_file c)))) as [->|Hn]; [|by rewrite (upd_ne _ _ _ _ Hn)].
  rewrite upd_eq. destruct Ho as [Ho|[r' Ho]]; rewrite Ho in H1; [|done]. injection H1 as -> ->. right. eauto.
Qed.
Lemma all_cb b : forall s n, AI s -> pc s = ADrain n b -> exists es s' os, run step s es = Ok s' os /\ Forall by_loop es /\ AI s' /\ pc s' = ADrain n [] /\
  ring s' = ring s /\ unsig s' = unsig s /\ evfd s' = evfd s /\ infl s' = infl s /\ forall t id f, on s t id f -> on s' t id f.
Proof.
  induction b as [|c b IH]; intros s n HI Ep.
  - exists [], s, []. by split_and!.
  - destruct (one_cb s n c b HI Ep) as (s1 & o & HS & HI1 & P1 & Q1 & Q2 & Q3 & Q4 & Q5).
    destruct (IH s1 n HI1 P1) as (es & s' & os & HR & HF & HI' & P' & R1 & R2 & R3 & R4 & R5).
    exists (SCb :: es), s', (o :: os). cbn [run]. rewrite HS, HR. split_and!; try done; try congruence; [by constructor|]. intros t id f Ho. by apply R5, Q5.
Qed.
Lemma drain n : forall s b, AI s -> pc s = ADrain n b -> exists es s' os, run step s es = Ok s' os /\ Forall by_loop es /\ AI s' /\ pc s' = AIdle /\
  unsig s' = unsig s /\ evfd s' = evfd s /\ infl s' = infl s /\ forall t id f, on s t id f -> on s' t id f.
Proof.
  induction n as [|n IH]; intros s b HI Ep; destruct (all_cb b s _ HI Ep) as (es & s1 & os & HR & HF & HI1 & P1 & R1 & R2 & R3 & R4 & R5).
  - assert (HS : step s1 SDone = Ok (set_pc AIdle s1) None) by (cbn; by rewrite P1).
    exists (es ++ [SDone]), (set_pc AIdle s1), (os ++ [None]). rewrite run_app, HR. cbn [run]. rewrite HS. split_and!; try done.
    + apply Forall_app. split; [done|]. by constructor.
    + exact (AI_step s1 SDone _ _ HI1 I HS).
  - pose proof (a_cnt _ _ _ _ HI1) as Hc. unfold owed in Hc. rewrite P1 in Hc.
    assert (HS : exists s2, step s1 (SGet 1) = Ok s2 None). { cbn. rewrite P1. unfold maxevent. rewrite decide_True; [eauto|]. lia. }
    destruct HS as [s2 HS]. pose proof (AI_step s1 (SGet 1) _ _ HI1 I HS) as HI2. cbn in HS. rewrite P1 in HS. case_decide as Hd; [|done].
    assert (HS' : step s1 (SGet 1) = Ok s2 None). { cbn. rewrite P1. rewrite decide_True by done. done. }
    injection HS as HS.
    destruct (IH s2 (take 1 (ring s1)) HI2) as (es2 & s3 & os2 & HR2 & HF2 & HI3 & P3 & T1 & T2 & T3 & T4). { rewrite <- HS. cbn. by rewrite Nat.sub_0_r. }
    exists (es ++ SGet 1 :: es2), s3, (os ++ None :: os2). rewrite run_app, HR. cbn [run]. rewrite HS', HR2. split_and!; try done.
    + apply Forall_app. split; [done|]. by constructor.
    + rewrite T1, <- HS. cbn. congruence.
    + rewrite T2, <- HS. cbn. congruence.
    + rewrite T3, <- HS. cbn. congruence.
    + intros t id f Ho. apply T4. rewrite <- HS. by apply R5.
Qed.
Lemma signals n : forall s, AI s -> unsig s = n -> exists es s' os, run step s es = Ok s' os /\ Forall by_loop es /\ AI s' /\ pc s' = pc s /\
  unsig s' = 0%nat /\ infl s' = infl s /\ forall t id f, on s t id f -> on s' t id f.
Proof.
  induction n as [|n IH]; intros s HI Hu; [exists [], s, []; by split_and!|].
  assert (HS : exists s1, step s KSignal = Ok s1 None /\ unsig s1 = n /\ pc s1 = pc s /\ infl s1 = infl s /\ fib s1 = fib s).
  { cbn. rewrite Hu. eexists. split; [done|]. done. }
  destruct HS as (s1 & HS & E1 & E2 & E3 & E4). pose proof (AI_step s KSignal _ _ HI I HS) as HI1.
  destruct (IH s1 HI1 E1) as (es & s' & os & HR & HF & HI' & P1 & P2 & P3 & P4).
  exists (KSignal :: es), s', (None :: os). cbn [run]. rewrite HS, HR. split_and!; try done; try congruence; [by constructor|].
  intros t id f Ho. apply P4. unfold on. rewrite E4. exact Ho.
Qed.
Lemma settle s : AI s -> infl s = [] -> exists es s' os, run step s es = Ok s' os /\ Forall by_loop es /\ AI s' /\ pc s' = AIdle /\
  (forall t id f, fib s' t <> FWait id f) /\ forall t id f, on s t id f -> on s' t id f.
Proof.
  intros HI Hi.
  assert (H1 : exists es s' os, run step s es = Ok s' os /\ Forall by_loop es /\ AI s' /\ pc s' = AIdle /\ infl s' = [] /\ forall t id f, on s t id f -> on s' t id f).
  { destruct (pc s) as [|n b] eqn:Ep; [exists [], s, []; by split_and!|].
    destruct (drain n s b HI Ep) as (es & s' & os & HR & HF & HI' & P & _ & _ & Q & R). exists es, s', os. split_and!; try done. congruence. }
  destruct H1 as (es1 & s1 & os1 & R1 & F1 & I1 & P1 & Q1 & O1).
  destruct (signals _ s1 I1 eq_refl) as (es2 & s2 & os2 & R2 & F2 & I2 & P2 & U2 & Q2 & O2).
  assert (H3 : exists es s' os, run step s2 es = Ok s' os /\ Forall by_loop es /\ AI s' /\ pc s' = AIdle /\ unsig s' = 0%nat /\ evfd s' = 0%nat /\ infl s' = [] /\ forall t id f, on s2 t id f -> on s' t id f).
  { destruct (evfd s2) as [|n] eqn:Ev; [exists [], s2, []; split_and!; try done; congruence|].
    assert (HS : exists s3, step s2 SRead = Ok s3 None /\ pc s3 = ADrain (S n) [] /\ unsig s3 = 0%nat /\ evfd s3 = 0%nat /\ infl s3 = [] /\ fib s3 = fib s2).
    { cbn. rewrite P2, P1, Ev. eexists. split; [done|]. cbn. split_and!; try done. congruence. }
    destruct HS as (s3 & HS & E1 & E2 & E3 & E4 & E5). pose proof (AI_step s2 SRead _ _ I2 I HS) as I3.
    destruct (drain _ s3 [] I3 E1) as (es & s' & os & HR & HF & HI' & P & T1 & T2 & T3 & T4).
    exists (SRead :: es), s', (None :: os). cbn [run]. rewrite HS, HR. split_and!; try done; try congruence; [by constructor|].
    intros t id f Ho. apply T4. unfold on. rewrite E5. exact Ho. }
  destruct H3 as (es3 & s3 & os3 & R3 & F3 & I3 & P3 & U3 & V3 & Q3 & O3).
  exists (es1 ++ es2 ++ es3), s3, (os1 ++ os2 ++ os3). rewrite run_app, R1, run_app, R2, R3. split_and!; try done.
  - apply Forall_app. split; [done|]. by apply Forall_app.
  - intros t id f H. destruct (a_wait _ _ _ _ I3 _ _ _ H) as [H1 _]. pose proof (a_cnt _ _ _ _ I3) as Hc. unfold owed in Hc. rewrite P3, U3, V3 in Hc.
    unfold toks, batch in H1. rewrite P3, Q3 in H1. destruct (ring s3); [|done]. by apply elem_of_nil in H1.
  - intros t id f Ho. by apply O3, O2, O1.
Qed.
Theorem C64_returns s t id f : reach s -> infl s = [] -> (fib s t = FWait id f \/ exists r, fib s t = FReady id f r) ->
  exists es s' os r bytes, run step s es = Ok s' os /\ Forall by_loop es /\ HRet id t f r bytes ∈ hist s'.
Proof.
  intros HR%reach_AI Hi Ho. destruct (settle s HR Hi) as (es & s1 & os & R1 & F1 & I1 & P1 & W1 & O1).
  destruct (O1 _ _ _ Ho) as [H|[r H]]; [by destruct (W1 t id f)|].
  assert (HS : exists s2 bytes, step s1 (AResume t) = Ok s2 (Some r) /\ HRet id t f r bytes ∈ hist s2).
  { cbn. rewrite P1, H. eexists _, _. split; [done|]. cbn. apply elem_of_app. right. by apply elem_of_list_singleton. }
  destruct HS as (s2 & bytes & HS & HH). exists (es ++ [AResume t]), s2, (os ++ [Some r]), r, bytes.
  rewrite run_app, R1. cbn [run]. rewrite HS. split_and!; try done. apply Forall_app. split; [done|]. by constructor.
Qed.

(** (sequential reading) On a file that is only read and does not change, the bytes returned since the last seek, put together, are the
    bytes of the file from that position on. *)
Definition seq1 (f : nat) (a : Z * list Z) (h : hev) : Z * list Z :=
  match h with
  | HSeek f' p => if decide (f' = f) then (p, []) else a
  | HRet _ _ f' _ b => if decide (f' = f) then (a.1, a.2 ++ b) else a
  | _ => a
  end.
Definition since_seek (f : nat) (h : list hev) : Z * list Z := fold_left (seq1 f) h (0, []).
Lemma contents_same f h : (forall id res before after, HExec id f res before after ∈ h -> after = before) ->
  (forall h1 h2 id res before after, h = h1 ++ HExec id f res before after :: h2 -> before = contents (c0 f) f h1) -> contents (c0 f) f h = c0 f.
Proof.
  induction h as [|x h IH] using rev_ind; intros H1 H2; [done|].
  rewrite contents_snoc. assert (E : contents (c0 f) f h = c0 f).
  { apply IH. - intros id res bf af H. eapply (H1 id res). apply elem_of_app. by left.
    - intros h1 h2 id res bf af ->. apply (H2 h1 (h2 ++ [x]) id res bf af). by rewrite <- app_assoc. }
  destruct x; cbn; try done. case_decide as Hf; [|done]. subst. pose proof (H2 h [] _ _ _ _ eq_refl) as Hb.
  rewrite (H1 id res before after); [congruence|]. apply elem_of_app. right. by apply elem_of_list_singleton.
Qed.
Theorem C64_sequential s f : reach s ->
  (forall id t wr off len dir acc, HCall id t f wr off len dir acc ∈ hist s -> wr = None) ->
  (forall id res before after, HExec id f res before after ∈ hist s -> after = before) ->
  let '(start, bytes) := since_seek f (hist s) in
  bytes = slice (c0 f) start (Z.of_nat (length bytes)) /\ pos f (hist s) = start + Z.of_nat (length bytes).
Proof.
  intros HR%reach_AI Hrd Hsame.
  assert (Hb : forall id res before after, HExec id f res before after ∈ hist s -> before = c0 f).
  { intros id res bf af H. apply elem_of_list_split in H as (h1 & h2 & E). rewrite (a_hexec _ _ _ _ HR _ _ _ _ _ _ _ E).
    apply contents_same.
    - intros id' res' bf' af' H. eapply (Hsame id' res'). rewrite E. apply elem_of_app. by left.
    - intros h3 h4 id' res' bf' af' ->. eapply (a_hexec _ _ _ _ HR). rewrite E, <- app_assoc. done. }
  assert (Hpre : forall h, h `prefix_of` hist s -> let '(start, bytes) := since_seek f h in
    bytes = slice (c0 f) start (Z.of_nat (length bytes)) /\ pos f h = start + Z.of_nat (length bytes) /\ (bytes <> [] -> 0 <= start)).
  { intros h. induction h as [|x h IH] using rev_ind; intros [h2 Hh]; [done|].
    assert (Hp : h `prefix_of` hist s). { exists (x :: h2). by rewrite Hh, <- app_assoc. } specialize (IH Hp).
    unfold since_seek in *. rewrite fold_left_app. cbn [fold_left]. destruct (fold_left (seq1 f) h (0, [])) as [start bytes] eqn:Ef.
    destruct IH as (IH1 & IH2 & IH3). rewrite pos_snoc. destruct x as [| |id t f' r b|f' p]; cbn; try (split_and!; done).
    - case_decide as Hf; [|by split_and!]. subst f'. rewrite <- app_assoc in Hh. cbn in Hh.
      destruct (a_hret _ _ _ _ HR _ _ _ _ _ _ _ Hh) as (wr & len & dir & Hm).
      assert (Hin : HRet id t f r b ∈ hist s). { rewrite Hh. apply elem_of_app. right. apply elem_of_cons. by left. }
      destruct (a_ret _ _ _ _ HR _ _ _ _ _ Hin) as (wr2 & off2 & len2 & dir2 & res & bf & af & M1 & M2 & _ & (_ & _ & M3)).
      destruct (AI_uniq _ _ _ _ _ _ _ _ _ _ _ _ _ _ _ _ _ HR Hm M1) as (_ & _ & -> & -> & -> & ->).
      assert (wr = None) as -> by (by eapply Hrd). destruct (M3 eq_refl) as [M4 M5]. rewrite app_length.
      destruct (Z.lt_ge_cases 0 r) as [Hr|Hr].
      + destruct (M5 Hr) as [M6 M7]. rewrite (Hb _ _ _ _ M2) in M7.
        assert (Hs : 0 <= start). { destruct bytes; [cbn in IH2; lia|by apply IH3]. }
        split_and!; [|lia|done]. rewrite IH1 at 1. rewrite M7 at 1. rewrite IH2. unfold slice. replace (Z.to_nat (start + Z.of_nat (length bytes))) with (Z.to_nat start + length bytes)%nat by lia.
        rewrite <- drop_drop, !Nat2Z.id. replace (Z.to_nat r) with (length b) by lia. symmetry. by rewrite <- take_take_drop.
      + assert (b = []) as -> by (destruct b; [done|cbn in M4; lia]). rewrite app_nil_r. cbn. rewrite Nat.add_0_r. split_and!; [done|lia|done].
    - case_decide as Hf; [|by split_and!]. cbn. split_and!; [done|lia|done]. }
  specialize (Hpre (hist s) (reflexivity _)). destruct (since_seek f (hist s)). tauto.
Qed.
End props.
Print Assumptions C64_safe_partial.
Print Assumptions C64_once.
Print Assumptions C64_result.
Print Assumptions C64_position.
Print Assumptions C64_tell.
Print Assumptions C64_contents.
Print Assumptions C64_wakeup.
Print Assumptions C64_no_spin.
Print Assumptions C64_returns.
Print Assumptions C64_sequential.

(** * Concrete cases *)
(** a checker for [keeps] for programs with the fibers [L] *)
Section check.
Context (A : Z) (nd : bool) (L : list nat).
Definition busyb (s : sys) (f : nat) : bool :=
  existsb (λ t, match fib s t with FWait _ f' | FReady _ f' _ => bool_decide (f' = f) | FRun => false end) L.
Definition dutyb (s : sys) (e : aev) : bool :=
  match e with
  | ARead t f len al ok => bool_decide (t ∈ L) && negb (busyb s f) && (nd || negb (fdir (fls s f)) || al)
  | AWrite t f d al ok => bool_decide (t ∈ L) && negb (busyb s f) && (nd || negb (fdir (fls s f)) || (al && (foff (fls s f) =? aup A (foff (fls s f)))))
  | ASeek t f _ _ | ADirect t f _ _ => negb (busyb s f)
  | KExec i k => match infl s !! i with Some o => nd || negb (fdir (fls s (i_file o))) || (fdoff (fls s (i_file o)) <? Z.of_nat k) | None => true end
  | KFail i _ => match infl s !! i with Some o => nd || negb (fdir (fls s (i_file o))) | None => true end
  | _ => true
  end.
Fixpoint keepsb (s : sys) (es : list aev) : bool :=
  match es with
  | [] => true
  | e :: es => dutyb s e && match astep A nd s e with Ok s' _ => keepsb s' es | _ => true end
  end.
Definition only (s : sys) : Prop := forall t, t ∉ L -> fib s t = FRun.
Lemma busyb_sound s f : only s -> busyb s f = false -> ~ busy s f.
Proof.
  intros HO HB (t & id & H). assert (Hin : t ∈ L). { destruct (decide (t ∈ L)) as [|Hn]; [done|]. rewrite (HO t Hn) in H. by destruct H as [|[]]. }
  assert (E : busyb s f = true).
  { apply existsb_exists. exists t. split; [by apply elem_of_list_In|]. destruct H as [->|[r ->]]; by apply bool_decide_eq_true. }
  congruence.
Qed.
Lemma dutyb_sound s e : only s -> dutyb s e = true -> duty A nd s e.
Proof.
  intros HO HB. destruct e; cbn in *; try done.
  - apply andb_true_iff in HB as [HB HC]. apply andb_true_iff in HB as [_ HB]. split; [apply busyb_sound; [done|by apply negb_true_iff]|].
    intros Hn Hd. rewrite Hn, Hd in HC. by destruct al.
  - apply andb_true_iff in HB as [HB HC]. apply andb_true_iff in HB as [_ HB]. split; [apply busyb_sound; [done|by apply negb_true_iff]|].
    intros Hn Hd. rewrite Hn, Hd in HC. cbn in HC. apply andb_true_iff in HC as [-> HC]. split; [done|by apply Z.eqb_eq].
  - apply busyb_sound; [done|by apply negb_true_iff].
  - apply busyb_sound; [done|by apply negb_true_iff].
  - intros o Ho Hn Hd. rewrite Ho, Hn, Hd in HB. by apply Z.ltb_lt.
  - intros o Ho Hn. rewrite Ho, Hn in HB. cbn in HB. by apply negb_true_iff.
Qed.
Lemma only_upd s t v : t ∈ L -> only s -> forall t', t' ∉ L -> upd (fib s) t v t' = FRun.
Proof. intros Ht HO t' Hn. rewrite upd_ne; [by apply HO|]. by intros ->. Qed.
Lemma only_step s e s' o : only s -> dutyb s e = true -> astep A nd s e = Ok s' o -> only s'.
Proof.
  intros HO HB HS. destruct e; cbn in HS, HB.
  - apply andb_true_iff in HB as [HB _]. apply andb_true_iff in HB as [HB _]. apply bool_decide_eq_true in HB.
    destruct (pc s); [|done]. destruct (fib s t); try done. destruct (fdir (fls s f)).
    + destruct (negb nd && negb al); [done|]. injection HS as <- _. destruct ok; [|done]. unfold only. cbn. by apply only_upd.
    + injection HS as <- _. destruct ok; [|done]. unfold only. cbn. by apply only_upd.
  - apply andb_true_iff in HB as [HB _]. apply andb_true_iff in HB as [HB _]. apply bool_decide_eq_true in HB.
    destruct (pc s); [|done]. destruct (fib s t); try done. destruct (fdir (fls s f)).
    + destruct (negb nd && _); [done|]. injection HS as <- _. destruct ok; [|done]. unfold only. cbn. by apply only_upd.
    + injection HS as <- _. destruct ok; [|done]. unfold only. cbn. by apply only_upd.
  - destruct (pc s); [|done]. destruct (fib s t); try done. destruct p; by injection HS as <- _.
  - destruct (pc s); [|done]. destruct (fib s t); try done. by injection HS as <- _.
  - destruct (pc s); [|done]. destruct (fib s t); try done. destruct ok; by injection HS as <- _.
  - destruct (pc s); [|done]. destruct (fib s t) eqn:Et; try done. injection HS as <- _. unfold only. cbn. intros t' Hn.
    destruct (decide (t' = t)) as [->|Ht]; [by rewrite upd_eq|rewrite upd_ne; [by apply HO|done]].
  - clear HB. destruct (infl s !! i); [|done]. destruct (negb _); [done|]. destruct (i_wr i0); [by injection HS as <- _|]. case_decide; [|done]. by injection HS as <- _.
  - destruct (infl s !! i); [|done]. destruct (0 <? err); [|done]. by injection HS as <- _.
  - destruct (unsig s); [done|]. by injection HS as <- _.
  - destruct (pc s); [|done]. destruct (evfd s); [done|]. by injection HS as <- _.
  - destruct (pc s) as [|[] []]; try done. case_decide; [|done]. by injection HS as <- _.
  - destruct (pc s) as [|[] []]; try done. by injection HS as <- _.
  - destruct (pc s) as [|n [|c b]]; try done. destruct (adj_res _ _ _); [|done]. destruct (fib s (fdata (fls s (c_file c)))) eqn:E; try done. injection HS as <- _.
    unfold only. cbn. apply only_upd; [|done]. destruct (decide (fdata (fls s (c_file c)) ∈ L)) as [|Hn]; [done|]. by rewrite (HO _ Hn) in E.
  - destruct (pc s) as [|[] []]; try done. by injection HS as <- _.
Qed.
Lemma keepsb_sound es : forall s, only s -> keepsb s es = true -> keeps A nd s es.
Proof.
  induction es as [|e es IH]; intros s HO HB; cbn in *; [done|]. apply andb_true_iff in HB as [HB HC]. split; [by apply dutyb_sound|].
  destruct (astep A nd s e) as [| |s1 o] eqn:E; try done. apply IH; [|done]. by eapply only_step.
Qed.
End check.
(** two fibers, two files: file 7 holds 1..6 and is read by fiber 1 in pieces, with a failed submit, a short read, the end of the file
    and a seek; file 8 is written by fiber 2; completions arrive out of order and are taken together *)
Definition demo_files (f : nat) : list Z := if decide (f = 7%nat) then [1; 2; 3; 4; 5; 6] else [].
Definition demo_aio : list aev :=
  [ARead 1 7 4 true true; AWrite 2 8 [10; 11; 12] true true; KExec 1 3; KExec 0 3; KSignal; KSignal; SRead; SGetNone; SGet 2; SCb; SCb; SDone;
   AResume 2; AResume 1; ATell 1 7; ARead 1 7 4 true false; ARead 1 7 4 true true; KExec 0 3; KSignal; SRead; SGet 1; SCb; SDone; AResume 1;
   ARead 1 7 4 true true; AWrite 2 8 [13] true true; KFail 1 28; KExec 0 0; KSignal; SRead; SGet 1; SCb; SDone; KSignal; SRead; SGet 1; SCb; SDone; AResume 1; AResume 2;
   ASeek 1 7 seekBegin 1; ARead 1 7 2 true true; KExec 0 2; KSignal; SRead; SGet 1; SCb; SDone; AResume 1].
Example C64_demo_keeps : keeps (2 ^ 9) false (ainit demo_files) demo_aio.
Proof. apply (keepsb_sound _ _ [1; 2]%nat); [done|]. vm_compute. done. Qed.
Example C64_demo : match run (astep (2 ^ 9) false) (ainit demo_files) demo_aio with
  | Ok s os => omap (λ h, match h with HRet id t _ r b => Some (id, t, r, b) | _ => None end) (hist s) =
      [(1%nat, 2%nat, 3, []); (0%nat, 1%nat, 3, [1; 2; 3]); (3%nat, 1%nat, 3, [4; 5; 6]); (4%nat, 1%nat, 0, []); (5%nat, 2%nat, -28, []); (6%nat, 1%nat, 2, [2; 3])] /\
      cont s 8 = [10; 11; 12] /\ since_seek 7 (hist s) = (1, [2; 3]) /\ pos 8 (hist s) = 3
  | _ => False end.
Proof. vm_compute. done. Qed.
(** direct reading of a file of 20 bytes with blocks of 8, from position 3 *)
Definition demo_direct : list aev :=
  [ADirect 1 7 true true; ASeek 1 7 seekBegin 3; ARead 1 7 9 true true; KExec 0 16; KSignal; SRead; SGet 1; SCb; SDone; AResume 1;
   ARead 1 7 8 true true; KExec 0 8; KSignal; SRead; SGet 1; SCb; SDone; AResume 1].
Definition bytes20 (f : nat) : list Z := Z.of_nat <$> seq 0 20.
Example C64_direct_keeps : keeps (2 ^ 3) false (ainit bytes20) demo_direct.
Proof. apply (keepsb_sound _ _ [1]%nat); [done|]. vm_compute. done. Qed.
Example C64_direct_demo : match run (astep (2 ^ 3) false) (ainit bytes20) demo_direct with
  | Ok s os => omap (λ h, match h with HRet id t _ r b => Some (id, r, b) | _ => None end) (hist s) =
      [(0%nat, 9, [3; 4; 5; 6; 7; 8; 9; 10; 11]); (1%nat, 4, [12; 13; 14; 15])]
  | _ => False end.
Proof. vm_compute. done. Qed.

(** * Refuted: the claim without its conditions *)
(** with assertions compiled in, a direct read at the end of the file aborts the process: assert(got > direct_io_offset) *)
Theorem C64_direct_eof_refuted : run (astep (2 ^ 9) false) (ainit (λ _, [1; 2; 3]))
  [ADirect 1 7 true true; ARead 1 7 512 true true; KExec 0 3; KSignal; SRead; SGet 1; SCb; SDone; AResume 1;
   ARead 1 7 512 true true; KExec 0 3; KSignal; SRead; SGet 1; SCb] = Crash.
Proof. vm_compute. done. Qed.
(** and so does an I/O error *)
Theorem C64_direct_error_refuted : run (astep (2 ^ 9) false) (ainit (λ _, []))
  [ADirect 1 7 true true; ARead 1 7 512 true true; KFail 0 5; KSignal; SRead; SGet 1; SCb] = Crash.
Proof. vm_compute. done. Qed.
(** two fibers reading one file handle at a time: the first is never woken, the second twice *)
Theorem C64_shared_refuted : exists s os, run (astep (2 ^ 9) true) (ainit demo_files)
  [ARead 1 7 2 true true; ARead 2 7 2 true true; KExec 0 2; KExec 0 2; KSignal; KSignal; SRead; SGet 2; SCb] = Ok s os /\
  fib s 1 = FWait 0 7 /\ fib s 2 = FReady 1 7 2 /\ astep (2 ^ 9) true s SCb = Crash.
Proof. eexists _, _. split; [vm_compute; reflexivity|]. split_and!; vm_compute; done. Qed.
(** with 64 KiB blocks (int16_t) of the gap is negative: the kernel is asked for another place of the file *)
Theorem C64_block64k_refuted : exists s os, run (astep (2 ^ 16) true) (ainit demo_files)
  [ADirect 1 7 true true; ASeek 1 7 seekBegin 40000; ARead 1 7 2 true true] = Ok s os /\
  i_off <$> infl s = [65536] /\ gap (2 ^ 16) None 40000 true = 40000.
Proof. eexists _, _. split; [vm_compute; reflexivity|]. split; vm_compute; done. Qed.
Print Assumptions C64_direct_eof_refuted.
Print Assumptions C64_direct_error_refuted.
Print Assumptions C64_shared_refuted.
Print Assumptions C64_block64k_refuted.
