(** C59: the theorems.  Specification: the first part of SslBioProps.v (about the history only) and the definitions here. *)
From Verif Require Export SslBioProps.
From Verif Require Import SslBioProof.
From Coq Require Import ZifyBool ZifyNat.
Local Open Scope Z_scope.

(** request k has been made and its callback has not been called *)
Definition open_w (h : list obs) (k : nat) : Prop := k ∈ omap callw h /\ k ∉ omap resw h.
Definition open_r (h : list obs) (k : nat) : Prop := k ∈ omap callr h /\ k ∉ omap resr h.
(** ciphertext made but not taken by the kernel *)
Definition unsent (h : list obs) : nat := (length (gen h) - length (sent h))%nat.
(** runs in which the engine writes nothing while a write that produced no ciphertext waits on the ready list, and no error event comes then *)
Definition cstep (s : st) (e : ev) : res st unit := if calm s e then step s e else Disabled.

Lemma inv_run n es s os : (1 <= n)%nat -> run step (init n) es = Ok s os -> Inv n s.
Proof.
  intros Hn. apply (run_inv step (Inv n)); [|by apply init_inv]. intros s0 e s' o I E. pose proof (step_all n s0 e I) as H. rewrite E in H. apply H.
Qed.
Lemma cinv_run n es s os : (1 <= n)%nat -> run cstep (init n) es = Ok s os -> Inv n s /\ Quiet s.
Proof.
  intros Hn. apply (run_inv cstep (λ s, Inv n s /\ Quiet s)); [|by apply init_inv]. intros s0 e s' o [I Q]. unfold cstep.
  destruct (calm s0 e) eqn:Hc; [|done]. intros E. pose proof (step_all n s0 e I) as H. rewrite E in H. destruct H as [H1 H2]. auto.
Qed.
Lemma crun_run es : forall s s' os, run cstep s es = Ok s' os -> run step s es = Ok s' os.
Proof.
  induction es as [|e es IH]; intros s s' os; cbn; [done|]. unfold cstep at 1. destruct (calm s e); [|done]. destruct (step s e) as [| |s1 o]; try done.
  destruct (run cstep s1 es) as [| |s2 os2] eqn:E; try done. by rewrite (IH _ _ _ E).
Qed.
Lemma inv_open_w n s k : Inv n s -> open_w (hist s) k <-> wk s = Some k.
Proof. intros [F _]. symmetry. apply (t_o _ _ _ _ (f_tw _ _ _ _ F)). Qed.
Lemma inv_open_r n s k : Inv n s -> open_r (hist s) k <-> rk s = Some k.
Proof. intros [F _]. symmetry. apply (t_o _ _ _ _ (f_tr _ _ _ _ F)). Qed.

(** ** the two byte streams *)
(** what the kernel takes is what the engine made, in order, nothing lost, doubled or changed; every piece continues the stream *)
Theorem C59_out_stream n es s os : (1 <= n)%nat -> run step (init n) es = Ok s os ->
  sent (hist s) `prefix_of` gen (hist s) /\
  forall h1 bs h2, hist s = h1 ++ Sent bs :: h2 -> bs <> [] /\ exists rest, gen h1 = sent h1 ++ bs ++ rest.
Proof.
  intros Hn H. destruct (inv_run n es s os Hn H) as [F _]. split.
  - destruct (f_w _ _ _ _ F) as (q & bss & _ & _ & _ & ->). by eexists.
  - intros h1 bs h2 E. exact (f_h _ _ _ _ F _ _ _ E).
Qed.
(** the engine gets what the kernel delivered, in order: exactly as many bytes as it asks for or all there are; "try again" and
    end of file only when everything delivered was eaten; end of file only after the socket's; new data is fetched only then too *)
Theorem C59_in_stream n es s os : (1 <= n)%nat -> run step (init n) es = Ok s os ->
  eaten (hist s) `prefix_of` recvd (hist s) /\
  forall h1 o h2, hist s = h1 ++ o :: h2 ->
    match o with
    | Eat m bs => bs <> [] /\ length bs = Nat.min m (length (recvd h1) - length (eaten h1)) /\ (eaten h1 ++ bs) `prefix_of` recvd h1
    | Retry m => m = 0%nat \/ recvd h1 = eaten h1 /\ ~ ended h1
    | Eof m => ended h1 /\ (m = 0%nat \/ recvd h1 = eaten h1)
    | Recv bs => recvd h1 = eaten h1 /\ (1 <= length bs <= n)%nat
    | _ => True
    end.
Proof.
  intros Hn H. destruct (inv_run n es s os Hn H) as [F _]. split.
  - destruct (f_r _ _ _ _ F) as (q & bss & _ & _ & _ & ->). by eexists.
  - intros h1 o h2 E. pose proof (f_h _ _ _ _ F _ _ _ E) as G. destruct o; try done. cbn in G. destruct G as (G1 & G2 & rest & G3 & G4).
    split_and!; [done| |].
    + rewrite G3, !app_length. destruct G4 as [<-| ->]; cbn; lia.
    + rewrite G3. exists rest. by rewrite app_assoc.
Qed.
(** ** the results *)
(** a callback of a write gets the number of bytes the engine took for that write, and everything the engine had made until then
    has been taken by the kernel; or the value <= 0 with which the socket write failed *)
Theorem C59_write_result n es s os h1 k v h2 : (1 <= n)%nat -> run step (init n) es = Ok s os -> hist s = h1 ++ ResW k v :: h2 ->
  open_w h1 k /\ (v <= 0 /\ (exists h0, h1 = h0 ++ [SendFail v]) \/ exists ha hb, h1 = ha ++ Acc k v :: hb /\ gen ha `prefix_of` sent h1).
Proof.
  intros Hn H E. destruct (inv_run n es s os Hn H) as [F _]. destruct (f_h _ _ _ _ F _ _ _ E) as (? & ? & ?). by split.
Qed.
(** a callback of a read gets what SSL_read just returned for it *)
Theorem C59_read_result n es s os h1 k v h2 : (1 <= n)%nat -> run step (init n) es = Ok s os -> hist s = h1 ++ ResR k v :: h2 ->
  open_r h1 k /\ exists h0, h1 = h0 ++ [Took k v].
Proof.
  intros Hn H E. destruct (inv_run n es s os Hn H) as [F _]. destruct (f_h _ _ _ _ F _ _ _ E) as (? & ? & ?). by split.
Qed.
(** each request gets at most one result, and only requests get results; a timeout is told only to a waiting read *)
Theorem C59_once n es s os : (1 <= n)%nat -> run step (init n) es = Ok s os ->
  NoDup (omap resw (hist s)) /\ NoDup (omap resr (hist s)) /\
  (forall k, k ∈ omap resw (hist s) -> k ∈ omap callw (hist s)) /\ (forall k, k ∈ omap resr (hist s) -> k ∈ omap callr (hist s)) /\
  forall h1 k h2, hist s = h1 ++ TmoR k :: h2 -> open_r h1 k.
Proof.
  intros Hn H. destruct (inv_run n es s os Hn H) as [F _]. pose proof (f_tw _ _ _ _ F) as Tw. pose proof (f_tr _ _ _ _ F) as Tr.
  split_and!; [apply Tw|apply Tr|apply Tw|apply Tr|]. intros h1 k h2 E. exact (f_h _ _ _ _ F _ _ _ E).
Qed.
(** every kssl_bio_buffer object belongs to an outstanding request: at most one each, none when nothing is outstanding *)
Theorem C59_no_leak n es s os : (1 <= n)%nat -> run step (init n) es = Ok s os ->
  exists a b, nbuf s = (a + b)%nat /\ (a <= 1)%nat /\ (b <= 1)%nat /\ (a = 1%nat -> exists k, open_r (hist s) k) /\ (b = 1%nat -> exists k, open_w (hist s) k).
Proof.
  intros Hn H. pose proof (inv_run n es s os Hn H) as I. exists (rnum s), (wnum s). split; [apply I|]. unfold rnum, wnum. split_and!.
  - destruct (rd s); lia.
  - destruct (wr s); lia.
  - intros E. destruct (rd s) eqn:Er; try done. exists (rbio s).1. apply (inv_open_r n s _ I). unfold rk. by rewrite Er.
  - intros E. destruct (wr s) eqn:Er; try done. exists (wbio s). apply (inv_open_w n s _ I). unfold wk. by rewrite Er.
Qed.
(** ** no assertion fails, as long as the engine writes nothing while an empty write waits on the ready list and no error event comes
    then.  Missing: without these conditions it is false (C59_alert_refuted, C59_err_refuted) *)
Theorem C59_safe_partial n : (1 <= n)%nat -> safe cstep (init n).
Proof.
  intros Hn. apply (safe_inv cstep (λ s, Inv n s /\ Quiet s)); [by apply init_inv| |].
  - intros s0 e s' o [I Q]. unfold cstep. destruct (calm s0 e) eqn:Hc; [|done]. intros E. pose proof (step_all n s0 e I) as H. rewrite E in H. destruct H as [H1 H2]. auto.
  - intros s0 e [I Q]. unfold cstep. destruct (calm s0 e) eqn:Hc; [|done]. intros E. pose proof (step_all n s0 e I) as H. rewrite E in H. by destruct H.
Qed.

(** the history only grows *)
Definition grows (s s' : st) : Prop := exists t, hist s' = hist s ++ t.
Lemma grows_refl s : grows s s.
Proof. exists []. by rewrite app_nil_r. Qed.
Lemma grows_trans a b c : grows a b -> grows b c -> grows a c.
Proof. intros [x E1] [y E2]. exists (x ++ y). by rewrite E2, E1, app_assoc. Qed.
Lemma grows_log s o : grows s (log s o).
Proof. by exists o. Qed.
Lemma grows_eq a b s' : hist a = hist b -> grows a s' -> grows b s'.
Proof. unfold grows. by intros ->. Qed.
Lemma grows_engine p : forall s s', engine s p = Some s' -> grows s s'.
Proof.
  induction p as [|[m|bs] p IH]; intros s s'; cbn [engine]; [intros [= <-]; apply grows_refl| |].
  - unfold bio_read. destruct (krw_read _ _ _ _) as [[b got]|]; [|done]. cbn [mbind option_bind]. intros E%IH. eapply grows_trans; [|exact E]. by eexists.
  - unfold bio_write. destruct (krw_write_str _ _ _) as [b|]; [|done]. cbn [mbind option_bind]. intros E%IH. eapply grows_trans; [|exact E]. by eexists.
Qed.
Lemma grows_ssl_read s k b s' : ssl_read s k b = Some s' -> grows s s'.
Proof.
  unfold ssl_read. cbv zeta. destruct (decide _).
  - destruct (guard_b _); [|done]. cbn [mbind option_bind]. intros [= <-]. by exists []; rewrite app_nil_r.
  - destruct (krw_get_write_buffer _) as [[[x w] len]|]; [|done]. cbn [mbind option_bind]. intros [= <-]. by exists []; rewrite app_nil_r.
Qed.
Lemma grows_event_read s k b p v a s' : event_read s k b p v a = Some s' -> grows s s'.
Proof.
  unfold event_read. destruct b; cbn [negb]; [|intros [= <-]; by eexists]. destruct (engine s p) as [s1|] eqn:E; [|done]. cbn [mbind option_bind]. cbv zeta.
  apply grows_engine in E. intros E2. eapply grows_trans; [exact E|]. destruct (decide _); [injection E2 as <-; rewrite log_log; by eexists|].
  destruct a; [|injection E2 as <-; rewrite log_log; by eexists]. eapply grows_trans; [|by eapply grows_ssl_read]. by eexists.
Qed.
Lemma grows_ssl_write s k b p v s' : ssl_write s k b p v = Some s' -> grows s s'.
Proof.
  unfold ssl_write. destruct (if b then _ else _) as [s1|] eqn:E; [|done]. cbn [mbind option_bind]. cbv zeta. intros E2.
  assert (grows s s1) as G. { destruct b; [|injection E as <-; exists []; by rewrite app_nil_r]. destruct (engine s p) as [s2|] eqn:E3; [|done]. cbn in E. injection E as <-. by apply grows_engine in E3. }
  eapply grows_trans; [exact G|]. destruct (decide _); [injection E2 as <-; by eexists|]. destruct (read_iovs _ _); [|done]. cbn in E2. injection E2 as <-. by eexists.
Qed.
Lemma grows_step s e s' o : step s e = Ok s' o -> grows s s'.
Proof.
  destruct e as [b pend|b p v|p|c p v again|c| |p v again| |]; cbn [step].
  - destruct (rd s); [|done..]. cbv zeta. destruct pend; [intros [= <- <-]; by eexists|]. destruct (ssl_read _ _ _) eqn:E; [|done]. intros [= <- <-].
    apply grows_ssl_read in E. eapply grows_trans; [|exact E]. by eexists.
  - destruct (wr s); [|done..]. cbv zeta. destruct (stale s); [done|]. destruct (ssl_write _ _ _ _ _) eqn:E; [|done]. intros [= <- <-].
    apply grows_ssl_write in E. eapply grows_trans; [|exact E]. by eexists.
  - destruct (engine s p) eqn:E; [|done]. intros [= <- <-]. by apply grows_engine in E.
  - destruct (rd s) as [| |w len]; [done..|]. cbv zeta. destruct c as [bs|r]; (destruct (decide _); [|done]).
    + destruct (poke _ _ _) as [x|]; [|done]. cbn [mbind option_bind]. destruct (krw_write_success _ _) as [y|]; [|done]. cbn [mbind option_bind].
      destruct (event_read _ _ _ _ _ _) eqn:E; [|done]. intros [= <- <-]. apply grows_event_read in E. eapply grows_trans; [|exact E]. by eexists.
    + destruct (event_read _ _ _ _ _ _) eqn:E; [|done]. intros [= <- <-]. apply grows_event_read in E. eapply grows_trans; [|exact E]. by eexists.
  - destruct (wr s) as [| |v]; [done..|]. cbv zeta. destruct c as [m|r].
    + destruct (mapM _ _) as [l|]; [|done]. destruct (decide _); [|done]. destruct (krw_read_success _ _) as [[x more]|]; [|done]. cbn [mbind option_bind].
      destruct more; [destruct (read_iovs _ _); [|done]; cbn|]; intros [= <- <-]; cbn; [by eexists|]. unfold grows; cbn. rewrite <- app_assoc. by eexists.
    + destruct (decide _); [|done]. intros [= <- <-]. by eexists.
  - destruct (rd s); [done..|]. intros [= <- <-]. by eexists.
  - destruct (rd s); [done| |done]. destruct (event_read _ _ _ _ _ _) eqn:E; [|done]. intros [= <- <-]. apply grows_event_read in E. done.
  - destruct (wr s) as [|k b|]; [done| |done]. cbv zeta. destruct b; [destruct (decide _); [|done]|]; intros [= <- <-]; by eexists.
  - destruct (wr s); [done| |done]. intros [= <- <-]. by eexists.
Qed.
Lemma grows_run es : forall s s' os, run step s es = Ok s' os -> grows s s'.
Proof.
  induction es as [|e es IH]; intros s s' os; cbn; [intros [= <- <-]; apply grows_refl|]. destruct (step s e) as [| |s1 o] eqn:E1; try done.
  destruct (run step s1 es) as [| |s2 os2] eqn:E2; try done. intros [= <- <-]. eapply grows_trans; [by eapply grows_step|by eapply IH].
Qed.

(** ** progress *)
(** an outstanding write: either the ready list ends it; or the kernel may take any number m <= N of bytes, N >= 1: the write ends if
    these were the last ones, otherwise it stays outstanding *)
Theorem C59_write_progress n es s os k : (1 <= n)%nat -> run cstep (init n) es = Ok s os -> open_w (hist s) k ->
  (exists s' v, cstep s RunW = Ok s' () /\ hist s' = hist s ++ [ResW k v]) \/
  exists N, (1 <= N <= unsent (hist s))%nat /\ (forall m, (1 <= m <= N)%nat -> exists s' bs,
    cstep s (SockW (WTake m)) = Ok s' () /\ length bs = m /\
    (m = unsent (hist s) /\ (exists v, hist s' = hist s ++ [Sent bs; ResW k v]) \/ (m < unsent (hist s))%nat /\ hist s' = hist s ++ [Sent bs])) /\
    forall m, ~ (1 <= m <= N)%nat -> cstep s (SockW (WTake m)) = Disabled.
Proof.
  intros Hn H Ho. destruct (cinv_run n es s os Hn H) as [I Q]. apply (inv_open_w n s k I) in Ho. destruct I as [F Nb]. unfold wk in Ho.
  destruct (wr s) as [|j b|iv] eqn:Hwr; [done| |]; injection Ho as <-.
  - left. unfold cstep, calm. rewrite Hwr. cbn [step]. rewrite Hwr. destruct b.
    + rewrite decide_True; [by eexists _, _|]. by apply (proj2 Q j).
    + by eexists _, _.
  - right. pose proof F as [F1 F2 F3 F4 F5 F6 F7 F8 F9 F10]. rewrite Hwr in F6. destruct F6 as (l & rest & HF & Hg & Hne).
    destruct F2 as (q & bss & HR & Hb & Hcs & Hq). rewrite Hg in Hq. apply app_inv_head in Hq.
    assert (unsent (hist s) = length q) as Hu by (unfold unsent; rewrite Hg, app_length, Hq; lia).
    assert (length (concat l) <= length q)%nat as Hle by (rewrite <- Hq, app_length; lia).
    exists (length (concat l)). split.
    { rewrite Hu. destruct (concat l); [done|]. cbn in *. lia. }
    split; intros m Hm; unfold cstep, calm; rewrite Hwr; cbn [step]; rewrite Hwr; cbv zeta; change (wb (set_wr s WNone)) with (wb s); rewrite (iovs_mapM _ _ _ HF);
      [rewrite decide_True by done|by rewrite decide_False].
    assert (ch (wb s) <> []) as Hch by (eapply R_nil_ch; [exact HR|]; rewrite <- Hq; intros E; apply app_eq_nil in E as [E _]; done).
    destruct (read_success_ok (wb s) q bss m HR Hch) as (b1 & more & bss1 & E1 & HR1 & Hc1 & Hmore & (pb & Hpb) & _); [lia|].
    rewrite E1. cbn [mbind option_bind]. cbv zeta. rewrite Hu.
    assert ([] ∉ bss1) as Hb1 by (intros Hin; apply Hb; rewrite Hpb; apply elem_of_app; by right).
    destruct more.
    + assert (drop m q <> []) as Hdn.
      { assert (ch b1 <> []) as Hcb by (by apply Hmore). intros E. rewrite E in HR1. destruct HR1 as (_ & _ & _ & HF1 & _ & [(? & _)|(off & h & l' & pre & Hh & _ & _ & Hz & Ho & _)]); [done|].
        destruct bss1 as [|y bss1]; [by apply Forall2_nil_inv_r in HF1|]. apply Forall2_cons_inv_r in HF1 as (c0 & cs & Hck & _ & Hcc). rewrite Hcc in Hh. cbn in Hh. injection Hh as ->.
        apply (f_equal length) in Hz. rewrite drop_length in Hz. cbn in Hz. rewrite app_length in Hz. destruct Hck as [Hck _].
        assert (y <> []) as Hy by (intros ->; apply Hb1; left). destruct y; [done|]. cbn in *. lia. }
      destruct (read_iovs_ok b1 (drop m q) bss1 62 HR1 Hdn Hb1) as (iv2 & l2 & Ei & _).
      cbn [wb log set_wb]. unfold iov_count. rewrite Ei. cbn [mbind option_bind opt]. eexists _, (take m (concat l)). split; [reflexivity|]. split; [rewrite take_length; lia|].
      right. split; [|done]. destruct (decide (m < length q)%nat) as [|Hnl]; [done|]. exfalso. apply Hdn. apply drop_ge. lia.
    + assert (drop m q = []) as Hdn.
      { assert (ch b1 = []) as Hcb by (destruct (ch b1) eqn:E; [done|]; exfalso; assert (false = true) by (by apply Hmore); done).
        destruct HR1 as (_ & _ & _ & _ & _ & [(_ & _ & _ & _ & ?)|(off & h & l' & pre & Hh & _)]); [done|]. by rewrite Hcb in Hh. }
      cbn [opt]. eexists _, (take m (concat l)). split; [reflexivity|]. split; [rewrite take_length; lia|]. left. split.
      * apply (f_equal length) in Hdn. rewrite drop_length in Hdn. cbn in Hdn. lia.
      * eexists. cbn [hist log set_nbuf set_wb set_wr]. by rewrite <- app_assoc.
Qed.
(** every socket completion takes at least one byte: a write with N unsent bytes sees at most N of them *)
Theorem C59_write_bound n es s os : (1 <= n)%nat -> run cstep (init n) es = Ok s os -> forall ms s' os' k, open_w (hist s) k ->
  run cstep s ((λ m, SockW (WTake m)) <$> ms) = Ok s' os' -> open_w (hist s') k -> (length ms + unsent (hist s') <= unsent (hist s))%nat.
Proof.
  intros Hn H ms. revert es s os H. induction ms as [|m ms IH]; intros es s os H s' os' k Ho; cbn [fmap list_fmap run]; [intros [= <- <-]; cbn; lia|].
  destruct (cstep s (SockW (WTake m))) as [| |s1 o] eqn:E1; try done. destruct (run cstep s1 _) as [| |s2 os2] eqn:E2; try done. intros [= <- <-] Ho2.
  assert (run cstep (init n) (es ++ [SockW (WTake m)]) = Ok s1 (os ++ [o])) as H1 by (by rewrite run_app, H; cbn; rewrite E1).
  destruct (C59_write_progress n es s os k Hn H Ho) as [(s0 & v & E0 & _)|(N & HN & Hm & Hm')].
  { exfalso. unfold cstep in E0, E1. destruct (calm s RunW); [|done]. destruct (calm s (SockW (WTake m))); [|done]. cbn [step] in E0, E1. destruct (wr s); done. }
  destruct (decide (1 <= m <= N)%nat) as [Hd|Hd]; [|by rewrite Hm' in E1].
  destruct (Hm m Hd) as (s0 & bs & E0 & Hl & Hc). rewrite E1 in E0. injection E0 as <- ->.
  destruct (inv_run n _ _ _ Hn (crun_run _ _ _ _ H1)) as [F1 _].
  assert (open_w (hist s1) k \/ k ∈ omap resw (hist s1)) as [Ho1|Hr].
  { destruct (decide (k ∈ omap resw (hist s1))) as [|Hk]; [by right|left]. split; [|done]. destruct Ho as [Hc1 _].
    destruct Hc as [(_ & v & ->)|[_ ->]]; rewrite omap_app; apply elem_of_app; by left. }
  - destruct Hc as [(_ & v & Eh)|[Hlt Eh]].
    + exfalso. apply (proj2 Ho1). rewrite Eh, omap_app. apply elem_of_app. right. cbn. by left.
    + specialize (IH _ _ _ H1 _ _ k Ho1 E2 Ho2). assert (unsent (hist s1) + m = unsent (hist s))%nat; [|cbn; lia].
      destruct (f_w _ _ _ _ F1) as (q & bss & _ & _ & _ & Hg). unfold unsent in *. rewrite Eh in *. unfold gen, sent in *. rewrite !flat_app, !flat_one, !app_nil_r in *.
      rewrite !app_length in *. apply (f_equal length) in Hg. rewrite !app_length in Hg. lia.
  - exfalso. apply (proj2 Ho2). clear - E2 Hr. assert (exists t, hist s2 = hist s1 ++ t) as [t ->].
    { eapply grows_run, crun_run. exact E2. }
    rewrite omap_app. apply elem_of_app. by left.
Qed.
(** the kernel and the ready list can end every outstanding write *)
Theorem C59_write_completes n es s os k : (1 <= n)%nat -> run cstep (init n) es = Ok s os -> open_w (hist s) k ->
  exists es' s' os', (forall e, e ∈ es' -> e = RunW \/ exists m, e = SockW (WTake m)) /\ run cstep s es' = Ok s' os' /\ k ∈ omap resw (hist s').
Proof.
  intros Hn. remember (unsent (hist s)) as u eqn:Hu. revert es s os Hu. induction (lt_wf u) as [u _ IH]; intros es s os Hu H Ho.
  destruct (C59_write_progress n es s os k Hn H Ho) as [(s' & v & E & Eh)|(N & HN & Hm & _)].
  - exists [RunW], s', [()]. split_and!.
    + intros e ->%elem_of_list_singleton. by left.
    + cbn [run]. by rewrite E.
    + rewrite Eh, omap_app. apply elem_of_app. right. cbn. by left.
  - destruct (Hm N) as (s1 & bs & E & Hl & Hc); [lia|].
    assert (run cstep (init n) (es ++ [SockW (WTake N)]) = Ok s1 (os ++ [()])) as H1 by (rewrite run_app, H; cbn [run]; by rewrite E).
    destruct Hc as [(_ & v & Eh)|[Hlt Eh]].
    + exists [SockW (WTake N)], s1, [()]. split_and!.
      * intros e ->%elem_of_list_singleton. right. by eexists.
      * cbn [run]. by rewrite E.
      * rewrite Eh, omap_app. apply elem_of_app. right. cbn. by left.
    + destruct (IH (unsent (hist s1))) with (es := es ++ [SockW (WTake N)]) (s := s1) (os := os ++ [()]) as (es' & s' & os' & Hes & Hr & Hk); try done.
      * destruct (inv_run n _ _ _ Hn (crun_run _ _ _ _ H1)) as [F1 _]. destruct (f_w _ _ _ _ F1) as (q & bss & _ & _ & _ & Hg). subst u. unfold unsent in *. rewrite Eh in *. unfold gen, sent in *.
        rewrite !flat_app, !flat_one, !app_nil_r in *. rewrite !app_length in *. apply (f_equal length) in Hg. rewrite !app_length in Hg. lia.
      * destruct Ho as [Ho1 Ho2]. split; rewrite Eh, omap_app; [apply elem_of_app; by left|]. intros Hin%elem_of_app. destruct Hin as [?|Hin]; [done|]. by apply elem_of_nil in Hin.
      * exists (SockW (WTake N) :: es'), s', (() :: os'). split_and!; [|by cbn [run]; rewrite E, Hr|done].
        intros e [->|He]%elem_of_cons; [right; by eexists|by apply Hes].
Qed.
(** an outstanding read: either the ready list serves it, or the socket may deliver any 1..N bytes, N >= 1, or end; whatever the engine then
    does, the callback is called with its result unless that is negative with "want more", and then the read stays outstanding *)
Theorem C59_read_progress n es s os k p v again : (1 <= n)%nat -> run step (init n) es = Ok s os -> open_r (hist s) k ->
  let served s' := if decide (v < 0 /\ again = true) then open_r (hist s') k \/ exists h, hist s' = h ++ [ResR k 0]
                   else exists h v', hist s' = h ++ [ResR k v'] /\ (v' = v \/ v' = 0) in
  (exists s', step s (RunR p v again) = Ok s' () /\ served s') \/
  (recvd (hist s) = eaten (hist s) /\ exists N, (1 <= N <= n)%nat /\
   (forall bs, (1 <= length bs <= N)%nat -> exists s', step s (SockR (RData bs) p v again) = Ok s' () /\ served s') /\
   exists s', step s (SockR (REnd 0) p v again) = Ok s' () /\ served s').
Proof.
  intros Hn H Ho served. pose proof (inv_run n es s os Hn H) as I. apply (inv_open_r n s k I) in Ho. pose proof I as [F Nb].
  assert (G : forall s1 b s2, rd s1 = RNone -> event_read s1 k b p v again = Some s2 -> Inv n s2 -> served s2).
  { intros s1 b s2 Hr1 E I2. unfold served. unfold event_read in E. destruct b; cbn [negb] in E.
    - destruct (engine s1 p) as [s3|]; [|done]. cbn [mbind option_bind] in E. cbv zeta in E. destruct (decide (v >= 0)) as [Hv|Hv].
      + rewrite decide_False by lia. injection E as <-. exists (hist s3 ++ [Took k v]), v. split; [done|by left].
      + destruct again; cycle 1.
        { rewrite decide_False by (by intros [_ ?]). injection E as <-. exists (hist s3 ++ [Took k v]), v. split; [done|by left]. }
        rewrite decide_True by (split; [lia|done]). left. apply (inv_open_r n s2 k I2). unfold ssl_read in E. cbv zeta in E. revert E. clear served; destruct (decide _).
        * destruct (guard_b _); [|done]. cbn [mbind option_bind]. intros [= <-]. done.
        * destruct (krw_get_write_buffer _) as [[[x w] len]|]; [|done]. cbn [mbind option_bind]. intros [= <-]. done.
    - injection E as <-. destruct (decide _); [right|]; cbn [hist log].
      + exists (hist s1 ++ [Took k 0]). by rewrite <- app_assoc.
      + exists (hist s1 ++ [Took k 0]), 0. rewrite <- app_assoc. split; [done|by right]. }
  assert (G2 : forall e, step s e <> Crash -> step s e <> Disabled -> (forall s', step s e = Ok s' () -> served s') -> exists s', step s e = Ok s' () /\ served s').
  { intros e Hc Hd Hs. destruct (step s e) as [| |s' []] eqn:E; try done. exists s'. split; [done|]. by apply Hs. }
  assert (G3 : forall e s', step s e = Ok s' () -> Inv n s').
  { intros e s' E. pose proof (step_all n s e I) as S. rewrite E in S. apply S. }
  unfold rk in Ho. destruct (rd s) as [|j b|w len] eqn:Hrd; [done| |]; injection Ho as Ho.
  - left. subst j. destruct (event_read_ok n (wk s) (set_rd s RNone) k b p v again) as (s2 & E & _); [|done|].
    { apply full_setr; [|done]. unfold rk in F. by rewrite Hrd in F. }
    exists s2. assert (step s (RunR p v again) = Ok s2 ()) as Es by (cbn [step]; by rewrite Hrd, E). split; [done|]. eapply (G _ b); [|exact E|by eapply G3]. done.
  - right. pose proof (f_rw _ _ _ _ F) as W. rewrite Hrd in W. destruct W as (pre & l & preb & x & HR & Hpb & Ec & Ewh & -> & Hm & Hlen & Hl1).
    destruct (f_r _ _ _ _ F) as (q & bss & HR0 & Ht & Hcs & Hg). assert (q = []) as -> by (exact (R_det _ _ _ _ _ HR0 HR eq_refl)). rewrite app_nil_r in Hg. split; [done|].
    exists len. split; [lia|].
    assert (NC : forall c, step s (SockR c p v again) <> Crash).
    { intros c E. pose proof (step_all n s (SockR c p v again) I) as S. rewrite E in S. by destruct S. }
    split; [intros bs Hbs|]; apply G2; try apply NC.
    + cbn [step]. rewrite Hrd. cbv zeta. rewrite decide_True by done. by destruct (poke _ _ _ ≫= _).
    + intros s' E. pose proof (G3 _ _ E) as I2. cbn [step] in E. rewrite Hrd in E. cbv zeta in E. rewrite decide_True in E by done.
      destruct (poke _ _ _) as [y|]; [|done]. cbn [mbind option_bind] in E. destruct (krw_write_success _ _) as [z|]; [|done]. cbn [mbind option_bind] in E.
      destruct (event_read _ _ _ _ _ _) as [s3|] eqn:E3; [|done]. cbn in E. injection E as ->. cbn [rbio set_nbuf set_rd] in E3. rewrite Ho in E3. eapply G; [|exact E3|done]. done.
    + cbn [step]. rewrite Hrd. cbv zeta. rewrite decide_True by auto. by destruct (event_read _ _ _ _ _ _).
    + intros s' E. pose proof (G3 _ _ E) as I2. cbn [step] in E. rewrite Hrd in E. cbv zeta in E. rewrite decide_True in E by auto.
      destruct (event_read _ _ _ _ _ _) as [s3|] eqn:E3; [|done]. cbn in E. injection E as ->. cbn [rbio set_nbuf set_rd] in E3. rewrite Ho in E3. eapply G; [|exact E3|done]. done.
Qed.

(** ** what is false *)
(** a write for which the engine made no ciphertext waits on the ready list (SSL_write wants to read, or failed); a read is served first and the engine
    writes something (an alert, a key update): the assertion of kselectable.c:362 fails *)
Definition alert_run : list ev := [UWrite true [] (-1); URead true true; RunR [BWr [21; 22]] 5 false; RunW].
Theorem C59_alert_refuted : run step (init 4) alert_run = Crash.
Proof. by vm_compute. Qed.
(** an error event (STF_ERR) ends a queued write but leaves STF_WREADY2 set: the next write fails the assertion of kselectable.c:549 *)
Theorem C59_err_refuted : forall n, run step (init n) [UWrite false [] 0; RunWErr; UWrite false [] 0] = Crash.
Proof. intros n. reflexivity. Qed.
(** what the engine writes while it serves a read, with no write outstanding, is not sent before the user's next write *)
Definition no_write (e : ev) : Prop := match e with UWrite _ _ _ => False | _ => True end.
Lemma wsame_engine p : forall s s', engine s p = Some s' -> wr s' = wr s /\ sent (hist s') = sent (hist s).
Proof.
  induction p as [|[m|bs] p IH]; intros s s'; cbn [engine]; [by intros [= <-]| |].
  - unfold bio_read. destruct (krw_read _ _ _ _) as [[b got]|]; [|done]. cbn [mbind option_bind]. intros [E1 E2]%IH. rewrite E1, E2. cbn [wr hist log set_rb].
    split; [done|]. unfold sent. rewrite flat_app, flat_one. destruct got; [destruct (rshut s)|]; by rewrite app_nil_r.
  - unfold bio_write. destruct (krw_write_str _ _ _) as [b|]; [|done]. cbn [mbind option_bind]. intros [E1 E2]%IH. rewrite E1, E2. cbn [wr hist log set_wb].
    split; [done|]. unfold sent. by rewrite flat_app, flat_one, app_nil_r.
Qed.
Lemma sent_silent h x : match x with Sent _ => False | _ => True end -> sent (h ++ [x]) = sent h.
Proof. intros Hx. unfold sent. rewrite flat_app, flat_one. destruct x; by rewrite ?app_nil_r. Qed.
Lemma sent_took h k v : sent (h ++ [Took k v; ResR k v]) = sent h.
Proof. unfold sent. by rewrite flat_app, app_nil_r. Qed.
Lemma wsame_read s k b p v a s' : event_read s k b p v a = Some s' -> wr s' = wr s /\ sent (hist s') = sent (hist s).
Proof.
  unfold event_read. destruct b; cbn [negb].
  2:{ intros [= <-]. split; [done|]. apply sent_took. }
  destruct (engine s p) as [s1|] eqn:E; [|done]. apply wsame_engine in E as [E1 E2]. cbn [mbind option_bind]. cbv zeta. rewrite <- E1, <- E2.
  destruct (decide _); [intros [= <-]; rewrite log_log; split; [done|]; apply sent_took|].
  destruct a; [|intros [= <-]; rewrite log_log; split; [done|]; apply sent_took].
  unfold ssl_read. cbv zeta. destruct (decide _).
  - destruct (guard_b _); [|done]. cbn [mbind option_bind]. intros [= <-]. cbn [wr hist log set_rd set_rbio]. split; [done|]. by apply sent_silent.
  - destruct (krw_get_write_buffer _) as [[[x w] len]|]; [|done]. cbn [mbind option_bind]. intros [= <-]. cbn [wr hist log set_rd set_rbio set_rb set_nbuf]. split; [done|]. by apply sent_silent.
Qed.
Lemma stuck_step s e s' o : no_write e -> wr s = WNone -> step s e = Ok s' o -> wr s' = WNone /\ sent (hist s') = sent (hist s).
Proof.
  intros He Hw. destruct e as [b pend|b p v|p|c p v again|c| |p v again| |]; cbn [step]; rewrite ?Hw; try done.
  - destruct (rd s); [|done..]. cbv zeta. destruct pend; [intros [= <- <-]; cbn; split; [done|]; by apply sent_silent|].
    unfold ssl_read. cbv zeta. destruct (decide _).
    + destruct (guard_b _); [|done]. cbn [mbind option_bind]. intros [= <- <-]. cbn [wr hist log set_rd set_rbio set_nxt]. split; [done|]. by apply sent_silent.
    + destruct (krw_get_write_buffer _) as [[[x w] len]|]; [|done]. cbn [mbind option_bind]. intros [= <- <-]. cbn [wr hist log set_rd set_rbio set_rb set_nbuf set_nxt]. split; [done|]. by apply sent_silent.
  - destruct (engine s p) eqn:E; [|done]. intros [= <- <-]. apply wsame_engine in E as [-> ->]. done.
  - destruct (rd s) as [| |w len]; [done..|]. cbv zeta. destruct c as [bs|r]; (destruct (decide _); [|done]).
    + destruct (poke _ _ _) as [x|]; [|done]. cbn [mbind option_bind]. destruct (krw_write_success _ _) as [y|]; [|done]. cbn [mbind option_bind].
      destruct (event_read _ _ _ _ _ _) eqn:E; [|done]. intros [= <- <-]. apply wsame_read in E as [-> ->]. cbn [wr hist log set_rb set_rd set_nbuf]. split; [done|]. by apply sent_silent.
    + destruct (event_read _ _ _ _ _ _) eqn:E; [|done]. intros [= <- <-]. apply wsame_read in E as [-> ->]. cbn [wr hist log set_rshut set_rd set_nbuf]. split; [done|]. by apply sent_silent.
  - destruct (rd s); [done..|]. intros [= <- <-]. cbn. split; [done|]. by apply sent_silent.
  - destruct (rd s); [done| |done]. destruct (event_read _ _ _ _ _ _) eqn:E; [|done]. intros [= <- <-]. apply wsame_read in E as [-> ->]. done.
Qed.
Theorem C59_engine_output_refuted : exists es s os, run step (init 4) es = Ok s os /\ gen (hist s) = [21; 22] /\ sent (hist s) = [] /\ nbuf s = 0%nat /\
  forall es' s' os', Forall no_write es' -> run step s es' = Ok s' os' -> sent (hist s') = [].
Proof.
  eexists [URead true false; SockR (RData [7; 8]) [BRd 5; BWr [21; 22]] 1 false], _, _. split; [vm_compute; reflexivity|].
  split; [done|]. split; [done|]. split; [done|]. intros es' s' os' He Hr.
  match type of Hr with run _ ?x _ = _ => set (s0 := x) in Hr; assert (wr s0 = WNone /\ sent (hist s0) = []) as H0 by done end. clearbody s0.
  revert s0 os' H0 Hr. induction He as [|e es' He _ IH]; intros s0 os' [H1 H2]; cbn; [by intros [= <- <-]|].
  destruct (step s0 e) as [| |s1 o] eqn:E1; try done. destruct (run step s1 es') as [| |s2 os2] eqn:E2; try done. intros [= <- <-].
  destruct (stuck_step _ _ _ _ He H1 E1) as [E3 E4]. eapply IH; [|done]. split; [done|congruence].
Qed.
(** after the peer's end of stream a read whose engine call says "want more" (errno is stale) asks the socket again, for ever *)
Definition ends o := match o with RecvEnd v => Some v | _ => None end.
Theorem C59_eof_refuted : forall N, exists s os, run step (init 4) (URead true false :: replicate N (SockR (REnd 0) [BRd 5] (-1) true)) = Ok s os /\
  omap ends (hist s) = replicate N 0 /\ omap resr (hist s) = [] /\ open_r (hist s) 0.
Proof.
  intros N. cbn [run]. set (r0 := step (init 4) (URead true false)). vm_compute in r0. subst r0. cbn iota.
  match goal with |- context [run step ?x _] => change x with (log x []) end.
  match goal with |- context [log ?x []] => set (s0 := x) end.
  assert (forall N s h, (s = log s0 h \/ s = log (set_rshut s0 true) h) -> omap resr h = [] -> exists h' os, run step s (replicate N (SockR (REnd 0) [BRd 5] (-1) true)) = Ok (log (set_rshut s0 (match N with 0%nat => rshut s | _ => true end)) h') os /\
    omap ends h' = omap ends h ++ replicate N 0 /\ omap resr h' = []) as G.
  { clear N. intros N. induction N as [|N IH]; intros s h Hs Hr; cbn [replicate run].
    - exists h, []. split_and!; [|by rewrite app_nil_r|done]. destruct Hs as [->| ->]; done.
    - assert (step s (SockR (REnd 0) [BRd 5] (-1) true) = Ok (log (set_rshut s0 true) (h ++ [RecvEnd 0; Eof 5; Took 0 (-1)])) ()) as ->.
      { change [RecvEnd 0; Eof 5; Took 0 (-1)] with ([RecvEnd 0] ++ [Eof 5] ++ [Took 0 (-1)]). rewrite (assoc_L (++) h), (assoc_L (++) (h ++ _)). destruct Hs as [->| ->]; by vm_compute. }
      destruct (IH (log (set_rshut s0 true) (h ++ [RecvEnd 0; Eof 5; Took 0 (-1)])) _ (or_intror eq_refl)) as (h' & os & -> & E1 & E2).
      { by rewrite omap_app, Hr. }
      exists h', (() :: os). split; [by destruct N|]. split; [|done]. rewrite E1, omap_app, <- app_assoc. done. }
  destruct (G N (log s0 []) [] (or_introl eq_refl) eq_refl) as (h' & os & -> & E1 & E2). eexists _, _. split; [reflexivity|]. cbn [hist log set_rshut].
  change (hist s0) with [CallR 0]. unfold open_r. rewrite !omap_app, E1, E2. split; [done|]. split; [done|]. split; [by left|by apply not_elem_of_nil].
Qed.

(** ** a schedule: two writes, the second larger than a chunk and taken in pieces; reads in pieces; a key update sent with the next write; end of stream *)
Definition demo : list ev :=
  [UWrite true [BWr [1; 2; 3]] 2; SockW (WTake 3); URead true false; SockR (RData [9; 8]) [BRd 1; BRd 5; BRd 5] (-1) true; Timeout;
   SockR (RData [7; 6]) [BRd 1; BWr [5]] 1 false; UWrite true [BWr [10; 11; 12]; BWr [13; 14; 15; 16]] 3; URead true false;
   SockW (WTake 2); RunR [BRd 4] 0 false; SockW (WTake 3); SockW (WTake 3); URead false true; RunR [] 0 false; URead true false; SockR (REnd 0) [BRd 5] (-1) false;
   UWrite true [] (-1); RunW].
Example C59_demo : match run cstep (init 4) demo with
  | Ok s _ => hist s =
      [CallW 0; Gen [1; 2; 3]; Acc 0 2; Sent [1; 2; 3]; ResW 0 2; CallR 1; Recv [9; 8]; Eat 1 [9]; Eat 5 [8]; Retry 5; Took 1 (-1); TmoR 1;
       Recv [7; 6]; Eat 1 [7]; Gen [5]; Took 1 1; ResR 1 1; CallW 2; Gen [10; 11; 12]; Gen [13; 14; 15; 16]; Acc 2 3; CallR 3; Sent [5; 10];
       Eat 4 [6]; Took 3 0; ResR 3 0; Sent [11; 12; 13]; Sent [14; 15; 16]; ResW 2 3; CallR 4; Took 4 0; ResR 4 0; CallR 5; RecvEnd 0; Eof 5; Took 5 (-1); ResR 5 (-1);
       CallW 6; Acc 6 (-1); ResW 6 (-1)] /\ nbuf s = 0%nat
  | _ => False end.
Proof. vm_compute. by split_and!. Qed.
(** the hypotheses of the progress theorems are met *)
Example C59_demo_open : match run cstep (init 4) (take 8 demo) with
  | Ok s _ => open_w (hist s) 2 /\ open_r (hist s) 3 /\ unsent (hist s) = 8%nat | _ => False end.
Proof. vm_compute. split_and!; try done; try (intros H; by repeat (apply elem_of_cons in H as [?|H]; [congruence|]); apply elem_of_nil in H); repeat constructor. Qed.
