(** Property C72, continued: what the calls record, helpers, workers, what a write changes. *)
From Verif Require Import WfModel WfSpec WfProof WfProof2 WfProof3 WfProof4 WfProof5 WfProps WfLive.
Local Open Scope Z_scope.

(** what a call of the program adds to the history and what it returns at once; [p] = the position of the handle *)
Definition records (e : wev) (id : nat) (p : Z) (new : list hev) (r : option Z) : Prop :=
  match e with
  | EOpen t f i => new = [HOpen t f i]
  | EClose _ f => new = [HClose f]
  | ESeek _ f seekBegin off => new = [HSeek f off] /\ r = Some 0
  | ESeek _ f seekCur off => new = [HSeek f (p + off)] /\ r = Some 0
  | ESeek _ f seekEnd _ => new = [] /\ r = Some (-1)
  | ETell _ _ => new = [] /\ r = Some p
  | ECall t f wr len full =>
      exists l, new = HCall id t f wr (match wr with Some d => length d | None => len end) full true p :: l /\ called l = []
  | ESafe t f (Some d) len ok =>
      exists acc l, new = HCall id t f (Some d) (length d) true acc p :: l /\ called l = [] /\ (acc = false -> ok = false /\ r = Some 0 /\ returned l = [id])
  | ESafe t f None len ok =>
      exists acc l, new = HCall id t f None len false acc p :: l /\ called l = [] /\ (acc = false -> ok = false /\ r = Some 0 /\ returned l = [id])
  | _ => called new = []
  end.

Section more.
Context (home : nat -> nat) (maxw : nat) (c0 : nat -> list Z).
Notation WI := (WI home c0).
Notation step := (wstep home maxw).
Notation reach := (reach home maxw c0).

Lemma idle_pos s f : WI s -> owner f (hist s) <> None -> ~ busy f (hist s) -> f_off (fls s f) = pos f (hist s).
Proof.
  intros HI H1 H2. apply (w_pos _ _ _ HI f (own_al _ _ _ _ HI H1)). intros r Hr. destruct (job_op _ _ _ _ _ HI Hr) as (y & q & Hq & E & HP).
  apply H2. exists (o_id q), (o_t q). rewrite <- E. by eapply op_open.
Qed.
Lemma finish_hist s fi o r : exists l, hist (finish s fi o r) = hist s ++ l /\ called l = [].
Proof. destruct fi; cbn; [by eexists|]. exists []. by rewrite app_nil_r. Qed.
Lemma start_hist s fi o s' : start_op s fi o = Some s' -> exists l, hist s' = hist s ++ l /\ called l = [].
Proof.
  unfold start_op. destruct (o_full o && _); [intros [= <-]; apply finish_hist|]. destruct (negb _); [done|]. intros [= <-]. exists []. by rewrite app_nil_r.
Qed.
(** (history) The history records the calls as the program made them: the handle, the file, the data, the length, whether everything is to
    be transferred, and the position it has at that moment; seeking moves the position as asked. *)
Theorem C72_records s e s' r : reach s -> duty home s e -> step s e = Ok s' r ->
  exists new, hist s' = hist s ++ new /\ records e (nid s) (match e with EClose _ f | ESeek _ f _ _ | ETell _ f | ECall _ f _ _ _ | ESafe _ f _ _ _ => pos f (hist s) | _ => 0 end) new r.
Proof.
  intros HI%reach_WI HD HS. destruct e as [t f i|t f|t f p off|t f|t f wr len full|t f wr len ok|id| |j k|j|j|j|fi|t]; cbn [wstep] in HS.
  - destruct (fib s (Prog t)); try done. destruct (f_al (fls s f)); [done|]. injection HS as <- <-. by eexists.
  - destruct (fib s (Prog t)); try done. destruct (negb _); [done|]. injection HS as <- <-. by eexists.
  - destruct (fib s (Prog t)); try done. destruct (negb _); [done|]. rewrite <- (idle_pos s f HI (proj1 HD) (proj2 HD)).
    destruct p; injection HS as <- <-; [by eexists|by eexists|]. exists []. by rewrite app_nil_r.
  - destruct (fib s (Prog t)); try done. destruct (negb _); [done|]. rewrite <- (idle_pos s f HI (proj1 HD) (proj2 HD)).
    injection HS as <- <-. exists []. by rewrite app_nil_r.
  - destruct (fib s (Prog t)); try done. destruct (negb _); [done|]. destruct (negb _); [done|].
    assert (Hp : f_off (fls s f) = pos f (hist s)). { destruct HD as [H1 (t0 & i & H2 & _)]. apply idle_pos; try done. by rewrite H2. }
    destruct (start_op _ _ _) as [s1|] eqn:ES; [|done]. injection HS as <- <-. destruct (start_hist _ _ _ _ ES) as (l & -> & Hl). cbn [hist begin].
    eexists. rewrite <- app_assoc. split; [done|]. cbn. rewrite Hp. by eexists.
  - destruct (fib s (Prog t)); try done. destruct (negb _); [done|]. pose proof (idle_pos s f HI (proj1 HD) (proj2 HD)) as Hp.
    destruct (bool_decide _).
    + destruct (start_op _ _ _) as [s1|] eqn:ES; [|done]. injection HS as <- <-. destruct (start_hist _ _ _ _ ES) as (l & -> & Hl). cbn [hist begin].
      eexists. rewrite <- app_assoc. split; [done|]. cbn. rewrite Hp. destruct wr; eexists true, l; done.
    + destruct ok; injection HS as <- <-; cbn.
      * eexists. split; [done|]. rewrite Hp. destruct wr; eexists true, []; done.
      * eexists. rewrite <- app_assoc. split; [done|]. rewrite Hp. destruct wr; eexists false, _; done.
  - destruct (fib s (Help id)); try done. destruct (start_op _ _ _) as [s1|] eqn:ES; [|done]. injection HS as <- <-. apply start_hist in ES as (l & H1 & H2). by exists l.
  - destruct (queue s); [done|]. case_decide; [|done]. injection HS as <- <-. exists []. by rewrite app_nil_r.
  - destruct (runq s !! j) as [[f [y|]]|]; try done. destruct (negb _); [done|]. destruct (negb _); [done|]. destruct (k_wr _); [injection HS as <- <-; by eexists|].
    case_decide; [|done]. injection HS as <- <-. by eexists.
  - destruct (runq s !! j) as [[f [y|]]|]; try done. destruct (negb _); [done|]. injection HS as <- <-. by eexists.
  - destruct (runq s !! j) as [[f [y|]]|]; try done. destruct (negb _); [done|]. injection HS as <- <-. exists []. by rewrite app_nil_r.
  - destruct (msgs s !! j); [|done]. destruct (negb _); [done|]. destruct (fib s _); try done. destruct (negb _); [done|]. injection HS as <- <-. exists []. by rewrite app_nil_r.
  - destruct (fib s fi); try done. destruct (o_full o).
    + destruct (_ <=? 0); [injection HS as <- <-; apply finish_hist|]. destruct (start_op _ _ _) as [s1|] eqn:ES; [|done]. injection HS as <- <-. apply start_hist in ES as (l & H1 & H2). by exists l.
    + injection HS as <- <-. apply finish_hist.
  - destruct (fib s (Prog t)); try done. destruct (fib s (Help id)); try done. injection HS as <- <-. by eexists.
Qed.

(** (no helper is left behind) A helper fiber exists only while the call it was made for has not returned. *)
Theorem C72_helpers s id : reach s -> fib s (Help id) <> FNone -> exists t f, open_call id t f (hist s).
Proof.
  intros HR Hn. pose proof (reach_WI _ _ _ _ HR) as HI. destruct (w_help _ _ _ HI id) as [H1 H2].
  assert (exists o ph, at_ s (Help id) o ph) as (o & ph & Ha).
  { destruct (fib s (Help id)) as [| |o|o|o r|i f|o r] eqn:E; try done.
    - by exists o, PStart.
    - destruct (w_wait _ _ _ HI _ _ E) as [x Hx]. by exists o, (PWait x).
    - by exists o, (PReady r).
    - by destruct (H2 i f).
    - by exists o, (PExit r). }
  pose proof (w_op _ _ _ HI _ _ _ Ha) as HP. destruct (p_fid _ _ _ _ _ HP) as [-> _]. exists (o_t o), (o_f o). by eapply op_open.
Qed.
(** (workers) At most [maxw] system calls are under way. *)
Lemma start_runq s fi o s' : start_op s fi o = Some s' -> runq s' = runq s.
Proof. unfold start_op. destruct (o_full o && _); [intros [= <-]; by destruct fi|]. destruct (negb _); [done|]. by intros [= <-]. Qed.
Lemma runq_step s e s' r : (length (runq s) <= maxw)%nat -> step s e = Ok s' r -> (length (runq s') <= maxw)%nat.
Proof.
  intros HL HS. destruct e as [t f i|t f|t f p off|t f|t f wr len full|t f wr len ok|id| |j k|j|j|j|fi|t]; cbn [wstep] in HS.
  - destruct (fib s (Prog t)); try done. destruct (f_al (fls s f)); [done|]. by injection HS as <- <-.
  - destruct (fib s (Prog t)); try done. destruct (negb _); [done|]. by injection HS as <- <-.
  - destruct (fib s (Prog t)); try done. destruct (negb _); [done|]. by destruct p; injection HS as <- <-.
  - destruct (fib s (Prog t)); try done. destruct (negb _); [done|]. by injection HS as <- <-.
  - destruct (fib s (Prog t)); try done. destruct (negb _); [done|]. destruct (negb _); [done|].
    destruct (start_op _ _ _) as [s1|] eqn:ES; [|done]. injection HS as <- <-. by rewrite (start_runq _ _ _ _ ES).
  - destruct (fib s (Prog t)); try done. destruct (negb _); [done|]. destruct (bool_decide _); [|destruct ok; by injection HS as <- <-].
    destruct (start_op _ _ _) as [s1|] eqn:ES; [|done]. injection HS as <- <-. by rewrite (start_runq _ _ _ _ ES).
  - destruct (fib s (Help id)); try done. destruct (start_op _ _ _) as [s1|] eqn:ES; [|done]. injection HS as <- <-. by rewrite (start_runq _ _ _ _ ES).
  - destruct (queue s); [done|]. case_decide; [|done]. injection HS as <- <-. cbn. rewrite app_length. cbn. lia.
  - destruct (runq s !! j) as [[f [y|]]|]; try done. destruct (negb _); [done|]. destruct (negb _); [done|]. destruct (k_wr _); [injection HS as <- <-; cbn; by rewrite insert_length|].
    case_decide; [|done]. injection HS as <- <-. cbn. by rewrite insert_length.
  - destruct (runq s !! j) as [[f [y|]]|]; try done. destruct (negb _); [done|]. injection HS as <- <-. cbn. by rewrite insert_length.
  - destruct (runq s !! j) as [[f [y|]]|]; try done. destruct (negb _); [done|]. injection HS as <- <-. cbn. rewrite app_length, take_length, drop_length. lia.
  - destruct (msgs s !! j); [|done]. destruct (negb _); [done|]. destruct (fib s _); try done. destruct (negb _); [done|]. by injection HS as <- <-.
  - destruct (fib s fi); try done. destruct (o_full o).
    + destruct (_ <=? 0); [injection HS as <- <-; by destruct fi|]. destruct (start_op _ _ _) as [s1|] eqn:ES; [|done]. injection HS as <- <-. by rewrite (start_runq _ _ _ _ ES).
    + injection HS as <- <-. by destruct fi.
  - destruct (fib s (Prog t)); try done. destruct (fib s (Help id)); try done. by injection HS as <- <-.
Qed.
Theorem C72_workers s : reach s -> (length (runq s) <= maxw)%nat.
Proof.
  intros (es & os & HR & _). assert (H : (length (runq (winit c0)) <= maxw)%nat) by (cbn; lia). revert H HR. generalize (winit c0). revert os.
  induction es as [|e es IH]; intros os s0 H HR; cbn in HR; [by injection HR as <- <-|].
  destruct (step s0 e) as [| |s1 o1] eqn:E; try done. destruct (run step s1 es) as [| |s2 os2] eqn:ER; try done. injection HR as <- <-.
  eapply IH; [|done]. by eapply runq_step.
Qed.
(** (reuse) A handle that was closed can be opened again. *)
Theorem C72_reuse s t f i : reach s -> owner f (hist s) = None -> fib s (Prog t) = FRun -> exists s' r, step s (EOpen t f i) = Ok s' r.
Proof.
  intros HI%reach_WI Ho Ht. cbn. rewrite Ht. pose proof (w_own _ _ _ HI f) as H. destruct (f_al (fls s f)); [|by eauto]. destruct H as (? & H & _). congruence.
Qed.
End more.

(** (what a write changes) [overwrite c off d]: the bytes of [d] from [off] on, everything else as before, zeros in a gap *)
Theorem C72_overwrite c off d n : overwrite c off d !! n =
  if decide (n < off)%nat then Some (match c !! n with Some x => x | None => 0 end)
  else if decide (n < off + length d)%nat then d !! (n - off)%nat else c !! n.
Proof.
  unfold overwrite. assert (Hl : length (take off (c ++ replicate off 0)) = off) by (rewrite take_length, app_length, replicate_length; lia).
  case_decide as H1.
  - rewrite lookup_app_l by lia. rewrite lookup_take by done. destruct (c !! n) as [x|] eqn:E.
    + apply lookup_lt_Some in E as Hn. by rewrite lookup_app_l.
    + apply lookup_ge_None in E. rewrite lookup_app_r by done. apply lookup_replicate. split; [done|lia].
  - rewrite lookup_app_r by lia. rewrite Hl. case_decide as H2; [by rewrite lookup_app_l by lia|].
    rewrite lookup_app_r by lia. rewrite lookup_drop. f_equal. lia.
Qed.
Print Assumptions C72_records.
Print Assumptions C72_overwrite.
