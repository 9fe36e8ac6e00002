From Verif Require Import FswitchModel.
Local Open Scope Z_scope.

Definition onchain (c : ctxp) : bool := match c with Running | AtWakeup _ => true | _ => false end.
Record I (s : sys) (l : list positive) : Prop := {
  I_hd : head l = Some (cur s);
  I_lk : linked s l;
  I_nd : NoDup l;
  I_on : forall x, x ∈ l <-> onchain (ctx s x) = true;
  I_run : ctx s (cur s) = Running;
  I_wf : forall x, wf s x = true <-> ctx s x = AtWait \/ ctx s x = AtExit \/ ctx s x = Dead;
  I_nf : forall x, (ctx s x = AtWait \/ ctx s x = Unborn \/ ctx s x = AtExit) -> nf s x = false }.
Definition R (s : sys) : Prop := NoDup (ready s) /\ forall x, x ∈ ready s -> ctx s x = AtExit.

Lemma upd_eq {A} (m : positive -> A) k v : upd m k v k = v.
Proof. unfold upd. by rewrite decide_True. Qed.
Lemma upd_ne {A} (m : positive -> A) k v x : x <> k -> upd m k v x = m x.
Proof. intros. unfold upd. by rewrite decide_False. Qed.

Lemma I_init : I sys_init [main].
Proof.
  split; cbn; try done.
  - apply NoDup_singleton.
  - intros x. rewrite elem_of_list_singleton. destruct (decide _); cbn; naive_solver.
  - intros x. destruct (decide _); naive_solver.
Qed.
(** the chain only depends on switch_from and the contexts of the non-innermost members *)
Lemma linked_ext s s' l : (forall x, x ∈ l -> sf s' x = sf s x) -> (forall x, x ∈ tail l -> ctx s' x = ctx s x) -> linked s l -> linked s' l.
Proof.
  induction l as [|x [|y l] IH]; [done|done|]. intros H1 H2 (Ha & Hb & Hc). split_and!.
  - rewrite H1 by set_solver. done.
  - rewrite H2 by set_solver. done.
  - apply IH; [set_solver| |done]. intros z Hz. apply H2. cbn in *. set_solver.
Qed.

Lemma linked_cons s x y l : sf s x = Some y -> ctx s y = AtWakeup x -> linked s (y :: l) -> linked s (x :: y :: l).
Proof. by intros. Qed.
Lemma enter_inv s l g v s' o : I s l -> ctx s g = Unborn \/ ctx s g = AtWait -> wakeup s g v = Some (s', o) ->
  I s' (g :: l) /\ cur s' = g /\ o = OEnter g (ctx s g) v.
Proof.
  intros [Hhd Hlk Hnd Hon Hrun Hwf Hnf] Hg. unfold wakeup.
  rewrite Hnf by tauto. assert (Hgc: cur s <> g) by (intros <-; naive_solver congruence).
  cbn. rewrite decide_False by done. intros [= <- <-].
  assert (Hgl: g ∉ l) by (rewrite Hon; destruct Hg as [->| ->]; done).
  split; [|split; [done|by rewrite upd_eq]]. destruct l as [|c l]; [done|]. injection Hhd as ->. split.
  - done.
  - apply linked_cons; [cbn; by rewrite upd_eq|cbn; by rewrite upd_ne, upd_eq by done|].
    eapply (linked_ext s); [| |exact Hlk]; cbn.
    + intros x Hx. apply upd_ne. intros ->. done.
    + intros x Hx. rewrite upd_ne by (intros ->; set_solver). apply upd_ne. intros ->. by apply NoDup_cons in Hnd as [? _].
  - by constructor.
  - cbn. intros x. rewrite elem_of_cons. destruct (decide (x = g)) as [->|Hxg]; [rewrite upd_eq; naive_solver|].
    rewrite upd_ne by done. destruct (decide (x = cur s)) as [->|Hxc].
    + rewrite upd_eq. cbn. split; [done|]. intros _. right. by left.
    + rewrite upd_ne by done. rewrite <- Hon. naive_solver.
  - cbn. by rewrite upd_eq.
  - cbn. intros x. destruct (decide (x = g)) as [->|Hxg]; [rewrite !upd_eq; naive_solver|].
    rewrite !(upd_ne _ g) by done. destruct (decide (x = cur s)) as [->|Hxc].
    + rewrite upd_eq. rewrite Hwf, Hrun. naive_solver.
    + rewrite upd_ne by done. apply Hwf.
  - cbn. intros x. destruct (decide (x = g)) as [->|Hxg]; [by rewrite !upd_eq|].
    rewrite !(upd_ne _ g) by done. destruct (decide (x = cur s)) as [->|Hxc].
    + rewrite upd_eq. naive_solver.
    + rewrite upd_ne by done. apply Hnf.
Qed.
Lemma enter_safe s l g v : I s l -> ctx s g = Unborn \/ ctx s g = AtWait -> wakeup s g v <> None.
Proof.
  intros [] Hg. unfold wakeup. rewrite I_nf0 by tauto. cbn. by destruct (decide _).
Qed.
Lemma leave_inv s l at_ s' o : I s l -> cur s <> main -> nf s (cur s) = false -> (at_ = AtWait \/ at_ = AtExit) -> wait s at_ = Some (s', o) ->
  exists p l', l = cur s :: p :: l' /\ I s' (p :: l') /\ cur s' = p /\ o = OEnter p (AtWakeup (cur s)) (ret s p) /\
    ctx s' (cur s) = at_ /\ ready s' = ready s /\ ret s' = ret s.
Proof.
  intros [Hhd Hlk Hnd Hon Hrun Hwf Hnf] Hm Hnfc Hat. unfold wait.
  destruct l as [|c [|p l]]; [done|cbn in *; congruence|]. injection Hhd as ->. destruct Hlk as (Hsf & Hcx & Hlk).
  rewrite Hsf. destruct (wf s (cur s)) eqn:Ew; [done|].
  apply NoDup_cons in Hnd as [Hni Hnd]. assert (Hpc: p <> cur s) by set_solver. rewrite decide_False by done.
  intros [= <- <-]. exists p, l. cbn. rewrite Hcx. split; [done|]. split.
  2:{ split_and!; try done. rewrite upd_ne by done. by rewrite upd_eq. }
  split.
  - done.
  - eapply linked_ext; [..|exact Hlk]; cbn; [done|]. intros x Hx. apply NoDup_cons in Hnd as [Hpl _].
    rewrite upd_ne by (intros ->; done). apply upd_ne. intros ->. set_solver.
  - done.
  - cbn. intros x. destruct (decide (x = p)) as [->|Hxp]; [rewrite upd_eq; set_solver|]. rewrite upd_ne by done.
    destruct (decide (x = cur s)) as [->|Hxc].
    + rewrite upd_eq. split; [done|]. by destruct Hat as [->| ->].
    + rewrite upd_ne by done. rewrite <- Hon. set_solver.
  - cbn. by rewrite upd_eq.
  - cbn. intros x. destruct (decide (x = p)) as [->|Hxp].
    + rewrite upd_eq, upd_ne by done. rewrite Hwf, Hcx. naive_solver.
    + rewrite (upd_ne _ p) by done. destruct (decide (x = cur s)) as [->|Hxc]; [rewrite !upd_eq; naive_solver|].
      rewrite !upd_ne by done. apply Hwf.
  - cbn. intros x. destruct (decide (x = p)) as [->|Hxp].
    + rewrite upd_eq. naive_solver.
    + rewrite (upd_ne _ p) by done. destruct (decide (x = cur s)) as [->|Hxc]; [done|]. rewrite !upd_ne by done. apply Hnf.
Qed.
Lemma leave_safe s l at_ : I s l -> cur s <> main -> wait s at_ <> None.
Proof.
  intros [Hhd Hlk Hnd Hon Hrun Hwf Hnf] Hm. unfold wait.
  destruct l as [|c [|p l]]; [done|cbn in *; congruence|]. injection Hhd as ->. destruct Hlk as (Hsf & Hcx & Hlk).
  rewrite Hsf. destruct (wf s (cur s)) eqn:Ew; [apply Hwf in Ew; naive_solver congruence|].
  apply NoDup_cons in Hnd as [Hni Hnd]. by rewrite decide_False by set_solver.
Qed.

Lemma R_ext s s' : R s -> ready s' = ready s -> (forall x, ctx s x = AtExit -> ctx s' x = AtExit) -> R s'.
Proof. intros [Hn H] Hr Hc. split; [by rewrite Hr|]. intros x Hx. apply Hc, H. by rewrite <- Hr. Qed.
Lemma enter_R s l g v s' o : I s l -> ctx s g = Unborn \/ ctx s g = AtWait -> wakeup s g v = Some (s', o) -> R s -> R s'.
Proof.
  intros [Hhd Hlk Hnd Hon Hrun Hwf Hnf] Hg. unfold wakeup.
  rewrite Hnf by tauto. assert (Hgc: cur s <> g) by (intros <-; naive_solver congruence).
  cbn. rewrite decide_False by done. intros [= <- <-] HR. eapply R_ext; [exact HR|done|]. intros x Hx. cbn.
  rewrite upd_ne by (intros ->; naive_solver congruence). rewrite upd_ne by (intros ->; congruence). done.
Qed.
Lemma self_inv s l v s' o : I s l -> cur s <> main -> wakeup s (cur s) v = Some (s', o) -> nf s (cur s) = false ->
  I s' l /\ cur s' = cur s /\ o = OSelf /\ ctx s' = ctx s /\ ready s' = ready s /\ ret s' (cur s) = v.
Proof.
  intros [Hhd Hlk Hnd Hon Hrun Hwf Hnf] Hm. unfold wakeup. intros Hw Hn. rewrite Hn in Hw. cbn in Hw.
  rewrite decide_True in Hw by done. injection Hw as <- <-. split_and!; try done; [|cbn; by rewrite upd_eq]. split; cbn; try done.
  - by eapply (linked_ext s).
  - intros x Hx. rewrite upd_ne; [by apply Hnf|]. intros ->. naive_solver congruence.
Qed.
Lemma clear_inv s l : I s l -> I (clear_flags s (cur s)) l.
Proof.
  intros [Hhd Hlk Hnd Hon Hrun Hwf Hnf]. split; cbn; try done.
  - by eapply (linked_ext s).
  - intros x. destruct (decide (x = cur s)) as [->|Hx]; [rewrite upd_eq; naive_solver congruence|rewrite upd_ne by done; apply Hwf].
  - intros x Hx. destruct (decide (x = cur s)) as [->|Hxc]; [by rewrite upd_eq|rewrite upd_ne by done; by apply Hnf].
Qed.
Lemma set_ret_inv s l v r : I s l -> I (mksys (cur s) (sf s) (ctx s) v (wf s) (nf s) r) l.
Proof. intros [Hhd Hlk Hnd Hon Hrun Hwf Hnf]. split; cbn; try done. by eapply (linked_ext s). Qed.

(** every step preserves the invariant; the depth of the chain changes as the events say *)
Lemma step_inv s l e s' o : I s l -> R s -> step s e = Ok s' o ->
  exists l', I s' l' /\ R s' /\ Z.of_nat (length l') = Z.of_nat (length l) + enters o e.
Proof.
  intros HI HR. destruct e as [g v|g v| | |v|]; cbn [step].
  - destruct (decide _) as [Hc|]; [|done]. destruct (wakeup s g v) as [[s1 o1]|] eqn:E; cbn; [|done]. intros [= <- <-].
    destruct (enter_inv _ _ _ _ _ _ HI (or_introl Hc) E) as (H1 & H2 & ->). exists (g :: l). split_and!; [done|exact (enter_R _ _ _ _ _ _ HI (or_introl Hc) E HR)|cbn; lia].
  - destruct (decide _) as [Hc|Hc].
    + destruct (wakeup s g v) as [[s1 o1]|] eqn:E; cbn; [|done]. intros [= <- <-].
      destruct (enter_inv _ _ _ _ _ _ HI (or_intror Hc) E) as (H1 & H2 & ->). exists (g :: l). split_and!; [done|exact (enter_R _ _ _ _ _ _ HI (or_intror Hc) E HR)|cbn; lia].
    + destruct (decide _) as [(-> & Hm & Hn)|]; [|done]. destruct (wakeup s (cur s) v) as [[s1 o1]|] eqn:E; cbn; [|done]. intros [= <- <-].
      destruct (self_inv _ _ _ _ _ HI Hm E Hn) as (H1 & H2 & -> & H3 & H4 & _). exists l. split_and!; [done| |cbn; lia].
      eapply R_ext; [exact HR|done|]. by rewrite H3.
  - destruct (nf s (cur s)); [|done]. destruct (wf s (cur s)); [done|]. intros [= <- <-]. exists l. split_and!; [by apply clear_inv|done|cbn; lia].
  - destruct (decide _) as [|Hm]; [done|]. destruct (nf s (cur s)) eqn:Hn; [done|].
    destruct (wait s AtWait) as [[s1 o1]|] eqn:E; cbn; [|done]. intros [= <- <-].
    destruct (leave_inv _ _ _ _ _ HI Hm Hn (or_introl eq_refl) E) as (p & l' & -> & H1 & H2 & -> & H3 & H4 & H5).
    exists (p :: l'). split_and!; [done| |cbn; lia]. eapply R_ext; [exact HR|done|]. intros x Hx.
    unfold wait in E. destruct (sf s (cur s)); [|done]. destruct (wf s (cur s)); [done|]. destruct (decide _); [done|].
    injection E as <- <- Ecx. cbn in *. destruct HI as [_ _ _ _ Hrun _ _].
    rewrite upd_ne by (intros ->; congruence). rewrite upd_ne by (intros ->; congruence). done.
  - destruct (decide _) as [|Hm]; [done|]. cbn. match goal with |- context [wait ?x _] => set (s0 := x) end.
    destruct (wait s0 AtExit) as [[s1 o1]|] eqn:E; cbn; [|done]. intros [= <- <-].
    assert (HI0: I s0 l) by (apply (set_ret_inv (clear_flags s (cur s))), clear_inv; exact HI).
    destruct (leave_inv s0 l _ _ _ HI0 Hm ltac:(cbn; by rewrite upd_eq) (or_intror eq_refl) E) as (p & l' & -> & H1 & H2 & -> & H3 & H4 & H5).
    exists (p :: l'). split_and!; [done| |cbn; lia]. destruct HR as [Hrn HR]. split.
    { rewrite H4. cbn. apply NoDup_app. split_and!; [done| |apply NoDup_singleton].
      intros x Hx ->%elem_of_list_singleton. apply HR in Hx. destruct HI; congruence. }
    intros x Hx. rewrite H4 in Hx. cbn in Hx.
    apply elem_of_app in Hx as [Hx|Hx]; [|apply elem_of_list_singleton in Hx as ->; exact H3].
    apply HR in Hx. unfold wait in E. cbn in E. rewrite upd_eq in E. destruct (sf s (cur s)); [|done]. destruct (decide _); [done|].
    injection E as <- <- Ecx. cbn in *. destruct HI as [_ _ _ _ Hrun _ _].
    rewrite upd_ne by (intros ->; congruence). rewrite upd_ne by (intros ->; congruence). done.
  - destruct (decide _) as [Hm|]; [|done]. destruct (ready s) as [|f fs] eqn:Er; [done|]. destruct (decide _) as [Hc|]; [|done].
    intros [= <- <-]. exists l. assert (Hfm: f <> cur s) by (intros ->; destruct HI; congruence). split_and!; [| |cbn; lia].
    2:{ destruct HR as [Hrn HR]. rewrite Er in Hrn, HR. apply NoDup_cons in Hrn as [Hnf Hrn]. split; cbn; [done|].
        intros x Hx. rewrite upd_ne by (intros ->; done). apply HR. by right. }
    destruct HI as [Hhd Hlk Hnd Hon Hrun Hwf Hnf]. split; cbn; try done.
    + eapply (linked_ext s); [done| |done]. cbn. intros x Hx. apply upd_ne. intros ->.
      assert (f ∈ l) as Hf by (destruct l; cbn in *; set_solver). apply Hon in Hf. by rewrite Hc in Hf.
    + intros x. destruct (decide (x = f)) as [->|Hx]; [rewrite upd_eq|rewrite upd_ne by done; apply Hon]. rewrite Hon, Hc. done.
    + by rewrite upd_ne by done.
    + intros x. destruct (decide (x = f)) as [->|Hx]; [rewrite upd_eq|rewrite upd_ne by done; apply Hwf]. rewrite Hwf, Hc. naive_solver.
    + intros x. destruct (decide (x = f)) as [->|Hx]; [rewrite upd_eq|rewrite upd_ne by done; apply Hnf]. naive_solver.
Qed.

Lemma step_safe s l e : I s l -> R s -> step s e <> Crash.
Proof.
  intros HI HR. destruct e as [g v|g v| | |v|]; cbn [step].
  - destruct (decide _) as [Hc|]; [|done]. pose proof (enter_safe s l g v HI (or_introl Hc)). by destruct (wakeup s g v) as [[]|].
  - destruct (decide _) as [Hc|Hc]; [pose proof (enter_safe s l g v HI (or_intror Hc)); by destruct (wakeup s g v) as [[]|]|].
    destruct (decide _) as [(-> & Hm & Hn)|]; [|done]. unfold wakeup. rewrite Hn. cbn. by rewrite decide_True.
  - destruct (nf s (cur s)); [|done]. destruct (wf s (cur s)) eqn:E; [|done]. destruct HI as [_ _ _ _ Hrun Hwf _].
    apply Hwf in E. naive_solver congruence.
  - destruct (decide _) as [|Hm]; [done|]. destruct (nf s (cur s)); [done|]. pose proof (leave_safe s l AtWait HI Hm). by destruct (wait s AtWait) as [[]|].
  - destruct (decide _) as [|Hm]; [done|]. cbn. match goal with |- context [wait ?x _] => set (s0 := x) end.
    assert (HI0: I s0 l) by (apply (set_ret_inv (clear_flags s (cur s))), clear_inv; exact HI).
    pose proof (leave_safe s0 l AtExit HI0 Hm). by destruct (wait s0 AtExit) as [[]|].
  - destruct (decide _) as [Hm|]; [|done]. destruct (ready s) as [|f fs] eqn:Er; [done|]. destruct (decide _) as [Hc|Hc]; [done|].
    destruct HR as [_ HR]. rewrite Er in HR. by rewrite HR in Hc by left.
Qed.
Definition IR (s : sys) : Prop := exists l, I s l /\ R s.
Lemma IR_init : IR sys_init.
Proof. exists [main]. split; [apply I_init|]. split; cbn; [constructor|]. intros x Hx. by apply elem_of_nil in Hx. Qed.
Lemma IR_step s e s' o : IR s -> step s e = Ok s' o -> IR s'.
Proof. intros (l & HI & HR) Hs. destruct (step_inv _ _ _ _ _ HI HR Hs) as (l' & ? & ? & _). by exists l'. Qed.
Lemma IR_safe s e : IR s -> step s e <> Crash.
Proof. intros (l & HI & HR). by eapply step_safe. Qed.

Lemma run_depth es s l s' os : I s l -> R s -> run step s es = Ok s' os ->
  exists l', I s' l' /\ R s' /\ Z.of_nat (length l') = Z.of_nat (length l) + depth es os.
Proof.
  revert s l os. induction es as [|e es IH]; intros s l os HI HR; cbn [run]; [intros [= <- <-]; exists l; cbn; split_and!; try done; lia|].
  destruct (step s e) as [| |s1 o] eqn:E1; try done. destruct (run step s1 es) as [| |s2 os2] eqn:E2; try done. intros [= -> <-].
  destruct (step_inv _ _ _ _ _ HI HR E1) as (l1 & H1 & H2 & H3). destruct (IH _ _ _ H1 H2 E2) as (l2 & H4 & H5 & H6).
  exists l2. cbn. split_and!; [done|done|lia].
Qed.
Lemma step_sf s e s' o f : step s e = Ok s' o -> sf s' f =
  match e, o with (Spawn g _ | Wakeup g _), OEnter _ _ _ => if decide (g = f) then Some (cur s) else sf s f | _, _ => sf s f end.
Proof.
  assert (Hwk: forall g v, wakeup s g v = Some (s', o) -> sf s' f = match o with OEnter _ _ _ => if decide (g = f) then Some (cur s) else sf s f | _ => sf s f end).
  { intros g v. unfold wakeup. destruct (nf s g); [done|]. cbn. destruct (decide _); intros [= <- <-]; [done|]. cbn. unfold upd.
    destruct (decide (f = g)) as [->|]; [by rewrite decide_True|by rewrite decide_False]. }
  assert (Hwt: forall s0 a, wait s0 a = Some (s', o) -> sf s' = sf s0).
  { intros s0 a. unfold wait. destruct (sf s0 (cur s0)) eqn:Es; [|done]. destruct (wf s0 _); [done|]. destruct (decide _); [done|].
    by intros [= <- <-]. }
  destruct e as [g v|g v| | |v|]; cbn [step].
  - destruct (decide _); [|done]. destruct (wakeup s g v) as [[]|] eqn:E; [|done]. intros [= <- <-]. by eapply Hwk.
  - destruct (decide _); [destruct (wakeup s g v) as [[]|] eqn:E; [|done]; intros [= <- <-]; by eapply Hwk|].
    destruct (decide _); [|done]. destruct (wakeup s g v) as [[]|] eqn:E; [|done]; intros [= <- <-]; by eapply Hwk.
  - destruct (nf s _); [|done]. destruct (wf s _); [done|]. by intros [= <- <-].
  - destruct (decide _); [done|]. destruct (nf s _); [done|]. destruct (wait s AtWait) as [[]|] eqn:E; [|done]. intros [= <- <-]. by rewrite (Hwt _ _ E).
  - destruct (decide _); [done|]. cbn. match goal with |- context [wait ?x _] => destruct (wait x AtExit) as [[]|] eqn:E end; [|done].
    intros [= <- <-]. by rewrite (Hwt _ _ E).
  - destruct (decide _); [|done]. destruct (ready s); [done|]. destruct (decide _); [|done]. by intros [= <- <-].
Qed.
Lemma run_sf es s s' os f : run step s es = Ok s' os -> sf s' f = last_resumer s es f (sf s f).
Proof.
  revert s os. induction es as [|e es IH]; intros s os; cbn [run last_resumer]; [by intros [= <- <-]|].
  destruct (step s e) as [| |s1 o] eqn:E1; try done. destruct (run step s1 es) as [| |s2 os2] eqn:E2; try done. intros [= -> <-].
  rewrite (IH _ _ E2). f_equal. by apply step_sf.
Qed.
