(** Invariants and conservation laws of the kfiber_chan model. *)
From Verif Require Import FchanModel.
Local Open Scope Z_scope.

Definition coherent (c : chan) : Prop :=
  match flag c with
  | NO_WAITER => chw c = []
  | RECV_WAITER => chw c <> [] /\ Forall (λ w, wrole w = Receiver) (chw c)
  | SEND_WAITER => chw c <> [] /\ Forall (λ w, wrole w = Sender /\ wobj w = warg w) (chw c)
  end /\ (closed c = true -> chw c = []).
Definition I (s : sys) : Prop :=
  coherent (ch s) /\ Forall (λ w, wrole w = Sender) (deferred s) /\
  Forall (λ x, x.2 <> 0 -> closed (ch s) = true /\ (wrole x.1 = Receiver -> wobj x.1 = 0)) (woken s) /\
  Forall (λ x, x.2 = 0 \/ x.2 = -1) (woken s).

Lemma I_init : I sys_init.
Proof. split_and!; cbn; try constructor; done. Qed.

Lemma I_safe s e : I s -> step s e <> Crash.
Proof.
  intros ((Hc & Hcl) & _). destruct s as [[ws fl cl] wk df]; cbn in *. destruct e as [f d|f b|f g| |f]; cbn.
  - destruct (decide _); [done|]. unfold chan_send; cbn. destruct cl; [done|]. destruct fl; destruct ws; naive_solver.
  - destruct (decide _); [done|]. unfold chan_recv; cbn. destruct fl; destruct ws, cl; naive_solver.
  - by destruct (list_find _ _) as [[? ?]|].
  - unfold chan_close; cbn. destruct cl; [|done]. by rewrite Hcl.
  - by destruct (list_find _ _) as [[? [? ?]]|].
Qed.

Lemma list_find_perm {A} (P : A -> Prop) `{!∀ x, Decision (P x)} l i x :
  list_find P l = Some (i, x) -> l ≡ₚ x :: delete i l /\ P x.
Proof. intros (Hi & HP & _)%list_find_Some. split; [|done]. by apply delete_Permutation. Qed.

Lemma I_step s e s' o : wake0 e -> I s -> step s e = Ok s' o -> I s'.
Proof.
  intros Hw0 ((Hc & Hcl) & Hd & Hw & Hw2). destruct s as [[ws fl cl] wk df]; cbn in *. destruct e as [f d|f b|f g| |f]; cbn.
  - destruct (decide _); [done|]. unfold chan_send; cbn. destruct cl; [intros [= <- <-]; by split_and!|].
    destruct fl; destruct ws as [|w ws]; try naive_solver; intros [= <- <-]; split_and!; cbn in *; try done;
      repeat constructor; cbn; try done; try naive_solver.
    + destruct Hc as [_ Hc]. apply Forall_cons in Hc as [? Hc]. destruct ws; cbn; [done|]. done.
    + destruct Hc as [_ Hc]. by apply Forall_cons in Hc as [[? ?] ?].
    + destruct Hc as [_ Hc]. by apply Forall_cons in Hc as [[? ?] ?].
    + destruct Hc as [_ Hc]. by apply Forall_cons in Hc as [[? ?] ?].
  - destruct (decide _); [done|]. unfold chan_recv; cbn.
    destruct fl.
    + subst ws. destruct cl; intros [= <- <-]; split_and!; cbn; try done. split; [|done]. cbn. split; [done|]. by repeat constructor.
    + destruct Hc as [Hne Hc]. destruct ws as [|w ws]; [done|]. destruct cl; [by specialize (Hcl eq_refl)|].
      intros [= <- <-]; split_and!; cbn; try done. split; [|done]. cbn. split; [done|]. by constructor.
    + destruct Hc as [Hne Hc]. destruct ws as [|w ws]; [done|]. destruct cl; [by specialize (Hcl eq_refl)|].
      apply Forall_cons in Hc as [[Hr Ho] Hc].
      destruct b; intros [= <- <-]; (split_and!; cbn; try done);
      try (split; [|done]; cbn; destruct ws; cbn; naive_solver); try (constructor; [cbn; naive_solver|done]); try (by constructor).
  - cbn in Hw0. subst g. destruct (list_find _ _) as [[i w]|] eqn:E; [|done]. intros [= <- <-].
    apply list_find_perm in E as [Hp _]. rewrite Hp in Hd. apply Forall_cons in Hd as [? ?].
    split_and!; cbn; try done; constructor; cbn; try done; try naive_solver.
  - unfold chan_close; cbn. destruct cl.
    + specialize (Hcl eq_refl). subst ws. intros [= <- <-]. split_and!; cbn; try done.
    + intros [= <- <-]. split_and!; cbn; try done.
      * apply Forall_app. split; [|eapply Forall_impl; [exact Hw|naive_solver]].
        apply Forall_fmap, Forall_fmap, Forall_forall. intros x _. cbn. done.
      * apply Forall_app. split; [|done]. apply Forall_fmap, Forall_fmap, Forall_forall. intros x _. cbn. by right.
  - destruct (list_find _ _) as [[i [w c]]|] eqn:E; [|done]. intros [= <- <-].
    apply list_find_perm in E as [Hp _]. rewrite Hp in Hw, Hw2. apply Forall_cons in Hw as [? ?], Hw2 as [? ?].
    split_and!; cbn; try done.
Qed.

(** one step conserves messages *)
Lemma step_sends s e s' o : wake0 e -> I s -> step s e = Ok s' o ->
  attempted [e] ++ suspended_sends s ++ handed_sends s ++ refused_sends s ≡ₚ
  sent_ok [o] ++ sent_fail [o] ++ suspended_sends s' ++ handed_sends s' ++ refused_sends s'.
Proof.
  intros Hw0 ((Hc & Hcl) & Hd & Hw & Hw2). destruct s as [[ws fl cl] wk df]; cbn -[suspended_sends handed_sends refused_sends] in *.
  unfold suspended_sends, handed_sends, refused_sends. destruct e as [f d|f b|f g| |f]; cbn [step ch chw woken deferred].
  - destruct (decide _); [done|]. unfold chan_send; cbn [flag closed chw]. destruct cl; [intros [= <- <-]; cbn; done|].
    destruct fl; destruct ws as [|w ws]; try naive_solver; intros [= <- <-]; cbn [attempted sent_ok sent_fail omap list_omap app ch chw woken deferred fst snd wrole].
    + destruct Hc as [_ Hc]. apply Forall_cons in Hc as [Hr _].
      rewrite filter_cons_False by (rewrite Hr; done). rewrite Hr. cbn [wrole]. done.
  - destruct (decide _); [done|]. unfold chan_recv; cbn [flag closed chw].
    destruct fl; destruct ws as [|w ws], cl; try naive_solver; try (intros [= <- <-]; cbn; done).
    destruct Hc as [_ Hc]. apply Forall_cons in Hc as [[Hr Ho] Hc]. 
    destruct b; intros [= <- <-]; cbn [attempted sent_ok sent_fail omap list_omap app ch chw woken deferred fst snd wrole];
      rewrite filter_cons_True by done; rewrite ?Hr, ?fmap_cons; cbn [app]; solve_Permutation.
  - cbn in Hw0. subst g. destruct (list_find _ _) as [[i w]|] eqn:E; [|done]. intros [= <- <-].
    apply list_find_perm in E as [Hp _]. rewrite Hp in Hd. apply Forall_cons in Hd as [Hr _]. 
    cbn [attempted sent_ok sent_fail omap list_omap app ch chw woken deferred fst snd wrole].
    rewrite Hp at 1. rewrite Hr. rewrite fmap_cons. cbn [app]. solve_Permutation.
  - unfold chan_close; cbn [flag closed chw]. destruct cl.
    + rewrite Hcl by done. intros [= <- <-]. done.
    + intros [= <- <-]. cbn [attempted sent_ok sent_fail omap list_omap app ch chw woken deferred fst snd wrole].
      rewrite !omap_app. cbn [filter list_filter]. clear.
      assert (forall l, omap (λ x : waiter * Z, match wrole x.1, x.2 with Sender, 0 => Some (warg x.1) | _, _ => None end)
        ((λ w, (w, -1)) <$> ((λ w, mkw (wrole w) (wfib w) (warg w) 0) <$> l)) = []) as ->.
      { intros l. induction l as [|x l IH]; [done|]. cbn. destruct (wrole x); exact IH. }
      assert (forall l, omap (λ x : waiter * Z, match wrole x.1, x.2 with Sender, 0 => None | Sender, _ => Some (warg x.1) | _, _ => None end)
        ((λ w, (w, -1)) <$> ((λ w, mkw (wrole w) (wfib w) (warg w) 0) <$> l)) = warg <$> filter (λ w, wrole w = Sender) l) as ->.
      { intros l. induction l as [|x l IH]; [done|]. rewrite filter_cons, !fmap_cons. cbn [omap list_omap fst snd wrole warg]. destruct (wrole x); [rewrite decide_True by done|rewrite decide_False by done]; rewrite ?fmap_cons; by rewrite IH || (f_equal; exact IH). }
      cbn. solve_Permutation.
  - destruct (list_find _ _) as [[i [w c]]|] eqn:E; [|done]. intros [= <- <-].
    apply list_find_perm in E as [Hp _]. cbn [ch chw woken deferred]. rewrite Hp at 1 2. cbn [attempted omap list_omap app fst snd].
    unfold finish. destruct (wrole w); destruct c; cbn; solve_Permutation.
Qed.
Lemma step_recvs s e s' o : wake0 e -> I s -> step s e = Ok s' o ->
  received [o] ++ arriving s' ++ handed_sends s ≡ₚ arriving s ++ sent_ok [o] ++ handed_sends s'.
Proof.
  intros Hw0 ((Hc & Hcl) & Hd & Hw & Hw2). destruct s as [[ws fl cl] wk df]; cbn -[suspended_sends handed_sends refused_sends] in *.
  unfold arriving, handed_sends. destruct e as [f d|f b|f g| |f]; cbn [step ch chw woken deferred].
  - destruct (decide _); [done|]. unfold chan_send; cbn [flag closed chw]. destruct cl; [intros [= <- <-]; cbn; done|].
    destruct fl; destruct ws as [|w ws]; try naive_solver; intros [= <- <-]; cbn [received sent_ok omap list_omap app ch chw woken deferred fst snd wrole wobj]; try done.
    destruct Hc as [_ Hc]. apply Forall_cons in Hc as [Hr _]. rewrite Hr. cbn. solve_Permutation.
  - destruct (decide _); [done|]. unfold chan_recv; cbn [flag closed chw].
    destruct fl; destruct ws as [|w ws], cl; try naive_solver; try (intros [= <- <-]; cbn; done).
    destruct Hc as [_ Hc]. apply Forall_cons in Hc as [[Hr Ho] Hc]. 
    destruct b; intros [= <- <-]; cbn [received sent_ok omap list_omap app ch chw woken deferred fst snd wrole];
      rewrite ?Hr, ?fmap_cons, ?Ho; cbn [app]; solve_Permutation.
  - cbn in Hw0. subst g. destruct (list_find _ _) as [[i w]|] eqn:E; [|done]. intros [= <- <-].
    apply list_find_perm in E as [Hp _]. rewrite Hp in Hd. apply Forall_cons in Hd as [Hr _]. 
    cbn [received sent_ok omap list_omap app ch chw woken deferred fst snd wrole].
    rewrite Hp at 1. rewrite Hr. rewrite fmap_cons. cbn [app]. solve_Permutation.
  - unfold chan_close; cbn [flag closed chw]. destruct cl.
    + rewrite Hcl by done. intros [= <- <-]. cbn. solve_Permutation.
    + intros [= <- <-]. cbn [received sent_ok sent_fail omap list_omap app ch chw woken deferred fst snd wrole].
      rewrite !omap_app. clear.
      assert (forall l, omap (λ x : waiter * Z, match wrole x.1, x.2 with Sender, 0 => Some (warg x.1) | _, _ => None end)
        ((λ w, (w, -1)) <$> ((λ w, mkw (wrole w) (wfib w) (warg w) 0) <$> l)) = []) as ->.
      { intros l. induction l as [|x l IH]; [done|]. cbn. destruct (wrole x); exact IH. }
      assert (forall l, omap (λ x : waiter * Z, match wrole x.1, x.2 with Receiver, 0 => Some (wobj x.1) | _, _ => None end)
        ((λ w, (w, -1)) <$> ((λ w, mkw (wrole w) (wfib w) (warg w) 0) <$> l)) = []) as ->.
      { intros l. induction l as [|x l IH]; [done|]. cbn. destruct (wrole x); exact IH. }
      cbn. solve_Permutation.
  - destruct (list_find _ _) as [[i [w c]]|] eqn:E; [|done]. intros [= <- <-].
    apply list_find_perm in E as [Hp _]. cbn [ch chw woken deferred]. rewrite Hp at 2 3. cbn [received sent_ok omap list_omap app fst snd].
    unfold finish. destruct (wrole w); destruct c; cbn; solve_Permutation.
Qed.

Lemma run_I es s s' os : Forall wake0 es -> I s -> run step s es = Ok s' os -> I s'.
Proof.
  revert s os. induction es as [|e es IH]; intros s os Hf HI; cbn; [by intros [= <- <-]|].
  apply Forall_cons in Hf as [H0 Hf]. destruct (step s e) as [| |s1 o] eqn:E1; try done.
  destruct (run step s1 es) as [| |s2 os2] eqn:E2; try done. intros [= -> <-]. eapply IH; [done| |done]. by eapply I_step.
Qed.
Lemma run_safe es s : Forall wake0 es -> I s -> run step s es <> Crash.
Proof.
  revert s. induction es as [|e es IH]; intros s Hf HI; cbn; [done|].
  apply Forall_cons in Hf as [H0 Hf]. destruct (step s e) as [| |s1 o] eqn:E1; try done; [by apply I_safe in E1|].
  assert (HI1: I s1) by (by eapply I_step). specialize (IH s1 Hf HI1). by destruct (run step s1 es).
Qed.
Lemma omap_cons1 {A B} (f : A -> option B) x l : omap f (x :: l) = omap f [x] ++ omap f l.
Proof. cbn. by destruct (f x). Qed.
Lemma perm_chain1 (A1 A2 K1 K2 F1 F2 S0 S1 S2 : list Z) : A1 ++ S0 ≡ₚ K1 ++ F1 ++ S1 -> A2 ++ S1 ≡ₚ K2 ++ F2 ++ S2 ->
  (A1 ++ A2) ++ S0 ≡ₚ (K1 ++ K2) ++ (F1 ++ F2) ++ S2.
Proof.
  intros H1 H2. trans (A2 ++ (A1 ++ S0)); [solve_Permutation|]. rewrite H1.
  trans (K1 ++ F1 ++ (A2 ++ S1)); [solve_Permutation|]. rewrite H2. solve_Permutation.
Qed.
Lemma perm_chain2 (R1 R2 A0 A1 A2 K1 K2 H0 H1 H2 : list Z) : R1 ++ A1 ++ H0 ≡ₚ A0 ++ K1 ++ H1 -> R2 ++ A2 ++ H1 ≡ₚ A1 ++ K2 ++ H2 ->
  (R1 ++ R2) ++ A2 ++ H0 ≡ₚ A0 ++ (K1 ++ K2) ++ H2.
Proof.
  intros E1 E2. apply (Permutation_app_inv_l (A1 ++ H1)).
  trans ((R1 ++ A1 ++ H0) ++ (R2 ++ A2 ++ H1)); [solve_Permutation|]. rewrite E1, E2. solve_Permutation.
Qed.
Lemma run_sends es s s' os : Forall wake0 es -> I s -> run step s es = Ok s' os ->
  attempted es ++ suspended_sends s ++ handed_sends s ++ refused_sends s ≡ₚ
  sent_ok os ++ sent_fail os ++ suspended_sends s' ++ handed_sends s' ++ refused_sends s'.
Proof.
  revert s os. induction es as [|e es IH]; intros s os Hf HI; cbn [run]; [by intros [= <- <-]|].
  apply Forall_cons in Hf as [H0 Hf]. destruct (step s e) as [| |s1 o] eqn:E1; try done.
  destruct (run step s1 es) as [| |s2 os2] eqn:E2; try done. intros [= -> <-].
  assert (HI1: I s1) by (by eapply I_step).
  specialize (IH _ _ Hf HI1 E2). pose proof (step_sends _ _ _ _ H0 HI E1) as H1.
  unfold attempted, sent_ok, sent_fail in *. rewrite (omap_cons1 _ e), !(omap_cons1 _ o os2).
  by eapply perm_chain1.
Qed.
Lemma run_recvs es s s' os : Forall wake0 es -> I s -> run step s es = Ok s' os ->
  received os ++ arriving s' ++ handed_sends s ≡ₚ arriving s ++ sent_ok os ++ handed_sends s'.
Proof.
  revert s os. induction es as [|e es IH]; intros s os Hf HI; cbn [run]; [by intros [= <- <-]|].
  apply Forall_cons in Hf as [H0 Hf]. destruct (step s e) as [| |s1 o] eqn:E1; try done.
  destruct (run step s1 es) as [| |s2 os2] eqn:E2; try done. intros [= -> <-].
  assert (HI1: I s1) by (by eapply I_step).
  specialize (IH _ _ Hf HI1 E2). pose proof (step_recvs _ _ _ _ H0 HI E1) as H1.
  unfold received, sent_ok in *. rewrite !(omap_cons1 _ o os2).
  by eapply perm_chain2.
Qed.
(** closed is for ever; a send fails only when closed *)
Lemma closed_step s e s' o : closed (ch s) = true -> step s e = Ok s' o -> closed (ch s') = true.
Proof.
  intros Hc. destruct s as [[ws fl cl] wk df]; cbn in *. subst cl. destruct e as [f d|f b|f g| |f]; cbn.
  - destruct (decide _); [done|]. unfold chan_send; cbn. by intros [= <- <-].
  - destruct (decide _); [done|]. unfold chan_recv; cbn. destruct fl, ws, b; try done; by intros [= <- <-].
  - destruct (list_find _ _) as [[i w]|] eqn:E; [|done]. by intros [= <- <-].
  - unfold chan_close; cbn. destruct ws; [|done]. by intros [= <- <-].
  - destruct (list_find _ _) as [[i [w c]]|] eqn:E; [|done]. by intros [= <- <-].
Qed.
Lemma closed_run es s s' os : closed (ch s) = true -> run step s es = Ok s' os -> closed (ch s') = true.
Proof. intros H. apply (run_inv step (λ s, closed (ch s) = true) closed_step es s s' os H). Qed.
Lemma fail_closed_step s e s' o : wake0 e -> I s -> step s e = Ok s' o -> sent_fail [o] <> [] -> closed (ch s') = true.
Proof.
  intros H0 HI Hst. assert (HI': I s') by (by eapply I_step). destruct HI as ((Hc & Hcl) & Hd & Hw & Hw2).
  destruct s as [[ws fl cl] wk df]; cbn in *. destruct e as [f d|f b|f g| |f]; cbn in *.
  - destruct (decide _); [done|]. unfold chan_send in Hst; cbn in *. destruct cl; [by injection Hst as <- <-|].
    destruct fl, ws; try done; injection Hst as <- <-; cbn; done.
  - destruct (decide _); [done|]. unfold chan_recv in Hst; cbn in *. destruct fl, ws, cl, b; try done; injection Hst as <- <-; cbn; done.
  - destruct (list_find _ _) as [[i w]|] eqn:E; [|done]. by injection Hst as <- <-.
  - unfold chan_close in Hst; cbn in *. destruct cl; [destruct ws; [|done]|]; by injection Hst as <- <-.
  - destruct (list_find _ _) as [[i [w c]]|] eqn:E; [|done]. injection Hst as <- <-. cbn.
    apply list_find_perm in E as [Hp _]. rewrite Hp in Hw. apply Forall_cons in Hw as [Hx _]. cbn in Hx.
    unfold finish. destruct (wrole w); [|done]. destruct c; [done|..]; intros _; by apply Hx.
Qed.
Lemma fail_closed es s s' os : Forall wake0 es -> I s -> run step s es = Ok s' os -> sent_fail os <> [] -> closed (ch s') = true.
Proof.
  revert s os. induction es as [|e es IH]; intros s os Hf HI; cbn [run]; [by intros [= <- <-]|].
  apply Forall_cons in Hf as [H0 Hf]. destruct (step s e) as [| |s1 o] eqn:E1; try done.
  destruct (run step s1 es) as [| |s2 os2] eqn:E2; try done. intros [= -> <-].
  assert (HI1: I s1) by (by eapply I_step). unfold sent_fail. rewrite omap_cons1. intros Hne.
  destruct (decide (sent_fail os2 = [])) as [E|E]; [|by eapply IH].
  unfold sent_fail in E. rewrite E, app_nil_r in Hne. eapply closed_run; [|exact E2]. exact (fail_closed_step _ _ _ _ H0 HI E1 Hne).
Qed.
