From Verif Require Import FlifeModel.
Local Open Scope Z_scope.

Definition owed (o : fobj) : Z :=
  (if decide (ph o = Gone) then 0 else 1) + handles o + Z.of_nat (length (waiting_joins o)) + Z.of_nat (length (joined o)).
Definition running (p : phase) : Prop := p = Live \/ p = Finishing.
Record O (o : fobj) : Prop := {
  O_ref : ref o = owed o;
  O_alive : alive o = bool_decide (0 < ref o);
  O_frees : frees o = if alive o then 0 else 1;
  O_hd : 0 <= handles o;
  O_none : cond o = None -> handles o = 0 /\ joined o = [];
  O_run : running (ph o) -> joined o = [] /\ forall c, cond o = Some c -> cev c = 0;
  O_fin : ~ running (ph o) -> forall c, cond o = Some c -> cwait c = [] /\ (0 < handles o -> 0 < cev c);
  O_auto : forall c, cond o = Some c -> cauto c = true -> handles o + Z.of_nat (length (cwait c)) <= 1;
  O_man : forall c, cond o = Some c -> cauto c = false -> ~ running (ph o) -> cev c = 1;
  O_ev : forall c, cond o = Some c -> 0 <= cev c }.
Definition I (s : sys) : Prop :=
  NoDup (made s) /\ (forall f, f ∈ made s -> O (obj s f)) /\
  fcount s = Z.of_nat (length (filter (λ f, alive (obj s f) = true) (made s))).

Lemma I_init : I sys_init.
Proof. split_and!; cbn; [constructor|set_solver|done]. Qed.
Lemma O_new hd : O (new_fobj hd).
Proof. destruct hd; split; unfold owed, waiting_joins, running; cbn; intros; try done; naive_solver. Qed.

(** put: same liveness *)
Lemma I_put s f o : I s -> f ∈ made s -> O o -> alive o = alive (obj s f) -> I (put s f o).
Proof.
  intros (Hn & HO & Hc) Hf Ho Ha. split_and!; cbn; [done| |].
  - intros g Hg. destruct (decide (g = f)); [done|by apply HO].
  - rewrite Hc. f_equal. f_equal. apply list_filter_iff. intros g. destruct (decide (g = f)) as [->|]; [by rewrite Ha|done].
Qed.
Lemma I_drop s f r out_ : I s -> f ∈ made s -> alive (obj s f) = true ->
  (exists o b, r = Some (o, b) /\ O o /\ alive o = negb b) -> exists s', drop s f r out_ = Ok s' out_ /\ I s'.
Proof.
  intros (Hn & HO & Hc) Hf Ha (o & b & -> & Ho & Hb). cbn. eexists. split; [reflexivity|]. split_and!; cbn; [done| |].
  - intros g Hg. destruct (decide (g = f)); [done|by apply HO].
  - rewrite Hc. clear Hc HO. assert (Hlen: forall l, NoDup l -> Z.of_nat (length (filter (λ g, alive (if decide (g = f) then o else obj s g) = true) l)) =
      Z.of_nat (length (filter (λ g, alive (obj s g) = true) l)) - (if decide (f ∈ l) then if b then 1 else 0 else 0)).
    { induction l as [|x l IH]; [done|]. intros [Hx Hl]%NoDup_cons. rewrite !filter_cons. specialize (IH Hl).
      destruct (decide (x = f)) as [->|Hxf].
      - rewrite (decide_True (P := f ∈ f :: l)) by by left. rewrite (decide_False (P := f ∈ l)) in IH by done. rewrite Ha. rewrite Hb.
        rewrite (decide_True (P := true = true)) by done. destruct b; cbn; [rewrite decide_False by done; lia|rewrite decide_True by done; cbn; lia].
      - destruct (decide (f ∈ l)) as [Hfl|Hfl].
        + rewrite (decide_True (P := f ∈ x :: l)) by by right. destruct (decide (alive (obj s x) = true)); cbn; lia.
        + rewrite (decide_False (P := f ∈ x :: l)) by set_solver. destruct (decide (alive (obj s x) = true)); cbn; lia. }
    rewrite Hlen by done. rewrite (decide_True (P := f ∈ made s)) by done. destruct b; lia.
Qed.
(** the release of one owed reference *)
Lemma release_spec o : alive o = true -> ref o = owed o + 1 ->
  frees o = 0 -> 0 <= handles o -> (cond o = None -> handles o = 0 /\ joined o = []) ->
  (running (ph o) -> joined o = [] /\ forall c, cond o = Some c -> cev c = 0) ->
  (~ running (ph o) -> forall c, cond o = Some c -> cwait c = [] /\ (0 < handles o -> 0 < cev c)) ->
  (forall c, cond o = Some c -> cauto c = true -> handles o + Z.of_nat (length (cwait c)) <= 1) ->
  (forall c, cond o = Some c -> cauto c = false -> ~ running (ph o) -> cev c = 1) ->
  (forall c, cond o = Some c -> 0 <= cev c) ->
  exists o' b, release o = Some (o', b) /\ O o' /\ alive o' = negb b.
Proof.
  intros Ha Hr Hf Hh Hno Hrn Hfi Hau Hma Hev. unfold release. rewrite Ha. cbn.
  assert (H0: 0 <= owed o) by (unfold owed; destruct (decide _); lia).
  destruct (bool_decide_reflect (ref o - 1 = 0)) as [E|E].
  - assert (Hfin: ~ running (ph o)). { unfold owed in *. destruct (decide _) as [Hg|]; [|lia]. rewrite Hg. intros [?|?]; done. }
    assert (exists o', (match cond o with Some c => match cwait c with [] => Some (mkf false 0 (cond o) (retv o) (ph o) (handles o) (joined o) (frees o + 1) (posted o), true) | _ => None end
      | None => Some (mkf false 0 (cond o) (retv o) (ph o) (handles o) (joined o) (frees o + 1) (posted o), true) end) = Some (o', true)
      /\ o' = mkf false 0 (cond o) (retv o) (ph o) (handles o) (joined o) (frees o + 1) (posted o)) as (o' & -> & ->).
    { destruct (cond o) as [c|] eqn:Ec; [|eauto]. destruct (Hfi Hfin _ eq_refl) as [-> _]. eauto. }
    eexists _, true. split; [reflexivity|]. split; [|done]. split; cbn; try done; [|lia].
    change (owed _) with (owed o). lia.
  - eexists _, false. split; [reflexivity|]. split; [|done]. split; cbn; try done.
    + change (owed (mkf _ _ _ _ _ _ _ _ _)) with (owed o). lia.
    + symmetry. apply bool_decide_eq_true_2. lia.
Qed.
Lemma O_owed o : O o -> ph o <> Gone \/ 0 < handles o \/ joined o <> [] -> alive o = true.
Proof.
  intros [] H. rewrite O_alive0. apply bool_decide_eq_true_2. rewrite O_ref0. unfold owed.
  destruct (decide _); destruct H as [H|[H|H]]; try done; try lia; destruct (joined o); try done; cbn; lia.
Qed.
Lemma step_spec s e : I s -> match step true s e with Crash => False | Disabled => True | Ok s' _ => I s' end.
Proof.
  intros HI. pose proof HI as (Hn & HO & Hc). destruct e as [f hd|f v|f|f j|f v|f|f|f j|f|f j|f j]; cbn [step].
  - destruct (decide _) as [|Hf]; [done|]. split_and!; cbn [made obj fcount].
    + by constructor.
    + intros g Hg. destruct (decide (g = f)); [apply O_new|]. apply HO. set_solver.
    + rewrite filter_cons. rewrite (decide_True (P := f = f)) by done. rewrite decide_True by by destruct hd. cbn [length]. rewrite Hc.
      assert (filter (λ g, alive (if decide (g = f) then new_fobj hd else obj s g) = true) (made s) = filter (λ g, alive (obj s g) = true) (made s)) as ->; [|lia].
      clear -Hf. induction (made s) as [|x l IH]; [done|]. rewrite !filter_cons. rewrite (decide_False (P := x = f)) by set_solver.
      rewrite IH by set_solver. done.
  - destruct (decide _) as [(Hf & Hp)|]; [|done]. pose proof (HO f Hf) as Ho.
    rewrite (O_owed _ Ho) by (left; congruence). apply I_put; [done|done| |done]. destruct Ho. split; cbn; try done.
  - destruct (decide _) as [(Hf & Hp & Hm)|]; [|done]. pose proof (HO f Hf) as Ho.
    pose proof (O_owed _ Ho ltac:(left; congruence)) as Ha. rewrite Ha. apply I_put; [done|done| |done].
    destruct Ho as [Hr Hal Hfr Hhd Hno Hrn Hfi Hau Hma Hev]. rewrite Ha in Hal. symmetry in Hal. apply bool_decide_eq_true_1 in Hal.
    destruct (Hrn (or_introl Hp)) as [Hj Hev0]. unfold more_ok in Hm. cbn in Hm.
    split; cbn.
    + unfold owed, waiting_joins in *. cbn. rewrite Hp in *. rewrite Hj in *. destruct (cond (obj s f)); cbn in *; lia.
    + symmetry. apply bool_decide_eq_true_2. lia.
    + by rewrite Ha in *.
    + lia.
    + done.
    + intros _. split; [done|]. intros c [= <-]. destruct (cond (obj s f)) as [c|] eqn:Ec; [by apply Hev0|done].
    + intros []. by left.
    + intros c [= <-]. destruct (cond (obj s f)) as [c|] eqn:Ec; cbn; [intros E; by rewrite E in Hm|]. intros _. destruct (Hno eq_refl) as [-> _]. lia.
    + intros c _ _ []. by left.
    + intros c [= <-]. destruct (cond (obj s f)) as [c|] eqn:Ec; cbn; [by apply Hev|lia].
  - destruct (decide _) as [(Hf & Hp & Hm)|]; [|done]. pose proof (HO f Hf) as Ho.
    pose proof (O_owed _ Ho ltac:(left; congruence)) as Ha. rewrite Ha.
    destruct Ho as [Hr Hal Hfr Hhd Hno Hrn Hfi Hau Hma Hev].
    destruct (Hrn (or_introl Hp)) as [Hj Hev0]. unfold more_ok in Hm. cbn in Hm.
    assert (Hcev: cev (match cond (obj s f) with Some c => c | None => mkcc true 0 [] end) = 0).
    { destruct (cond (obj s f)) as [c|] eqn:Ec; [by apply Hev0|done]. }
    rewrite bool_decide_eq_false_2 by lia. apply I_put; [done|done| |done]. split; cbn; try done.
    + rewrite Hr. unfold owed, waiting_joins. cbn. by destruct (cond (obj s f)).
    + intros _. split; [done|]. by intros c [= <-].
    + intros []. by left.
    + intros c [= <-]. cbn. destruct (cond (obj s f)) as [c|] eqn:Ec; cbn; [intros E; by rewrite E in Hm|]. intros _. destruct (Hno eq_refl) as [-> _]. lia.
    + intros c _ _ []. by left.
    + intros c [= <-]. cbn. lia.
  - destruct (decide _) as [(Hf & Hp)|]; [|done]. pose proof (HO f Hf) as Ho.
    rewrite (O_owed _ Ho) by (left; congruence). apply I_put; [done|done| |done].
    destruct Ho as [Hr Hal Hfr Hhd Hno Hrn Hfi Hau Hma Hev]. split; cbn; try done.
    + rewrite Hr. unfold owed. cbn. by rewrite Hp.
    + intros _. apply Hrn. by left.
    + intros []. by right.
    + intros c _ _ []. by right.
  - destruct (decide _) as [(Hf & Hp)|]; [|done]. pose proof (HO f Hf) as Ho.
    rewrite (O_owed _ Ho) by (left; congruence).
    assert (alive (exit_notice (obj s f) (retv (obj s f))) = alive (obj s f)) as Hal2.
    { unfold exit_notice. destruct (cond (obj s f)) as [c|]; [|done]. by destruct (cnotice c). }
    apply I_put; [done|done| |done].
    destruct Ho as [Hr Hal Hfr Hhd Hno Hrn Hfi Hau Hma Hev]. destruct (Hrn (or_intror Hp)) as [Hj Hev0].
    unfold exit_notice. destruct (cond (obj s f)) as [c|] eqn:Ec.
    2:{ split; cbn; try done; try (by intros [?|?]). rewrite Hr. unfold owed, waiting_joins. cbn. by rewrite Hp, Ec. }
    specialize (Hev0 _ eq_refl). unfold cnotice. destruct (cauto c) eqn:Ea; [destruct (cwait c) as [|w ws] eqn:Ew|].
    + split; cbn; try done; try (intros [?|?]; done).
      * rewrite Hr. unfold owed, waiting_joins. cbn. rewrite Hp, Ec, Ew, Hj. cbn. done.
      * intros _ c' [= <-]. cbn. split; [done|lia].
      * intros c' [= <-]. cbn. intros _. specialize (Hau _ eq_refl Ea). rewrite Ew in Hau. cbn in Hau. lia.
      * intros c' [= <-]. done.
      * intros c' [= <-]. cbn. lia.
    + specialize (Hau _ eq_refl Ea). rewrite Ew in Hau. cbn [length] in Hau. assert (ws = []) as -> by (destruct ws; [done|cbn [length] in *; lia]).
      split; cbn; try done; try (intros [?|?]; done).
      * rewrite Hr. unfold owed, waiting_joins. cbn. rewrite Hp, Ec, Ew, Hj. cbn. rewrite !decide_False by done. destruct (is_fib w); cbn; lia.
      * intros _ c' [= <-]. cbn. split; [done|lia].
      * intros c' [= <-]. cbn. intros _. lia.
      * intros c' [= <-]. done.
      * intros c' [= <-]. cbn. lia.
    + split; cbn; try done; try (intros [?|?]; done).
      * rewrite Hr. unfold owed, waiting_joins. cbn. rewrite Hp, Ec, Hj. rewrite !decide_False by done. cbn. lia.
      * intros _ c' [= <-]. cbn. split; [done|lia].
      * intros c' [= <-]. done.
      * intros c' [= <-]. done.
      * intros c' [= <-]. cbn. lia.
  - destruct (decide _) as [(Hf & Hp)|]; [|done]. pose proof (HO f Hf) as Ho.
    pose proof (O_owed _ Ho ltac:(left; congruence)) as Ha.
    destruct Ho as [Hr Hal Hfr Hhd Hno Hrn Hfi Hau Hma Hev].
    edestruct (I_drop s f (release (set_ph (obj s f) Gone)) ODone HI Hf Ha) as (s' & -> & ?); [|done].
    assert (Hnr: ~ running (ph (obj s f))) by (rewrite Hp; intros [?|?]; done).
    apply release_spec; cbn; try done; try (intros [?|?]; done).
    + rewrite Hr. unfold owed. cbn. rewrite Hp. rewrite decide_False, decide_True by done. cbn. change (waiting_joins (set_ph (obj s f) Gone)) with (waiting_joins (obj s f)). lia.
    + by rewrite Ha in Hfr.
    + intros _. by apply Hfi.
    + intros. by apply Hma.
  - destruct (decide _) as [(Hf & Hp)|]; [|done]. pose proof (HO f Hf) as Ho.
    pose proof (O_owed _ Ho ltac:(right; by left)) as Ha. rewrite Ha.
    destruct Ho as [Hr Hal Hfr Hhd Hno Hrn Hfi Hau Hma Hev].
    destruct (cond (obj s f)) as [c|] eqn:Ec; [|destruct (Hno eq_refl); lia]. rewrite Ha in Hfr.
    destruct (bool_decide_reflect (cev c > 0)) as [E|E].
    + assert (Hnr: ~ running (ph (obj s f))) by (intros H; destruct (Hrn H) as [_ Hx]; specialize (Hx _ eq_refl); lia).
      edestruct (I_drop s f (release (use_handle (set_cond (obj s f) (take c)))) (ORet (retv (obj s f))) HI Hf Ha) as (s' & -> & ?); [|done].
      apply release_spec; cbn; try done; try lia.
      * rewrite Hr. unfold owed, waiting_joins. cbn. rewrite Ec. lia.
      * intros _ c' [= <-]. cbn. destruct (Hfi Hnr _ eq_refl) as [Hw _]. split; [done|].
        intros Hh2. destruct (cauto c) eqn:Ea; [|lia]. specialize (Hau _ eq_refl Ea). lia.
      * intros c' [= <-] Ea. cbn in *. specialize (Hau _ eq_refl Ea). lia.
      * intros c' [= <-] Ea. cbn in *. rewrite Ea. intros. by apply Hma.
      * intros c' [= <-]. cbn. destruct (cauto c); lia.
    + assert (Hrun: running (ph (obj s f))).
      { destruct (decide (ph (obj s f) = Live)); [by left|]. destruct (decide (ph (obj s f) = Finishing)); [by right|].
        destruct (Hfi ltac:(intros [?|?]; done) _ eq_refl) as [_ Hx]. specialize (Hx ltac:(lia)). lia. }
      destruct (Hrn Hrun) as [Hj Hev0]. specialize (Hev0 _ eq_refl).
      apply I_put; [done|done| |done]. split; cbn; try done; try lia.
      * rewrite Hr. unfold owed, waiting_joins. cbn. rewrite Ec. cbn. lia.
      * by rewrite Ha.
      * intros _. split; [done|]. by intros c' [= <-].
      * intros c' [= <-] Ea. cbn in *. specialize (Hau _ eq_refl Ea). lia.
      * intros c' [= <-]. cbn. lia.
  - destruct (decide _) as [(Hf & Hp)|]; [|done]. pose proof (HO f Hf) as Ho.
    pose proof (O_owed _ Ho ltac:(right; by left)) as Ha. rewrite Ha.
    destruct Ho as [Hr Hal Hfr Hhd Hno Hrn Hfi Hau Hma Hev].
    destruct (cond (obj s f)) as [c|] eqn:Ec; [|destruct (Hno eq_refl); lia]. rewrite Ha in Hfr.
    destruct (bool_decide_reflect (cev c > 0)) as [E|E]; [|done].
    assert (Hnr: ~ running (ph (obj s f))) by (intros H; destruct (Hrn H) as [_ Hx]; specialize (Hx _ eq_refl); lia).
    edestruct (I_drop s f (release (use_handle (set_cond (obj s f) (take c)))) (ORet (retv (obj s f))) HI Hf Ha) as (s' & -> & ?); [|done].
    apply release_spec; cbn; try done; try lia.
      * rewrite Hr. unfold owed, waiting_joins. cbn. rewrite Ec. lia.
      * intros _ c' [= <-]. cbn. destruct (Hfi Hnr _ eq_refl) as [Hw _]. split; [done|].
        intros Hh2. destruct (cauto c) eqn:Ea; [|lia]. specialize (Hau _ eq_refl Ea). lia.
      * intros c' [= <-] Ea. cbn in *. specialize (Hau _ eq_refl Ea). lia.
      * intros c' [= <-] Ea. cbn in *. rewrite Ea. intros. by apply Hma.
      * intros c' [= <-]. cbn. destruct (cauto c); lia.
  - destruct (decide _) as [(Hf & Hp)|]; [|done]. pose proof (HO f Hf) as Ho.
    pose proof (O_owed _ Ho ltac:(right; by left)) as Ha. rewrite Ha.
    destruct Ho as [Hr Hal Hfr Hhd Hno Hrn Hfi Hau Hma Hev].
    destruct (cond (obj s f)) as [c|] eqn:Ec; [|destruct (Hno eq_refl); lia]. rewrite Ha in Hfr.
    destruct (bool_decide_reflect (cev c > 0)) as [E|E].
    + assert (Hnr: ~ running (ph (obj s f))) by (intros H; destruct (Hrn H) as [_ Hx]; specialize (Hx _ eq_refl); lia).
      edestruct (I_drop s f (release (use_handle (post (set_cond (obj s f) (take c)) j 0))) ODone HI Hf Ha) as (s' & -> & ?); [|done].
      apply release_spec; cbn; try done; try lia.
      * rewrite Hr. unfold owed, waiting_joins. cbn. rewrite Ec. lia.
      * intros _ c' [= <-]. cbn. destruct (Hfi Hnr _ eq_refl) as [Hw _]. split; [done|].
        intros Hh2. destruct (cauto c) eqn:Ea; [|lia]. specialize (Hau _ eq_refl Ea). lia.
      * intros c' [= <-] Ea. cbn in *. specialize (Hau _ eq_refl Ea). lia.
      * intros c' [= <-] Ea. cbn in *. rewrite Ea. intros. by apply Hma.
      * intros c' [= <-]. cbn. destruct (cauto c); lia.
    + assert (Hrun: running (ph (obj s f))).
      { destruct (decide (ph (obj s f) = Live)); [by left|]. destruct (decide (ph (obj s f) = Finishing)); [by right|].
        destruct (Hfi ltac:(intros [?|?]; done) _ eq_refl) as [_ Hx]. specialize (Hx ltac:(lia)). lia. }
      destruct (Hrn Hrun) as [Hj Hev0]. specialize (Hev0 _ eq_refl).
      edestruct (I_drop s f (release (use_handle (set_cond (obj s f) (enq c (true, j))))) ODone HI Hf Ha) as (s' & -> & ?); [|done].
      apply release_spec; cbn; try done; try lia.
      * rewrite Hr. unfold owed, waiting_joins. cbn. rewrite Ec. lia.
      * intros _. split; [done|]. by intros c' [= <-].
      * intros c' [= <-] Ea. cbn in *. specialize (Hau _ eq_refl Ea). lia.
      * intros c' [= <-]. cbn. lia.
  - destruct (decide _) as [(Hf & Hp)|]; [|done]. pose proof (HO f Hf) as Ho.
    assert (Hjn: joined (obj s f) <> []) by (intros E; rewrite E in Hp; by apply elem_of_nil in Hp).
    pose proof (O_owed _ Ho ltac:(right; by right)) as Ha. rewrite Ha.
    destruct Ho as [Hr Hal Hfr Hhd Hno Hrn Hfi Hau Hma Hev].
    assert (Hnr: ~ running (ph (obj s f))) by (intros H; destruct (Hrn H) as [Hx _]; done).
    edestruct (I_drop s f (release (unjoin (obj s f) j)) (ORet (retv (obj s f))) HI Hf Ha) as (s' & -> & ?); [|done].
    rewrite Ha in Hfr. pose proof (remove1_length j _ Hp) as Hl.
    apply release_spec; cbn; try done.
    + rewrite Hr. unfold owed. cbn. change (waiting_joins (unjoin (obj s f) j)) with (waiting_joins (obj s f)). lia.
    + intros Ec. destruct (Hno Ec) as [? ?]. done.
Qed.
Lemma I_step s e s' o : I s -> step true s e = Ok s' o -> I s'.
Proof. intros HI Hs. pose proof (step_spec s e HI) as H. by rewrite Hs in H. Qed.
Lemma I_safe s e : I s -> step true s e <> Crash.
Proof. intros HI Hs. pose proof (step_spec s e HI) as H. by rewrite Hs in H. Qed.


(** the retval field of a finished fiber is what its start function returned *)
Definition Q (pre : list ev) (s : sys) : Prop := forall f,
  (f ∉ made s -> forall v, Return f v ∉ pre) /\
  (f ∈ made s -> (ph (obj s f) = Live -> forall v, Return f v ∉ pre) /\
                 (ph (obj s f) <> Live -> forall v, Return f v ∈ pre <-> v = retv (obj s f))).
Lemma release_eff o o' b : release o = Some (o', b) -> ph o' = ph o /\ retv o' = retv o.
Proof.
  unfold release. destruct (negb _); [done|]. cbn. case_bool_decide.
  - destruct (cond o) as [c|]; [destruct (cwait c); [|done]|]; by intros [= <- <-].
  - by intros [= <- <-].
Qed.
Lemma Q_same pre s s' e : (forall f v, e <> Return f v) -> Q pre s -> made s' = made s ->
  (forall g, ph (obj s g) <> Live -> ph (obj s' g) <> Live /\ retv (obj s' g) = retv (obj s g)) ->
  (forall g, ph (obj s g) = Live -> ph (obj s' g) = Live) -> Q (pre ++ [e]) s'.
Proof.
  intros He HQ Hm H1 H2 f. destruct (HQ f) as [Ha Hb]. rewrite Hm.
  assert (Hin: forall v, Return f v ∈ pre ++ [e] <-> Return f v ∈ pre).
  { intros v. rewrite elem_of_app, elem_of_list_singleton. split; [intros [?|E]; [done|by apply symmetry, He in E]|by left]. }
  split; [intros Hf v; rewrite Hin; by apply Ha|]. intros Hf. destruct (Hb Hf) as [Hc Hd].
  destruct (decide (ph (obj s f) = Live)) as [E|E].
  - split; [intros _ v; rewrite Hin; by apply Hc|]. intros Hx. by rewrite H2 in Hx.
  - destruct (H1 f E) as [E1 E2]. split; [done|]. intros _ v. rewrite Hin, E2. by apply Hd.
Qed.
Lemma drop_Q pre s f r out_ s' o' e o0 : (forall f v, e <> Return f v) -> Q pre s -> r = release o0 ->
  ph o0 = ph (obj s f) \/ (ph o0 <> Live /\ ph (obj s f) <> Live) -> retv o0 = retv (obj s f) ->
  drop s f r out_ = Ok s' o' -> Q (pre ++ [e]) s'.
Proof.
  intros He HQ -> Hp Hrv. unfold drop. destruct (release o0) as [[o1 b]|] eqn:E; [|done]. intros [= <- <-].
  destruct (release_eff _ _ _ E) as [E1 E2]. eapply Q_same; [done|exact HQ|done|..]; cbn; intros g; (destruct (decide (g = f)) as [->|]; [|done]); rewrite ?E1, ?E2, ?Hrv; naive_solver congruence.
Qed.
Lemma Q_step pre s e s' o strict : Q pre s -> step strict s e = Ok s' o -> Q (pre ++ [e]) s'.
Proof.
  intros HQ. destruct e as [f hd|f v|f|f j|f v|f|f|f j|f|f j|f j]; cbn [step].
  - destruct (decide _) as [|Hf]; [done|]. intros [= <- <-]. intros g. destruct (HQ g) as [Ha Hb]. cbn.
    setoid_rewrite elem_of_app. setoid_rewrite elem_of_list_singleton. destruct (decide (g = f)) as [->|Hg].
    + cbn. split; [set_solver|]. intros _. split; [|by destruct hd]. intros _ v. specialize (Ha Hf v). naive_solver.
    + split; [intros Hgm v; specialize (Ha ltac:(set_solver) v); naive_solver|]. intros Hgm. destruct (Hb ltac:(set_solver)) as [Hc Hd].
      split; [naive_solver|]. intros E v. rewrite <- (Hd E v). naive_solver.
  - destruct (decide _) as [(Hf & Hp)|]; [|done]. destruct (alive _); [|done]. intros [= <- <-].
    eapply Q_same; [done|exact HQ|done|..]; cbn; intros g; (destruct (decide (g = f)) as [->|]; cbn; naive_solver congruence).
  - destruct (decide _) as [(Hf & Hp & _)|]; [|done]. destruct (alive _); [|done]. intros [= <- <-].
    eapply Q_same; [done|exact HQ|done|..]; cbn; intros g; (destruct (decide (g = f)) as [->|]; cbn; naive_solver congruence).
  - destruct (decide _) as [(Hf & Hp & _)|]; [|done]. destruct (alive _); [|done]. case_bool_decide; intros [= <- <-];
    (eapply Q_same; [done|exact HQ|done|..]; cbn; intros g; (destruct (decide (g = f)) as [->|]; cbn; naive_solver congruence)).
  - destruct (decide _) as [(Hf & Hp)|]; [|done]. destruct (alive _); [|done]. intros [= <- <-]. intros g. destruct (HQ g) as [Ha Hb]. cbn.
    setoid_rewrite elem_of_app. setoid_rewrite elem_of_list_singleton. split.
    + intros Hg v'. specialize (Ha Hg v'). naive_solver.
    + intros Hg. destruct (Hb Hg) as [Hc Hd]. destruct (decide (g = f)) as [->|Hgf]; cbn.
      * split; [done|]. intros _ v'. specialize (Hc Hp v'). split; [naive_solver|]. intros ->. by right.
      * split; [intros E v'; specialize (Hc E v'); naive_solver|]. intros E v'. rewrite <- (Hd E v'). naive_solver.
  - destruct (decide _) as [(Hf & Hp)|]; [|done]. destruct (alive _); [|done]. intros [= <- <-].
    assert (ph (exit_notice (obj s f) (retv (obj s f))) = Noticed /\ retv (exit_notice (obj s f) (retv (obj s f))) = retv (obj s f)) as [E1 E2].
    { unfold exit_notice. destruct (cond _) as [c|]; [|done]. by destruct (cnotice c). }
    eapply Q_same; [done|exact HQ|done|..]; cbn; intros g; (destruct (decide (g = f)) as [->|]; [rewrite ?E1, ?E2|]; naive_solver congruence).
  - destruct (decide _) as [(Hf & Hp)|]; [|done]. intros Hd. eapply drop_Q; [..|exact Hd]; try done. cbn. right. split; [done|congruence].
  - destruct (decide _) as [(Hf & Hp)|]; [|done]. destruct (alive _); [|done]. destruct (cond _) as [c|]; [|done]. case_bool_decide.
    + intros Hd. eapply drop_Q; [..|exact Hd]; try done. by left.
    + intros [= <- <-]. eapply Q_same; [done|exact HQ|done|..]; cbn; intros g; (destruct (decide (g = f)) as [->|]; cbn; naive_solver congruence).
  - destruct (decide _) as [(Hf & Hp)|]; [|done]. destruct (alive _); [|done]. destruct (cond _) as [c|]; [|done]. case_bool_decide.
    + intros Hd. eapply drop_Q; [..|exact Hd]; try done. by left.
    + intros [= <- <-]. by eapply Q_same.
  - destruct (decide _) as [(Hf & Hp)|]; [|done]. destruct (alive _); [|done]. destruct (cond _) as [c|]; [case_bool_decide|];
     (intros Hd; eapply drop_Q; [..|exact Hd]; try done; by left).
  - destruct (decide _) as [(Hf & Hp)|]; [|done]. destruct (alive _); [|done]. intros Hd. eapply drop_Q; [..|exact Hd]; try done. by left.
Qed.
Lemma Q_run es s s' os pre strict : Q pre s -> run (step strict) s es = Ok s' os -> Q (pre ++ es) s'.
Proof.
  revert s os pre. induction es as [|e es IH]; intros s os pre HQ; cbn [run]; [intros [= <- <-]; by rewrite app_nil_r|].
  destruct (step strict s e) as [| |s1 o] eqn:E1; try done. destruct (run _ s1 es) as [| |s2 os2] eqn:E2; try done. intros [= -> <-].
  rewrite cons_middle, app_assoc. eapply IH; [|exact E2]. by eapply Q_step.
Qed.

(** fibers created with a handle keep their manual-reset condition *)
Definition MC (f : positive) (s : sys) : Prop := f ∈ made s /\ exists c, cond (obj s f) = Some c /\ cauto c = false.
Lemma release_cond o o' b : release o = Some (o', b) -> cond o' = cond o.
Proof.
  unfold release. destruct (negb _); [done|]. cbn. case_bool_decide.
  - destruct (cond o) as [c|]; [destruct (cwait c); [|done]|]; by intros [= <- <-].
  - by intros [= <- <-].
Qed.
Lemma MC_put s f g o : MC f s -> (g = f -> forall c, cond (obj s f) = Some c -> cauto c = false ->
  exists c', cond o = Some c' /\ cauto c' = false) -> MC f (put s g o).
Proof.
  intros [Hm (c & Hc & Ha)] H. split; [done|]. cbn. destruct (decide (f = g)) as [->|]; [by eapply H|eauto].
Qed.
Lemma MC_drop s f g r o s' o' : MC f s -> drop s g r o = Ok s' o' -> (g = f -> forall c, cond (obj s f) = Some c -> cauto c = false ->
  forall x b, r = Some (x, b) -> exists c', cond x = Some c' /\ cauto c' = false) -> MC f s'.
Proof.
  intros [Hm (c & Hc & Ha)] Hd H. unfold drop in Hd. destruct r as [[x b]|]; [|done]. injection Hd as <- <-. split; [done|].
  cbn. destruct (decide (f = g)) as [->|]; [by eapply H|eauto].
Qed.
Lemma MC_step strict f s e s' o : MC f s -> step strict s e = Ok s' o -> MC f s'.
Proof.
  intros HM. destruct e as [g hd|g v|g|g j|g v|g|g|g j|g|g j|g j]; cbn [step].
  - destruct (decide _) as [|Hg]; [done|]. intros [= <- <-]. destruct HM as [Hm Hc]. split; cbn; [set_solver|].
    destruct (decide (f = g)) as [->|]; [done|exact Hc].
  - destruct (decide _); [|done]. destruct (alive _); [|done]. intros [= <- <-]. apply MC_put; [done|]. intros -> c Hc Ha. cbn. eauto.
  - destruct (decide _); [|done]. destruct (alive _); [|done]. intros [= <- <-]. apply MC_put; [done|]. intros -> c Hc Ha. cbn. rewrite Hc. eauto.
  - destruct (decide _); [|done]. destruct (alive _); [|done]. case_bool_decide; intros [= <- <-]; (apply MC_put; [done|]); intros -> c Hc Ha; cbn; rewrite Hc; cbn; eauto.
  - destruct (decide _); [|done]. destruct (alive _); [|done]. intros [= <- <-]. apply MC_put; [done|]. intros -> c Hc Ha. cbn. eauto.
  - destruct (decide _); [|done]. destruct (alive _); [|done]. intros [= <- <-]. apply MC_put; [done|]. intros -> c Hc Ha.
    unfold exit_notice. rewrite Hc. unfold cnotice. rewrite Ha. cbn. eauto.
  - destruct (decide _); [|done]. intros Hd. eapply MC_drop; [done|exact Hd|]. intros -> c Hc Ha x b Hx. apply release_cond in Hx. rewrite Hx. cbn. eauto.
  - destruct (decide _); [|done]. destruct (alive _); [|done]. destruct (cond (obj s g)) as [c|] eqn:Ec; [|done]. case_bool_decide.
    + intros Hd. eapply MC_drop; [done|exact Hd|]. intros -> c' Hc Ha x b Hx. apply release_cond in Hx. rewrite Hx. cbn. simplify_eq/=. eauto.
    + intros [= <- <-]. apply MC_put; [done|]. intros -> c' Hc Ha. cbn. simplify_eq/=. eauto.
  - destruct (decide _); [|done]. destruct (alive _); [|done]. destruct (cond (obj s g)) as [c|] eqn:Ec; [|done]. case_bool_decide.
    + intros Hd. eapply MC_drop; [done|exact Hd|]. intros -> c' Hc Ha x b Hx. apply release_cond in Hx. rewrite Hx. cbn. simplify_eq/=. eauto.
    + by intros [= <- <-].
  - destruct (decide _); [|done]. destruct (alive _); [|done]. destruct (cond (obj s g)) as [c|] eqn:Ec; [case_bool_decide|].
    1,2: intros Hd; (eapply MC_drop; [done|exact Hd|]); intros -> c' Hc Ha x b Hx; apply release_cond in Hx; rewrite Hx; cbn; simplify_eq/=; eauto.
    intros Hd. eapply MC_drop; [done|exact Hd|]. intros -> c' Hc Ha x b Hx. congruence.
  - destruct (decide _); [|done]. destruct (alive _); [|done]. intros Hd. eapply MC_drop; [done|exact Hd|].
    intros -> c' Hc Ha x b Hx. apply release_cond in Hx. rewrite Hx. cbn. eauto.
Qed.
Lemma MC_run strict f es : forall s s' os, run (step strict) s es = Ok s' os -> Create f true ∈ es -> MC f s'.
Proof.
  induction es as [|e es IH]; intros s s' os Hr Hin; [set_solver|]. cbn [run] in Hr.
  destruct (step strict s e) as [| |s1 o] eqn:E1; try done. destruct (run _ s1 es) as [| |s2 os2] eqn:E2; try done.
  injection Hr as <- <-. apply elem_of_cons in Hin as [<-|Hin]; [|by eapply IH].
  eapply (run_inv (step strict) (MC f)); [intros ? ? ? ?; apply MC_step| |exact E2].
  cbn [step] in E1. destruct (decide _); [done|]. injection E1 as <- <-. split; cbn; [set_solver|]. rewrite decide_True by done. cbn. eauto.
Qed.
