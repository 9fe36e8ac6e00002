(** C45: the spin locks exclude, and are free when nobody is inside *)
From Verif Require Import Lts SelMgrModel SpinModel.
Local Open Scope Z_scope.

(** ** Specification: who is inside *)
Definition inside (s : st) (t : nat) (p : pc) : Prop := pcs s !! t = Some p.

Global Instance pc_eq : EqDecision pc. Proof. solve_decision. Defined.
(** ** counting threads *)
Fixpoint cnt (f : pc -> bool) (l : list pc) : Z := match l with [] => 0 | p :: l => (if f p then 1 else 0) + cnt f l end.
Definition b2z (b : bool) : Z := if b then 1 else 0.
Lemma cnt_insert f l t p q : l !! t = Some p -> cnt f (<[t := q]> l) = cnt f l - b2z (f p) + b2z (f q).
Proof.
  revert t. induction l as [|x l IH]; intros [|t]; cbn [lookup list_lookup]; try done.
  - intros [= ->]. cbn. unfold b2z. destruct (f p), (f q); lia.
  - intros H. change (<[S t := q]> (x :: l)) with (x :: <[t := q]> l). cbn [cnt]. rewrite (IH t H). lia.
Qed.
Lemma cnt_bound f l : 0 <= cnt f l <= Z.of_nat (length l).
Proof. induction l as [|x l IH]; cbn [cnt length]; [lia|]. destruct (f x); lia. Qed.
Lemma cnt_pos f l t p : l !! t = Some p -> f p = true -> 1 <= cnt f l.
Proof. revert t. induction l as [|x l IH]; intros [|t]; cbn; try done; pose proof (cnt_bound f l). { intros [= ->] ->. lia. } intros H1 H2. specialize (IH _ H1 H2). destruct (f x); lia. Qed.
Lemma cnt_two f l t u p q : l !! t = Some p -> l !! u = Some q -> t <> u -> f p = true -> f q = true -> 2 <= cnt f l.
Proof.
  revert t u. induction l as [|x l IH]; intros [|t] [|u]; cbn; try done.
  - intros [= ->] H2 _ H3 H4. pose proof (cnt_pos f l u q H2 H4). rewrite H3. lia.
  - intros H2 [= ->] _ H3 H4. pose proof (cnt_pos f l t p H2 H3). rewrite H4. lia.
  - intros H1 H2 Hn H3 H4. specialize (IH t u H1 H2 ltac:(congruence) H3 H4). destruct (f x); lia.
Qed.
Lemma cnt_zero f l : (forall t p, l !! t = Some p -> f p = false) -> cnt f l = 0.
Proof. induction l as [|x l IH]; intros H; [done|]. cbn. rewrite (H 0%nat x eq_refl), IH; [done|]. intros t p Ht. by apply (H (S t)). Qed.
Lemma cnt_none f l t p : cnt f l = 0 -> l !! t = Some p -> f p = false.
Proof. intros H1 H2. destruct (f p) eqn:E; [|done]. pose proof (cnt_pos f l t p H2 E). lia. Qed.
Lemma cnt_replicate n f : f Idle = false -> cnt f (replicate n Idle) = 0.
Proof. intros H. apply cnt_zero. intros t p Ht. apply lookup_replicate in Ht as [-> _]. done. Qed.

Definition isR (p : pc) : bool := match p with RIn => true | _ => false end.
Definition isW (p : pc) : bool := match p with WIn => true | _ => false end.
(** the threads that own try_write *)
Definition isT (p : pc) : bool := match p with WLoop | WHave | WIn | WOut => true | _ => false end.
Definition isK (p : pc) : bool := match p with RWait | WTry | WTryHave | WOut => true | _ => false end.

Definition inv (wr : bool) (n : nat) (s : st) : Prop :=
  length (pcs s) = n /\ rw s = cnt isR (pcs s) - cnt isW (pcs s) /\ cnt isW (pcs s) <= 1 /\ (cnt isW (pcs s) = 1 -> cnt isR (pcs s) = 0) /\
  (forall t x, pcs s !! t = Some (RHave x) -> 0 <= x < 2 ^ 31 - 1) /\
  (if wr then tw s = cnt isT (pcs s) /\ cnt isT (pcs s) <= 1 else tw s = 0 /\ cnt isK (pcs s) = 0).

Section proof.
Context (wr : bool) (n : nat) (Hn : Z.of_nat n < 2 ^ 31 - 1).
Lemma i32_small z : - 2 ^ 31 <= z < 2 ^ 31 -> i32 z = z. Proof. intros. unfold i32. rewrite Z.mod_small; lia. Qed.
Lemma inv_init : inv wr n (init n).
Proof.
  unfold inv, init. cbn [pcs rw tw]. rewrite replicate_length, !cnt_replicate by done. split_and!; try lia.
  - intros t x H. by apply lookup_replicate in H as [? _].
  - destruct wr; lia.
Qed.
Lemma have_other (l : list pc) t (p : pc) u x : (<[t := p]> l) !! u = Some (RHave x) -> p <> RHave x -> l !! u = Some (RHave x).
Proof. intros H Hp. destruct (decide (t = u)) as [->|]; [|by rewrite list_lookup_insert_ne in H]. apply list_lookup_insert_Some in H as [(_ & -> & _)|(? & _)]; done. Qed.
Ltac fin H4 := intros ? ? Hx; apply have_other in Hx; [by eapply H4|done].
Lemma inv_step s e s' o : inv wr n s -> step wr s e = Ok s' o -> inv wr n s'.
Proof.
  intros (H0 & H1 & H2 & H3 & H4 & H5). pose proof (cnt_bound isR (pcs s)) as BR. pose proof (cnt_bound isW (pcs s)) as BW. pose proof (cnt_bound isT (pcs s)) as BT. pose proof (cnt_bound isK (pcs s)) as BK.
  assert (S : forall t p q x y, pcs s !! t = Some p ->
    x = rw s - b2z (isR p) + b2z (isW p) + b2z (isR q) - b2z (isW q) ->
    cnt isW (pcs s) - b2z (isW p) + b2z (isW q) <= 1 -> (cnt isW (pcs s) - b2z (isW p) + b2z (isW q) = 1 -> cnt isR (pcs s) - b2z (isR p) + b2z (isR q) = 0) ->
    (forall v, q = RHave v -> 0 <= v < 2 ^ 31 - 1) ->
    (if wr then y = tw s - b2z (isT p) + b2z (isT q) /\ y <= 1 else y = tw s /\ isK q = false) -> inv wr n (St x y (<[t := q]> (pcs s)))).
  { intros t p q x y Hp Hx Hw Hwr Hv Hy. unfold inv. cbn [rw tw pcs]. rewrite insert_length, !(cnt_insert _ _ _ _ q Hp). split_and!; try lia.
    - intros u v Hu. destruct (decide (q = RHave v)) as [->|]; [by apply Hv|]. apply have_other in Hu; [by eapply H4|done].
    - destruct wr; [lia|]. destruct Hy as [-> Hq]. rewrite Hq. destruct H5 as [-> H5]. rewrite (cnt_none _ _ _ _ H5 Hp). unfold b2z. lia. }
  assert (B : -1 <= rw s < 2 ^ 31) by lia.
  destruct e as [t high|t|t|t]; cbn [step]; destruct (pcs s !! t) as [p|] eqn:Hp; try done; destruct p as [| | |x| | | | | | |]; try done; intros [= <- _].
  all: try (case_decide; [done|]). all: try (case_decide).
  all: try (apply (S t _ _ _ _ Hp); [cbn; lia..|done|cbn; destruct wr; cbn; lia]).
  - destruct wr, high; cbn [andb negb]; apply (S t _ _ _ _ Hp); done || (cbn; lia).
  - destruct wr; apply (S t _ _ _ _ Hp); done || (cbn; lia).
  - apply (S t _ _ _ _ Hp); try (cbn; lia); [intros v [= <-]; lia|destruct wr; cbn; lia].
  - pose proof (H4 _ _ Hp). rewrite i32_small by lia. apply (S t _ _ _ _ Hp); try done; try (cbn; lia). destruct wr; cbn; lia.
  - destruct wr; [|destruct H5 as [_ H5]; by apply (cnt_none _ _ _ _ H5) in Hp]. apply (S t _ _ _ _ Hp); done || (cbn; lia).
  - destruct wr; [|destruct H5 as [_ H5]; by apply (cnt_none _ _ _ _ H5) in Hp]. apply (S t _ _ _ _ Hp); done || (cbn; lia).
  - destruct wr; [|destruct H5 as [_ H5]; by apply (cnt_none _ _ _ _ H5) in Hp]. pose proof (cnt_pos isT _ _ _ Hp eq_refl). apply (S t _ _ _ _ Hp); done || (cbn; lia).
  - pose proof (cnt_pos isR _ _ _ Hp eq_refl). rewrite i32_small by lia. apply (S t _ _ _ _ Hp); try done; try (cbn; lia). destruct wr; cbn; lia.
  - pose proof (cnt_pos isW _ _ _ Hp eq_refl). rewrite i32_small by lia. destruct wr; apply (S t _ _ _ _ Hp); done || (cbn; lia).
Qed.
Lemma inv_reach s : reachable (step wr) (init n) s -> inv wr n s.
Proof. apply reach_inv; [apply inv_init|intros; by eapply inv_step]. Qed.
End proof.

(** ** C45 *)
(** a writer inside excludes everybody else: at any time there are only readers or exactly one writer *)
Theorem C45_exclusion : forall wr n s t u p, Z.of_nat n < 2 ^ 31 - 1 -> reachable (step wr) (init n) s ->
  inside s t WIn -> inside s u p -> p = RIn \/ p = WIn -> u = t /\ p = WIn.
Proof.
  intros wr n s t u p Hn Hr Ht Hu Hp. destruct (inv_reach wr n Hn s Hr) as (H0 & H1 & H2 & H3 & H4 & H5). unfold inside in *.
  pose proof (cnt_pos isW _ _ _ Ht eq_refl). destruct Hp as [->| ->].
  - pose proof (cnt_pos isR _ _ _ Hu eq_refl). lia.
  - split; [|done]. destruct (decide (u = t)) as [|Hne]; [done|]. pose proof (cnt_two isW _ _ _ _ _ Hu Ht Hne eq_refl eq_refl). lia.
Qed.
(** the lock word: minus one with a writer inside, otherwise the number of readers inside; so the lock is free exactly
    when nobody is inside *)
Theorem C45_free : forall wr n s, Z.of_nat n < 2 ^ 31 - 1 -> reachable (step wr) (init n) s ->
  (rw s = 0 <-> forall t, ~ inside s t RIn /\ ~ inside s t WIn).
Proof.
  intros wr n s Hn Hr. destruct (inv_reach wr n Hn s Hr) as (H0 & H1 & H2 & H3 & H4 & H5). pose proof (cnt_bound isR (pcs s)). pose proof (cnt_bound isW (pcs s)).
  split.
  - intros Hz t. split; intros Hi; [pose proof (cnt_pos isR _ _ _ Hi eq_refl)|pose proof (cnt_pos isW _ _ _ Hi eq_refl)]; lia.
  - intros Hno. rewrite H1, !cnt_zero; [done|..]; intros t p Hp; destruct p; try done; destruct (Hno t) as [G1 G2]; [by destruct G2|by destruct G1].
Qed.
(** a kwr_mutex prefers writers: while a writer has announced itself (it owns try_write: it waits for the lock, is
    inside or is leaving), no thread in a normal-priority rlock gets past the test, and no other writer is announced *)
Theorem C45_writer_preference : forall n s t u p, Z.of_nat n < 2 ^ 31 - 1 -> reachable (step true) (init n) s ->
  inside s u p -> p = WLoop \/ p = WHave \/ p = WIn \/ p = WOut ->
  (inside s t RWait -> step true s (Step t) = Ok s ()) /\
  (forall q, inside s t q -> q = WLoop \/ q = WHave \/ q = WIn \/ q = WOut -> t = u).
Proof.
  intros n s t u p Hn Hr Hu Hp. destruct (inv_reach true n Hn s Hr) as (H0 & H1 & H2 & H3 & H4 & H5 & H6). unfold inside in *.
  assert (Tp : isT p = true) by (destruct Hp as [->|[->|[->| ->]]]; done). pose proof (cnt_pos isT _ _ _ Hu Tp). split.
  - intros Ht. cbn [step]. rewrite Ht, decide_True by lia. done.
  - intros q Ht Hq. assert (Tq : isT q = true) by (destruct Hq as [->|[->|[->| ->]]]; done). destruct (decide (t = u)) as [|Hne]; [done|].
    pose proof (cnt_two isT _ _ _ _ _ Ht Hu Hne Tq Tp). lia.
Qed.

(** ** no deadlock: from every state all threads can finish and leave *)
Definition drain_ev (e : ev) : Prop := match e with Step _ | Leave _ => True | _ => False end.
Definition busy (p : pc) : bool := match p with Idle => false | _ => true end.
Definition can_finish (wr : bool) (s : st) (t : nat) : Prop :=
  exists es s' os, Forall drain_ev es /\ run (step wr) s es = Ok s' os /\ pcs s' = <[t := Idle]> (pcs s).
Lemma cf_step wr s t e s1 o p : step wr s e = Ok s1 o -> drain_ev e -> pcs s1 = <[t := p]> (pcs s) -> can_finish wr s1 t -> can_finish wr s t.
Proof.
  intros H1 H2 H3 (es & s' & os & F & R & P). exists (e :: es), s', (o :: os). split_and!; [by constructor| |].
  - cbn [run]. by rewrite H1, R.
  - rewrite P, H3. apply list_insert_insert.
Qed.
Lemma cf_done wr s t e s1 o : step wr s e = Ok s1 o -> drain_ev e -> pcs s1 = <[t := Idle]> (pcs s) -> can_finish wr s t.
Proof. intros H1 H2 H3. exists [e], s1, [o]. split_and!; [by repeat constructor| |done]. cbn [run]. by rewrite H1. Qed.
Section finish.
Context (wr : bool).
Ltac go e p := eapply (cf_step wr _ _ e _ _ p).
Lemma lt_of {A} (l : list A) t x : l !! t = Some x -> (t < length l)%nat. Proof. apply lookup_lt_Some. Qed.
Lemma look (t : nat) (p q : pc) (l : list pc) : l !! t = Some p -> (<[t := q]> l) !! t = Some q.
Proof. intros H. apply list_lookup_insert. by eapply lt_of. Qed.
Lemma cf_RIn s t : pcs s !! t = Some RIn -> can_finish wr s t.
Proof. intros H. eapply (cf_done wr s t (Leave t)); cbn [step]; [by rewrite H|done|done]. Qed.
Lemma cf_WOut s t : pcs s !! t = Some WOut -> can_finish wr s t.
Proof. intros H. eapply (cf_done wr s t (Step t)); cbn [step]; [by rewrite H|done|done]. Qed.
Lemma cf_WIn s t : pcs s !! t = Some WIn -> can_finish wr s t.
Proof.
  intros H. destruct wr eqn:E; [|eapply (cf_done false s t (Leave t)); cbn [step]; [by rewrite H|done|done]].
  rewrite <- E. go (Leave t) WOut; [cbn [step]; rewrite H, E; done|done|done|]. apply cf_WOut. by eapply look.
Qed.
Lemma cf_WHave s t : rw s = 0 -> pcs s !! t = Some WHave -> can_finish wr s t.
Proof. intros H0 H. go (Step t) WIn; [cbn [step]; rewrite H, decide_True by done; done|done|done|]. apply cf_WIn. by eapply look. Qed.
Lemma cf_WLoop s t : rw s = 0 -> pcs s !! t = Some WLoop -> can_finish wr s t.
Proof. intros H0 H. go (Step t) WHave; [cbn [step]; rewrite H, decide_False by lia; done|done|done|]. apply cf_WHave; [done|]. by eapply look. Qed.
Lemma cf_WTryHave s t : rw s = 0 -> tw s = 0 -> pcs s !! t = Some WTryHave -> can_finish wr s t.
Proof. intros H0 H1 H. go (Step t) WLoop; [cbn [step]; rewrite H, decide_True by done; done|done|done|]. apply cf_WLoop; [done|]. by eapply look. Qed.
Lemma cf_WTry s t : rw s = 0 -> tw s = 0 -> pcs s !! t = Some WTry -> can_finish wr s t.
Proof. intros H0 H1 H. go (Step t) WTryHave; [cbn [step]; rewrite H, decide_False by lia; done|done|done|]. apply cf_WTryHave; [done..|]. by eapply look. Qed.
Lemma cf_RHave0 s t : rw s = 0 -> pcs s !! t = Some (RHave 0) -> can_finish wr s t.
Proof. intros H0 H. go (Step t) RIn; [cbn [step]; rewrite H, decide_True by done; done|done|done|]. apply cf_RIn. by eapply look. Qed.
Lemma cf_RLoop s t : rw s = 0 -> pcs s !! t = Some RLoop -> can_finish wr s t.
Proof. intros H0 H. go (Step t) (RHave 0); [cbn [step]; rewrite H, decide_False by lia; rewrite H0; done|done|done|]. apply cf_RHave0; [done|]. by eapply look. Qed.
Lemma cf_RHave s t x : rw s = 0 -> pcs s !! t = Some (RHave x) -> can_finish wr s t.
Proof.
  intros H0 H. destruct (decide (x = 0)) as [->|]; [by apply cf_RHave0|].
  go (Step t) RLoop; [cbn [step]; rewrite H, decide_False by lia; done|done|done|]. apply cf_RLoop; [done|]. by eapply look.
Qed.
Lemma cf_RWait s t : rw s = 0 -> tw s = 0 -> pcs s !! t = Some RWait -> can_finish wr s t.
Proof. intros H0 H1 H. go (Step t) RLoop; [cbn [step]; rewrite H, decide_False by lia; done|done|done|]. apply cf_RLoop; [done|]. by eapply look. Qed.
Lemma pick (f : pc -> bool) l : cnt f l = 0 \/ exists t p, l !! t = Some p /\ f p = true.
Proof.
  induction l as [|x l IH]; [by left|]. destruct (f x) eqn:E; [right; by exists 0%nat, x|]. destruct IH as [IH|(t & p & H1 & H2)]; [left; cbn; rewrite E, IH; done|].
  right. by exists (S t), p.
Qed.
Lemma some_finish n s : inv wr n s -> 0 < cnt busy (pcs s) -> exists t p, pcs s !! t = Some p /\ busy p = true /\ can_finish wr s t.
Proof.
  intros (H0 & H1 & H2 & H3 & H4 & H5) Hb.
  destruct (pick isR (pcs s)) as [R0|(t & p & Hp & Hf)]; [|destruct p; try done; exists t, RIn; split_and!; try done; by apply cf_RIn].
  destruct (pick isW (pcs s)) as [W0|(t & p & Hp & Hf)]; [|destruct p; try done; exists t, WIn; split_and!; try done; by apply cf_WIn].
  assert (Hz : rw s = 0) by lia.
  destruct (pick isT (pcs s)) as [T0|(t & p & Hp & Hf)].
  2: { exists t, p. destruct p; try done; split_and!; try done; [by apply cf_WLoop|by apply cf_WHave|by apply cf_WIn|by apply cf_WOut]. }
  assert (Ht : tw s = 0) by (destruct wr; lia).
  destruct (pick busy (pcs s)) as [T1|(t & p & Hp & Hf)]; [lia|]. exists t, p.
  destruct p as [| | |x| | | | | | |]; try done; split_and!; try done; first [by apply cf_RWait | by apply cf_RLoop | by eapply cf_RHave | by apply cf_RIn | by apply cf_WTry | by apply cf_WTryHave | by apply cf_WLoop | by apply cf_WHave | by apply cf_WIn | by apply cf_WOut].
Qed.
End finish.
Theorem C45_no_deadlock : forall wr n s, Z.of_nat n < 2 ^ 31 - 1 -> reachable (step wr) (init n) s ->
  exists es s' os, Forall drain_ev es /\ run (step wr) s es = Ok s' os /\ s' = init n.
Proof.
  intros wr n s Hn Hr. pose proof (inv_reach wr n Hn s Hr) as HI. clear Hr. remember (Z.to_nat (cnt busy (pcs s))) as k eqn:Ek. revert s HI Ek.
  induction (lt_wf k) as [k _ IH]. intros s HI Ek. pose proof (cnt_bound busy (pcs s)) as B.
  destruct (decide (cnt busy (pcs s) = 0)) as [Z0|NZ].
  - exists [], s, []. split_and!; [constructor|done|]. destruct HI as (H0 & H1 & H2 & H3 & H4 & H5).
    assert (E : pcs s = replicate n Idle).
    { apply list_eq. intros i. destruct (pcs s !! i) as [p|] eqn:Hi.
      - pose proof (cnt_none _ _ _ _ Z0 Hi). destruct p; try done. symmetry. apply lookup_replicate. split; [done|]. apply lookup_lt_Some in Hi. lia.
      - apply lookup_ge_None in Hi. symmetry. apply lookup_ge_None. rewrite replicate_length. lia. }
    rewrite E, !cnt_replicate in * by done. destruct s as [a b c]. cbn in *. unfold init. subst. f_equal. destruct wr; lia.
  - destruct (some_finish wr n s HI ltac:(lia)) as (t & p & Hp & Hb & es & s1 & os & F & R & P).
    assert (HI1 : inv wr n s1) by (eapply (run_inv (step wr) (inv wr n)); [intros; by eapply inv_step|done|done]).
    assert (C : cnt busy (pcs s1) = cnt busy (pcs s) - 1) by (rewrite P, (cnt_insert _ _ _ _ Idle Hp), Hb; cbn; lia).
    destruct (IH (Z.to_nat (cnt busy (pcs s1))) ltac:(lia) s1 HI1 eq_refl) as (es2 & s2 & os2 & F2 & R2 & E2).
    exists (es ++ es2), s2, (os ++ os2). split_and!; [by apply Forall_app|rewrite run_app, R, R2; done|done].
Qed.
(** two readers and two writers *)
Example demo_spin : exists s os, run (step true) (init 4) [BeginR 0 false; BeginW 1; Step 1; Step 0; Step 0; Step 1; BeginR 2 false; Step 2; Step 1; Step 0; Step 1; Leave 0; Step 1; Step 1] = Ok s os
  /\ pcs s = [Idle; WIn; RWait; Idle] /\ rw s = -1.
Proof. eexists (St (-1) 1 [Idle; WIn; RWait; Idle]), _. split_and!; [vm_compute; reflexivity|done|done]. Qed.
