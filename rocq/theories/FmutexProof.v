From Verif Require Import FmutexModel.
From Coq Require Import ZifyBool.
Local Open Scope Z_scope.

Notation len l := (Z.of_nat (length l)).

(** holds for every schedule, with or without lock2, set_limit, asserts *)
Definition I0 (s : sys) : Prop :=
  NoDup (holding s ++ woken s ++ waiter (mx s)) /\ worker (mx s) = len (holding s) + len (woken s) /\
  (waiter (mx s) <> [] -> 0 < worker (mx s)) /\ 1 <= limit (mx s).

Lemma remove1_nodup_app (f : positive) (l k : list positive) : NoDup (l ++ k) -> NoDup (remove1 f l ++ k).
Proof.
  rewrite !NoDup_app. intros (H1 & H2 & H3). split_and!; [by apply remove1_nodup| |done].
  intros x Hx. apply H2. by eapply remove1_sub.
Qed.

Ltac bd := repeat match goal with
  | H : (_ && _)%bool = true |- _ => apply andb_true_iff in H as [? ?]
  | H : negb _ = true |- _ => apply negb_true_iff in H
  | H : bool_decide _ = true |- _ => apply bool_decide_eq_true in H
  | H : bool_decide _ = false |- _ => apply bool_decide_eq_false in H
  end.

(** the effect of each enabled step, independent of the branch structure of the code *)
Lemma step_lock asrt s f max s' o : step asrt s (Lock f max) = Ok s' o ->
  f ∉ holding s ++ woken s ++ waiter (mx s) /\ limit (mx s') = limit (mx s) /\ woken s' = woken s /\
  ((o = Some Refused /\ s' = s /\ max > 0 /\ count (mx s) >= max) \/
   ((max <= 0 \/ count (mx s) < max) /\ count (mx s') = count (mx s) + 1 /\
    ((o = Some Acquired /\ worker (mx s) < limit (mx s) /\ worker (mx s') = worker (mx s) + 1 /\
      holding s' = f :: holding s /\ waiter (mx s') = waiter (mx s)) \/
     (o = Some MustWait /\ limit (mx s) <= worker (mx s) /\ worker (mx s') = worker (mx s) /\
      holding s' = holding s /\ waiter (mx s') = f :: waiter (mx s))))).
Proof.
  cbn. destruct (decide (busy s f)) as [|Hb]; [done|]. unfold lock_cs.
  destruct (_ && _) eqn:E1; cbn.
  - intros [= <- <-]. bd. cbn. split_and!; try done. left. destruct s as [m h w]. done.
  - apply andb_false_iff in E1. destruct (bool_decide (worker _ < _)) eqn:E2; intros [= <- <-]; bd; cbn;
      (split_and!; try done); right; (split; [destruct E1; bd; lia|]); (split; [done|]); [left|right]; split_and!; (done || lia).
Qed.
Lemma step_lock2 asrt s f s' o : step asrt s (Lock2 f) = Ok s' o ->
  f ∉ holding s ++ woken s ++ waiter (mx s) /\ limit (mx s') = limit (mx s) /\ holding s' = holding s /\ count (mx s') = count (mx s) /\
    ((o = Some Acquired /\ worker (mx s) < limit (mx s) /\ worker (mx s') = worker (mx s) + 1 /\
      woken s' = f :: woken s /\ waiter (mx s') = waiter (mx s)) \/
     (o = Some MustWait /\ limit (mx s) <= worker (mx s) /\ worker (mx s') = worker (mx s) /\
      woken s' = woken s /\ waiter (mx s') = f :: waiter (mx s))).
Proof.
  cbn. destruct (decide (busy s f)) as [|Hb]; [done|]. unfold lock2_cs.
  destruct (bool_decide (worker _ < _)) eqn:E2; intros [= <- <-]; bd; cbn;
      (split_and!; try done); [left|right]; split_and!; (done || lia).
Qed.
Lemma step_unlock asrt s f s' o : step asrt s (Unlock f) = Ok s' o ->
  f ∈ holding s /\ holding s' = remove1 f (holding s) /\ limit (mx s') = limit (mx s) /\ count (mx s') = count (mx s) - 1 /\
  ((waiter (mx s) = [] /\ waiter (mx s') = [] /\ woken s' = woken s /\ worker (mx s') = worker (mx s) - 1) \/
   exists w, waiter (mx s) = w :: waiter (mx s') /\ woken s' = w :: woken s /\ worker (mx s') = worker (mx s)).
Proof.
  cbn. destruct (decide _) as [Hf|]; [|done]. unfold unlock_cs.
  destruct (asrt && _); [done|]. cbn. destruct (waiter (mx s)) as [|w ws] eqn:Ew.
  - destruct (asrt && _); [done|]. intros [= <- <-]. cbn. split_and!; try done. by left.
  - intros [= <- <-]. cbn. split_and!; try done. right. by exists w.
Qed.
Lemma step_resume asrt s f s' o : step asrt s (Resume f) = Ok s' o ->
  f ∈ woken s /\ holding s' = f :: holding s /\ woken s' = remove1 f (woken s) /\ mx s' = mx s.
Proof. cbn. destruct (decide _); [|done]. intros [= <- <-]. done. Qed.
Lemma step_set asrt s n s' o : step asrt s (SetLimit n) = Ok s' o ->
  holding s' = holding s /\ woken s' = woken s /\ waiter (mx s') = waiter (mx s) /\ worker (mx s') = worker (mx s)
  /\ count (mx s') = count (mx s) /\ limit (mx s') = Z.max 1 n.
Proof. cbn. intros [= <- <-]. cbn. split_and!; try done. destruct (bool_decide _) eqn:E; bd; lia. Qed.

(** fibers known to the system do not change across unlock/resume, and grow by f on lock *)
Lemma rm_len (f : positive) l : f ∈ l -> len (remove1 f l) = len l - 1.
Proof. intros H. apply remove1_length in H. lia. Qed.

Lemma I0_step asrt s e s' o : I0 s -> step asrt s e = Ok s' o -> I0 s'.
Proof.
  intros (Hn & Hw & Hq & Hl) Hst. destruct e as [f max|f|f|f|n].
  - apply step_lock in Hst as (Hf & Hl' & Ewk & [(-> & -> & _)|(_ & _ & [(-> & H1 & H2 & H3 & H4)|(-> & H1 & H2 & H3 & H4)])]); [done| |];
      unfold I0; rewrite Hl', Ewk, H2, H3, H4.
    + split_and!; try done; [cbn; by constructor|cbn; lia|lia].
    + split_and!; try done; [|lia]. rewrite (assoc_L (++)), <- Permutation_middle, <- (assoc_L (++)). by constructor.
  - apply step_lock2 in Hst as (Hf & Hl' & Ewk & Hc & [(-> & H1 & H2 & H3 & H4)|(-> & H1 & H2 & H3 & H4)]);
      unfold I0; rewrite Hl', Ewk, H2, H3, H4.
    + split_and!; try done; [|cbn; lia|lia]. cbn. rewrite <- Permutation_middle. by constructor.
    + split_and!; try done; [|lia]. rewrite (assoc_L (++)), <- Permutation_middle, <- (assoc_L (++)). by constructor.
  - apply step_unlock in Hst as (Hf & Eh & Hl' & _ & [(H1 & H2 & H3 & H4)|(w & H1 & H2 & H3)]); unfold I0; rewrite Hl', Eh.
    + rewrite H2, H3, H4. rewrite H1 in Hn. split_and!; try done; [by apply remove1_nodup_app|]. rewrite rm_len by done. lia.
    + rewrite H2, H3. rewrite H1 in Hn. split_and!; try done.
      * apply remove1_nodup_app. cbn. by rewrite Permutation_middle.
      * rewrite rm_len by done. cbn. lia.
      * intros _. apply Hq. by rewrite H1.
  - apply step_resume in Hst as (Hf & H1 & H2 & H3). unfold I0. rewrite H1, H2, H3. split_and!; try done.
    + cbn. pose proof (remove1_perm _ _ Hf) as Hp. rewrite Hp in Hn. cbn in Hn. by rewrite <- Permutation_middle in Hn.
    + rewrite rm_len by done. cbn. lia.
  - apply step_set in Hst as (H1 & H2 & H3 & H4 & H5 & H6). unfold I0. rewrite H1, H2, H3, H4, H6. split_and!; try done; lia.
Qed.
Lemma I0_init n : 1 <= n -> I0 (sys_init n).
Proof. intros H. unfold I0. cbn. split_and!; try done. constructor. Qed.

(** with the limit never changed *)
Definition Ilim (L : Z) (s : sys) : Prop :=
  I0 s /\ limit (mx s) = L /\ worker (mx s) <= L /\ (waiter (mx s) <> [] -> worker (mx s) = L).
Lemma Ilim_step asrt L s e s' o : no_set e -> Ilim L s -> step asrt s e = Ok s' o -> Ilim L s'.
Proof.
  intros Hns (H0 & HL & Hw & Hq) Hst. split; [by eapply I0_step|]. destruct e as [f max|f|f|f|n]; [..|done].
  - apply step_lock in Hst as (Hf & Hl' & Ewk & [(-> & -> & _)|(_ & _ & [(-> & H1 & H2 & H3 & H4)|(-> & H1 & H2 & H3 & H4)])]); [done| |];
      rewrite Hl', H2, H4; split_and!; try done; try lia. intros Hx. specialize (Hq Hx). lia.
  - apply step_lock2 in Hst as (Hf & Hl' & Ewk & Hc & [(-> & H1 & H2 & H3 & H4)|(-> & H1 & H2 & H3 & H4)]);
      rewrite Hl', H2, H4; split_and!; try done; try lia. intros Hx. specialize (Hq Hx). lia.
  - apply step_unlock in Hst as (Hf & Eh & Hl' & _ & [(H1 & H2 & H3 & H4)|(w & H1 & H2 & H3)]); rewrite Hl'.
    + rewrite H2, H4. split_and!; try done; lia.
    + rewrite H3. split_and!; try done. intros _. apply Hq. by rewrite H1.
  - apply step_resume in Hst as (Hf & H1 & H2 & H3). by rewrite H3.
Qed.

(** without lock2: count is exact *)
Definition Icnt (s : sys) : Prop :=
  I0 s /\ count (mx s) = len (holding s) + len (woken s) + len (waiter (mx s)).
Lemma Icnt_step asrt s e s' o : no_lock2 e -> Icnt s -> step asrt s e = Ok s' o -> Icnt s'.
Proof.
  intros Hns (H0 & Hc) Hst. split; [by eapply I0_step|]. destruct e as [f max|f|f|f|n]; [|done|..].
  - apply step_lock in Hst as (Hf & Hl' & Ewk & [(-> & -> & _)|(_ & Hc' & [(-> & H1 & H2 & H3 & H4)|(-> & H1 & H2 & H3 & H4)])]); [done| |];
      rewrite Hc', H3, H4, Ewk; cbn; lia.
  - apply step_unlock in Hst as (Hf & Eh & Hl' & Hc' & [(H1 & H2 & H3 & H4)|(w & H1 & H2 & H3)]); rewrite Hc', Eh, rm_len by done.
    + rewrite H2, H3. rewrite H1 in Hc. lia.
    + rewrite H2. rewrite H1 in Hc. cbn in *. lia.
  - apply step_resume in Hst as (Hf & H1 & H2 & H3). rewrite H1, H2, H3, rm_len by done. cbn. lia.
  - apply step_set in Hst as (H1 & H2 & H3 & H4 & H5 & H6). by rewrite H1, H2, H3, H5.
Qed.

(** lifting to schedules *)
Lemma run_inv_on {S E O} (st : S -> E -> res S O) (P : E -> Prop) (I : S -> Prop) :
  (forall s e s' o, P e -> I s -> st s e = Ok s' o -> I s') ->
  forall es s s' os, Forall P es -> I s -> run st s es = Ok s' os -> I s'.
Proof.
  intros Hst es. induction es as [|e es IH]; intros s s' os HP HI; cbn; [by intros [= <- <-]|].
  inversion HP; subst. destruct (st s e) as [| |s1 o] eqn:E1; try done. destruct (run st s1 es) as [| |s2 os2] eqn:E2; try done.
  intros [= -> <-]. eapply IH; [done| |done]. by eapply Hst.
Qed.

Lemma unlock_no_crash asrt s f : I0 s -> (asrt = true -> Icnt s) -> step asrt s (Unlock f) <> Crash.
Proof.
  intros (Hn & Hw & Hq & Hl) Hc. cbn. destruct (decide _) as [Hf|]; [|done]. unfold unlock_cs.
  pose proof (rm_len _ _ Hf) as Hr. pose proof (Zle_0_nat (length (remove1 f (holding s)))).
  destruct asrt; cbn; [|by destruct (waiter (mx s))].
  destruct (Hc eq_refl) as [_ Hcnt]. rewrite (bool_decide_eq_true_2 (count (mx s) > 0)) by lia. cbn.
  destruct (waiter (mx s)); [|done]. rewrite bool_decide_eq_true_2 by lia. done.
Qed.
Lemma safe_nolock2 asrt n es : 1 <= n -> (asrt = true -> Forall no_lock2 es) -> run (step asrt) (sys_init n) es <> Crash.
Proof.
  intros Hn. assert (Hi: I0 (sys_init n) /\ (asrt = true -> Icnt (sys_init n))) by (split; [by apply I0_init|]; split; [by apply I0_init|done]).
  revert Hi. generalize (sys_init n). induction es as [|e es IH]; intros s [Hi Hc] HP; [done|]. cbn.
  destruct (step asrt s e) as [| |s1 o] eqn:E1; try done.
  - exfalso. destruct e as [f max|f|f|f|k]; [..|done].
    + cbn in E1. destruct (decide _); [done|]. by destruct (lock_cs _ _ _).
    + cbn in E1. destruct (decide _); [done|]. by destruct (lock2_cs _ _).
    + by apply unlock_no_crash in E1.
    + cbn in E1. by destruct (decide _).
  - assert (Hr: run (step asrt) s1 es <> Crash).
    { apply IH; [split; [by eapply I0_step|]|].
      - intros Ha. specialize (HP Ha). inversion HP; subst. eapply Icnt_step; [done|by apply Hc|done].
      - intros Ha. specialize (HP Ha). by inversion HP. }
    by destruct (run (step asrt) s1 es).
Qed.
