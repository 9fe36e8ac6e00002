(** Labelled transition systems: the common shape of the concurrent models.  A step of a model is one
    atomic action (usually a critical section under a kmutex) chosen by the scheduler; [Disabled] = the
    scheduler may not choose it now (the fiber is not at that point of its program), [Crash] = failed
    assertion or undefined behaviour. *)
From stdpp Require Export prelude.
From Coq Require Export ZArith Lia.

Inductive res (S O : Type) := Disabled | Crash | Ok (s : S) (o : O).
Arguments Disabled {S O}.
Arguments Crash {S O}.
Arguments Ok {S O}.

Section lts.
Context {S E O : Type} (step : S -> E -> res S O).

(** a schedule is a list of events; its results *)
Fixpoint run (s : S) (es : list E) : res S (list O) :=
  match es with
  | [] => Ok s []
  | e :: es => match step s e with
               | Disabled => Disabled | Crash => Crash
               | Ok s o => match run s es with Disabled => Disabled | Crash => Crash | Ok s os => Ok s (o :: os) end
               end
  end.
Definition reachable (init s : S) : Prop := exists es os, run init es = Ok s os.
(** no schedule ever crashes *)
Definition safe (init : S) : Prop := forall es, run init es <> Crash.

Lemma run_app es1 es2 s : run s (es1 ++ es2) =
  match run s es1 with
  | Disabled => Disabled | Crash => Crash
  | Ok s1 os1 => match run s1 es2 with Disabled => Disabled | Crash => Crash | Ok s2 os2 => Ok s2 (os1 ++ os2) end
  end.
Proof.
  revert s. induction es1 as [|e es1 IH]; intros s; cbn; [by destruct (run s es2)|].
  destruct (step s e) as [| |s1 o]; try done. rewrite IH. destruct (run s1 es1) as [| |s2 os]; try done.
  by destruct (run s2 es2).
Qed.
Lemma run_inv (I : S -> Prop) : (forall s e s' o, I s -> step s e = Ok s' o -> I s') ->
  forall es s s' os, I s -> run s es = Ok s' os -> I s'.
Proof.
  intros Hst es. induction es as [|e es IH]; intros s s' os HI; cbn; [by intros [= <- <-]|].
  destruct (step s e) as [| |s1 o] eqn:E1; try done. destruct (run s1 es) as [| |s2 os2] eqn:E2; try done.
  intros [= -> <-]. eapply IH; [|done]. by eapply Hst.
Qed.
Lemma reach_inv (I : S -> Prop) init : I init -> (forall s e s' o, I s -> step s e = Ok s' o -> I s') ->
  forall s, reachable init s -> I s.
Proof. intros H0 Hst s (es & os & H). by eapply run_inv. Qed.
Lemma safe_inv (I : S -> Prop) init : I init -> (forall s e s' o, I s -> step s e = Ok s' o -> I s') ->
  (forall s e, I s -> step s e <> Crash) -> safe init.
Proof.
  intros H0 Hst Hs es. revert init H0. induction es as [|e es IH]; intros s HI; cbn; [done|].
  destruct (step s e) as [| |s1 o] eqn:E1; try done; [by apply Hs in E1|].
  specialize (IH s1 (Hst _ _ _ _ HI E1)). by destruct (run s1 es).
Qed.
Lemma reach_step init s e s' o : reachable init s -> step s e = Ok s' o -> reachable init s'.
Proof.
  intros (es & os & H) Hst. exists (es ++ [e]), (os ++ [o]). rewrite run_app, H. cbn. by rewrite Hst.
Qed.
Lemma reach_init init : reachable init init.
Proof. by exists [], []. Qed.
End lts.

(** remove the first occurrence *)
Fixpoint remove1 {A} `{EqDecision A} (x : A) (l : list A) : list A :=
  match l with [] => [] | y :: l => if decide (x = y) then l else y :: remove1 x l end.
Section remove1.
Context {A : Type} `{EqDecision A}.
Lemma remove1_perm (x : A) l : x ∈ l -> l ≡ₚ x :: remove1 x l.
Proof.
  induction l as [|y l IH]; [set_solver|]. intros H. cbn. destruct (decide (x = y)) as [->|Hn]; [done|].
  apply elem_of_cons in H as [->|H]; [done|]. rewrite (IH H) at 1. by constructor || apply Permutation_swap.
Qed.
Lemma remove1_length (x : A) l : x ∈ l -> length l = S (length (remove1 x l)).
Proof. intros H. apply remove1_perm in H. apply Permutation_length in H. exact H. Qed.
Lemma remove1_nodup (x : A) l : NoDup l -> NoDup (remove1 x l).
Proof.
  intros H. destruct (decide (x ∈ l)) as [Hx|Hx].
  - pose proof (remove1_perm x l Hx) as Hp. rewrite Hp in H. by apply NoDup_cons in H as [_ ?].
  - assert (remove1 x l = l) as ->; [|done]. clear H. induction l as [|y l IH]; [done|]. cbn.
    rewrite decide_False by set_solver. f_equal. apply IH. set_solver.
Qed.
Lemma remove1_in (x y : A) l : NoDup l -> y ∈ remove1 x l <-> y ∈ l /\ y <> x.
Proof.
  intros H. destruct (decide (x ∈ l)) as [Hx|Hx].
  - pose proof (remove1_perm x l Hx) as Hp. rewrite Hp in H. apply NoDup_cons in H as [Hn _].
    assert (y ∈ l <-> y ∈ x :: remove1 x l) as -> by (by apply elem_of_Permutation_proper). set_solver.
  - assert (remove1 x l = l) as ->; [|set_solver]. clear H. induction l as [|z l IH]; [done|]. cbn.
    rewrite decide_False by set_solver. f_equal. apply IH. set_solver.
Qed.
Lemma remove1_sub (x y : A) l : y ∈ remove1 x l -> y ∈ l.
Proof.
  induction l as [|z l IH]; [done|]. cbn. destruct (decide (x = z)); set_solver.
Qed.
End remove1.
