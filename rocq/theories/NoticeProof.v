(** Invariant of the notice queue. *)
From Verif Require Import NoticeModel.

(** the chain from [p] holds the notices [l] (address, id) *)
Fixpoint chain (h : gmap positive node) (p : option positive) (l : list (positive * nat)) : Prop :=
  match l with
  | [] => p = None
  | (a, i) :: l => p = Some a /\ exists nx, h !! a = Some (mkn nx i) /\ chain h nx l
  end.
Definition owed (s : nq) : nat := match pc s with SIdle => 0 | SDrain v | SRun _ v => v end.
Definition running (s : nq) : list positive := match pc s with SRun a _ => [a] | _ => [] end.
(** [l]: the pending notices, newest first *)
Record NI (s : nq) (l : list (positive * nat)) : Prop := {
  NI_chain : chain (heap s) (head s) l;
  NI_nodup : NoDup (running s ++ l.*1);
  NI_dom : forall a, a ∈ dom (heap s) <-> a ∈ running s ++ l.*1;
  NI_count : length l = owed s + ev s + length (writing s);
  NI_wnd : NoDup (writing s);
  NI_ghost : posted s ≡ₚ ran s ++ l.*2 }.

Lemma chain_ext h h' p l : (forall a, a ∈ l.*1 -> h' !! a = h !! a) -> chain h p l -> chain h' p l.
Proof.
  revert p. induction l as [|[a i] l IH]; intros p HE; cbn; [done|]. intros [-> (nx & Ha & Hc)].
  split; [done|]. exists nx. split; [rewrite HE; [done|set_solver]|]. apply IH; [|done]. intros b Hb. apply HE. set_solver.
Qed.
Section M.
Context (alloc : nat -> gset positive -> positive) (HA : forall k X, alloc k X ∉ X).
Lemma NI_init : NI nq_init [].
Proof. constructor; cbn; [done|constructor|set_solver|done|constructor|done]. Qed.
(** what a step does to the pending list *)
Definition nafter (e : nev) (a : positive) (l : list (positive * nat)) : list (positive * nat) :=
  match e with NPush _ i => (a, i) :: l | NPop => tail l | _ => l end.
Lemma NI_step s l e s' o : NI s l -> nstep alloc s e = Ok s' o ->
  exists l', NI s' l' /\ l'.*2 = match e with NPush _ i => i :: l.*2 | NPop => tail l.*2 | _ => l.*2 end.
Proof.
  intros [H1 H2 H3 H4 H5 H6] HS. destruct e as [t i|t| | | |]; cbn in HS.
  - destruct (decide (t ∈ writing s)) as [|Ht]; [done|]. injection HS as <- _.
    set (a := alloc i (dom (heap s))) in *. assert (Ha : a ∉ dom (heap s)) by apply HA.
    assert (Ha2 : a ∉ running s ++ l.*1) by (by rewrite <- H3).
    exists ((a, i) :: l). split; [|done]. constructor; cbn.
    + split; [done|]. exists (head s). rewrite lookup_insert. split; [done|]. eapply chain_ext; [|exact H1].
      intros b Hb. rewrite lookup_insert_ne; [done|]. intros <-. set_solver.
    + change (running _) with (running s). rewrite Permutation_app_comm. cbn. constructor; [set_solver|]. by rewrite Permutation_app_comm.
    + intros b. change (running _) with (running s). rewrite dom_insert_L, elem_of_union, elem_of_singleton, H3. set_solver.
    + unfold owed in *. cbn. lia.
    + by constructor.
    + rewrite H6. solve_Permutation.
  - destruct (decide (t ∈ writing s)) as [Ht|]; [|done]. injection HS as <- _. exists l. split; [|done].
    constructor; cbn; try done.
    + unfold owed in *. cbn. rewrite (remove1_length t (writing s) Ht) in H4. lia.
    + by apply remove1_nodup.
  - destruct (pc s) eqn:Ep; [|done|done]. destruct (ev s) as [|v] eqn:Ev; [done|]. injection HS as <- _. exists l. split; [|done].
    unfold owed, running in *. rewrite Ep in *. constructor; cbn; try done. lia.
  - destruct (pc s) as [|[|v]|] eqn:Ep; try done. destruct (head s) as [a|] eqn:Eh; [|done].
    destruct (heap s !! a) as [n|] eqn:Ea; [|done]. injection HS as <- _. unfold owed, running in *. rewrite Ep in *. cbn in *.
    destruct l as [|[b i] l]; [done|]. cbn in H1. destruct H1 as [[= <-] (nx & Hb & Hc)]. rewrite Hb in Ea. injection Ea as <-. cbn.
    exists l. split; [|done]. constructor; cbn; try done.
    + cbn in H4. lia.
    + rewrite H6. cbn. solve_Permutation.
  - destruct (pc s) as [| |a v] eqn:Ep; try done. destruct (heap s !! a) as [n|] eqn:Ea; [|done]. injection HS as <- _.
    exists l. split; [|done]. unfold owed, running in *. rewrite Ep in *. cbn in *. apply NoDup_cons in H2 as [H2a H2b].
    constructor; cbn; try done.
    + eapply chain_ext; [|exact H1]. intros b Hb. rewrite lookup_delete_ne; [done|]. intros <-. done.
    + intros b. rewrite dom_delete_L, elem_of_difference, elem_of_singleton, H3. split; [set_solver|]. intros Hb. split; [set_solver|]. intros ->. done.
  - destruct (pc s) as [|[|v]|] eqn:Ep; try done. injection HS as <- _. exists l. split; [|done].
    unfold owed, running in *. rewrite Ep in *. constructor; cbn; done.
Qed.
Lemma NI_safe s l e : NI s l -> nstep alloc s e <> Crash.
Proof.
  intros [H1 H2 H3 H4 H5 H6] HS. destruct e as [t i|t| | | |]; cbn in HS.
  - by case_decide.
  - by case_decide.
  - by destruct (pc s), (ev s).
  - destruct (pc s) as [|[|v]|] eqn:Ep; try done. unfold owed in H4. rewrite Ep in H4.
    destruct l as [|[a i] l]; [cbn in H4; lia|]. destruct H1 as [Hh (nx & Ha & _)]. rewrite Hh, Ha in HS. done.
  - destruct (pc s) as [| |a v] eqn:Ep; try done. assert (Hd : a ∈ dom (heap s)). { apply H3. unfold running. rewrite Ep. set_solver. }
    apply elem_of_dom in Hd as [n Hn]. by rewrite Hn in HS.
  - by destruct (pc s) as [|[|v]|].
Qed.
Lemma NI_run s : reachable (nstep alloc) nq_init s -> exists l, NI s l.
Proof.
  intros H. eapply (reach_inv (nstep alloc) (λ s, exists l, NI s l)); [exists []; apply NI_init| |exact H].
  intros s0 e s1 o [l Hl] HS. destruct (NI_step _ _ _ _ _ Hl HS) as (l' & Hl' & _). eauto.
Qed.
(** the selector thread alone works off what is owed *)
Lemma drain v : forall s l, NI s l -> pc s = SDrain v ->
  exists es s' os l', run (nstep alloc) s es = Ok s' os /\ Forall (λ e, e = NPop \/ e = NReturn \/ e = NLoopEnd) es /\
    NI s' l' /\ pc s' = SIdle /\ ev s' = ev s /\ writing s' = writing s /\ posted s' = posted s /\ ran s' = ran s ++ (take v l).*2 /\ l' = drop v l.
Proof.
  induction v as [|v IH]; intros s l HN Hp.
  - exists [NLoopEnd]. cbn. rewrite Hp. eexists _, _, l. split; [done|]. split; [constructor; [auto|constructor]|]. cbn.
    destruct HN as [H1 H2 H3 H4 H5 H6]. unfold owed, running in *. rewrite Hp in *.
    split_and!; try done; [by rewrite app_nil_r].
  - pose proof HN as [H1 H2 H3 H4 H5 H6]. destruct l as [|[a i] l]; [unfold owed in H4; rewrite Hp in H4; cbn in H4; lia|].
    pose proof H1 as [Hh (nx & Ha & Hc)].
    assert (S1 : nstep alloc s NPop = Ok (mknq (heap s) nx (ev s) (SRun a v) (writing s) (posted s) (ran s ++ [i])) (NCall i)).
    { cbn. rewrite Hp, Hh, Ha. done. }
    destruct (NI_step _ _ _ _ _ HN S1) as (l1 & N1 & _).
    set (s1 := mknq _ _ _ _ _ _ _) in *.
    assert (S2 : nstep alloc s1 NReturn = Ok (mknq (delete a (heap s)) nx (ev s) (SDrain v) (writing s) (posted s) (ran s ++ [i])) NNone).
    { cbn. rewrite Ha. done. }
    set (s2 := mknq (delete a _) _ _ _ _ _ _) in *.
    assert (N2 : NI s2 l).
    { unfold owed, running in *. rewrite Hp in *. cbn in *. apply NoDup_cons in H2 as [H2a H2b].
      constructor; cbn; try done.
      + eapply chain_ext; [|exact Hc]. intros b Hb. rewrite lookup_delete_ne; [done|]. intros <-. done.
      + intros b. rewrite dom_delete_L, elem_of_difference, elem_of_singleton, H3. split; [set_solver|]. intros Hb. split; [set_solver|]. intros ->. done.
      + cbn in H4. lia.
      + rewrite H6. solve_Permutation. }
    destruct (IH s2 l N2 eq_refl) as (es & s' & os & l' & HR & HF & N' & A & B & C & D & F & G).
    exists (NPop :: NReturn :: es), s', (NCall i :: NNone :: os), l'. cbn [run]. rewrite S1, S2, HR. split; [done|].
    split; [apply Forall_cons; split; [by left|]; apply Forall_cons; split; [by right; left|done]|]. split_and!; try done. rewrite F. cbn. by rewrite <- app_assoc.
Qed.
End M.
