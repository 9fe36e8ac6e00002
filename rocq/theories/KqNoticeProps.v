(** Property C63: cross-thread notices of the kqueue selector.  Model: KqNoticeModel.v *)
From Verif Require Import KqNoticeModel NoticeProof.

Definition qrunning (s : kqn) : list positive := match qpc_ s with QRun a _ => [a] | _ => [] end.
Definition qrest (s : kqn) : option positive := match qpc_ s with QIdle => None | QWalk p | QRun _ p => p end.
(** [bs]: the batches detached so far, each in posting order; [q]: the queued notices, newest first; [r]: the rest of the current batch *)
Record QI (f : bool) (s : kqn) (bs : list (list nat)) (q r : list (positive * nat)) : Prop := {
  QI_q : chain (qheap s) (qhead s) q;
  QI_r : chain (qheap s) (qrest s) r;
  QI_nodup : NoDup (qrunning s ++ r.*1 ++ q.*1);
  QI_dom : forall a, a ∈ dom (qheap s) <-> a ∈ qrunning s ++ r.*1 ++ q.*1;
  QI_posted : qposted s = concat bs ++ reverse (q.*2);
  QI_ran : qran s ++ r.*2 = concat (reverse <$> bs);
  QI_wake : q <> [] -> qtr s = true \/ qrdy s = true \/ qwriting s <> [] \/ f = true }.

Section M.
Context (alloc : nat -> gset positive -> positive) (HA : forall k X, alloc k X ∉ X).
Lemma QI_init : QI false kqn_init [] [] [].
Proof. constructor; cbn; try done; [constructor|set_solver]. Qed.
Definition failed (f : bool) (e : qev) : bool := match e with QTrig _ false => true | _ => f end.
Lemma QI_step f s bs q r e s' o : QI f s bs q r -> qstep alloc s e = Ok s' o -> exists bs' q' r', QI (failed f e) s' bs' q' r'.
Proof.
  intros [H1 H2 H3 H4 H5 H6 H7] HS. destruct e as [t i|t ok| | | | |]; cbn in HS; cbn [failed].
  - destruct (decide (t ∈ qwriting s)) as [|Ht]; [done|]. injection HS as <- _.
    set (a := alloc i (dom (qheap s))) in *. assert (Ha : a ∉ dom (qheap s)) by apply HA. rewrite H4 in Ha.
    exists bs, ((a, i) :: q), r.
    assert (Hx : forall p l, a ∉ l.*1 -> chain (qheap s) p l -> chain (<[a:=mkn (qhead s) i]> (qheap s)) p l).
    { intros p l Hl. apply chain_ext. intros b Hb. rewrite lookup_insert_ne; [done|]. intros <-. done. }
    constructor; cbn.
    + split; [done|]. exists (qhead s). rewrite lookup_insert. split; [done|]. apply Hx; [set_solver|done].
    + apply Hx; [set_solver|done].
    + change (qrunning _) with (qrunning s). assert (E : qrunning s ++ r.*1 ++ a :: q.*1 ≡ₚ a :: qrunning s ++ r.*1 ++ q.*1) by solve_Permutation.
      rewrite E. by constructor.
    + intros b. change (qrunning _) with (qrunning s). rewrite dom_insert_L, elem_of_union, elem_of_singleton, H4. set_solver.
    + rewrite H5. change (_ = ?x) with ((concat bs ++ reverse q.*2) ++ [i] = concat bs ++ reverse (i :: q.*2)). by rewrite reverse_cons, app_assoc.
    + done.
    + intros _. right; right; left. done.
  - destruct (decide (t ∈ qwriting s)) as [Ht|]; [|done]. injection HS as <- _. exists bs, q, r. constructor; cbn; try done.
    intros Hq. destruct ok; [by left|]. cbn. auto.
  - destruct (qpc_ s) eqn:Ep; [|done|done]. destruct (qtr s) eqn:Et; [|done]. injection HS as <- _. exists bs, q, r.
    unfold qrunning, qrest in *. rewrite Ep in *. constructor; cbn; try done. auto.
  - destruct (qpc_ s) eqn:Ep; [|done|done]. destruct (qrdy s) eqn:Et; [|done]. injection HS as <- _.
    unfold qrunning, qrest in *. rewrite Ep in *. cbn in *.
    assert (r = []) as -> by (destruct r as [|[] ?]; [done|by destruct H2]). cbn in *.
    exists (bs ++ [reverse (q.*2)]), [], q. constructor; cbn; try done.
    + by rewrite app_nil_r.
    + intros a. by rewrite H4, app_nil_r.
    + rewrite concat_app, H5. cbn. by rewrite !app_nil_r.
    + rewrite fmap_app, concat_app, <- H6. cbn. by rewrite reverse_involutive, !app_nil_r.
  - destruct (qpc_ s) as [|[a|]|] eqn:Ep; try done. destruct (qheap s !! a) as [n|] eqn:Ea; [|done]. injection HS as <- _.
    unfold qrunning, qrest in *. rewrite Ep in *. cbn in *.
    destruct r as [|[b i] r]; [done|]. destruct H2 as [[= <-] (nx & Hb & Hc)]. rewrite Hb in Ea. injection Ea as <-. cbn in *.
    exists bs, q, r. constructor; cbn; try done. by rewrite <- H6, <- app_assoc.
  - destruct (qpc_ s) as [| |a p] eqn:Ep; try done. destruct (qheap s !! a) as [n|] eqn:Ea; [|done]. injection HS as <- _.
    unfold qrunning, qrest in *. rewrite Ep in *. cbn in *. apply NoDup_cons in H3 as [H3a H3b].
    assert (Hx : forall p l, a ∉ l.*1 -> chain (qheap s) p l -> chain (delete a (qheap s)) p l).
    { intros p' l Hl. apply chain_ext. intros b Hb. rewrite lookup_delete_ne; [done|]. intros <-. done. }
    exists bs, q, r. constructor; cbn; try done.
    + apply Hx; [set_solver|done].
    + apply Hx; [set_solver|done].
    + intros b. rewrite dom_delete_L, elem_of_difference, elem_of_singleton, H4, elem_of_cons.
      split; [intros [[->|Hb] Hn]; [done|done]|]. intros Hb. split; [by right|]. intros ->. done.
  - destruct (qpc_ s) as [|[|]|] eqn:Ep; try done. injection HS as <- _. exists bs, q, r.
    unfold qrunning, qrest in *. rewrite Ep in *. constructor; cbn; done.
Qed.
Lemma QI_safe f s bs q r e : QI f s bs q r -> qstep alloc s e <> Crash.
Proof.
  intros [H1 H2 H3 H4 H5 H6 H7] HS. destruct e as [t i|t ok| | | | |]; cbn in HS.
  - by case_decide.
  - by case_decide.
  - by destruct (qpc_ s), (qtr s).
  - by destruct (qpc_ s), (qrdy s).
  - destruct (qpc_ s) as [|[a|]|] eqn:Ep; try done. unfold qrest in H2. rewrite Ep in H2.
    destruct r as [|[b i] r]; [done|]. destruct H2 as [[= <-] (nx & Hb & _)]. by rewrite Hb in HS.
  - destruct (qpc_ s) as [| |a v] eqn:Ep; try done. assert (Hd : a ∈ dom (qheap s)). { apply H4. unfold qrunning. rewrite Ep. set_solver. }
    apply elem_of_dom in Hd as [n Hn]. by rewrite Hn in HS.
  - by destruct (qpc_ s) as [|[|]|].
Qed.
Lemma QI_run es : forall f s bs q r s' os, QI f s bs q r -> run (qstep alloc) s es = Ok s' os ->
  exists bs' q' r', QI (fold_left failed es f) s' bs' q' r'.
Proof.
  induction es as [|e es IH]; intros f s bs q r s' os HI HR; cbn in HR; [injection HR as <- <-; eauto|].
  destruct (qstep alloc s e) as [| |s1 o1] eqn:E; try done. destruct (run (qstep alloc) s1 es) as [| |s2 os2] eqn:ER; try done.
  injection HR as <- <-. destruct (QI_step _ _ _ _ _ _ _ _ HI E) as (bs1 & q1 & r1 & HI1). cbn. by eapply IH.
Qed.
Lemma failed_none es : forall f, Forall (λ e, forall t, e <> QTrig t false) es -> fold_left failed es f = f.
Proof.
  induction es as [|e es IH]; intros f HF; [done|]. apply Forall_cons in HF as [He HF]. cbn. rewrite IH; [|done].
  destruct e as [| t []| | | | |]; try done. by destruct (He t).
Qed.

(** C63.  (safe) In no interleaving of posting threads and the selector, whatever kevent returns and whatever addresses malloc returns,
    is a freed notice read or freed again. *)
Theorem C63_safe : safe (qstep alloc) kqn_init.
Proof.
  eapply (safe_inv (qstep alloc) (λ s, exists f bs q r, QI f s bs q r)).
  - exists false, [], [], []. apply QI_init.
  - intros s e s' o (f & bs & q & r & Hl) HS. destruct (QI_step _ _ _ _ _ _ _ _ Hl HS) as (bs' & q' & r' & Hl'). eauto 8.
  - intros s e (f & bs & q & r & Hl). by eapply QI_safe.
Qed.
(** (order, exactly once) The posted callbacks, in posting order, fall into consecutive batches and a rest not yet taken; what has run,
    followed by the not yet run rest of the last batch, is each batch backwards, batch after batch.  Every posted callback has one place in
    this, so none runs twice and none unposted runs; a callback of an earlier batch runs before one of a later batch. *)
Theorem C63_order s : reachable (qstep alloc) kqn_init s ->
  exists batches queued rest, qposted s = concat batches ++ queued /\ qran s ++ rest = concat (reverse <$> batches).
Proof.
  intros (es & os & HR). destruct (QI_run es _ _ _ _ _ _ _ QI_init HR) as (bs & q & r & HI).
  exists bs, (reverse (q.*2)), (r.*2). split; [apply HI|apply HI].
Qed.
(** one notice is allocated per pending or running callback: nothing leaks *)
Lemma concat_reverse_perm {A} (l : list (list A)) : concat (reverse <$> l) ≡ₚ concat l.
Proof. induction l as [|x l IH]; [done|]. cbn. by rewrite IH, reverse_Permutation. Qed.
Theorem C63_exactly_once s : reachable (qstep alloc) kqn_init s ->
  exists pending, qposted s ≡ₚ qran s ++ pending /\
    size (dom (qheap s)) = length pending + match qpc_ s with QRun _ _ => 1 | _ => 0 end.
Proof.
  intros (es & os & HR). destruct (QI_run es _ _ _ _ _ _ _ QI_init HR) as (bs & q & r & [H1 H2 H3 H4 H5 H6 H7]).
  exists (r.*2 ++ reverse (q.*2)). split.
  - rewrite H5, app_assoc, H6. by rewrite concat_reverse_perm.
  - assert (E : dom (qheap s) = list_to_set (qrunning s ++ r.*1 ++ q.*1)).
    { apply set_eq. intros a. by rewrite H4, elem_of_list_to_set. }
    rewrite E, size_list_to_set; [|done]. rewrite !app_length, reverse_length, !fmap_length. unfold qrunning. destruct (qpc_ s); cbn; lia.
Qed.
(** (no lost wake-up) If no trigger failed: with the selector back in its loop and no thread inside next(), as long as a posted
    callback has not run the user event is triggered or the selectable is in the READY list; *)
Theorem C63_wakeup es s os : run (qstep alloc) kqn_init es = Ok s os -> Forall (λ e, forall t, e <> QTrig t false) es ->
  qpc_ s = QIdle -> qwriting s = [] -> length (qran s) <> length (qposted s) -> qtr s = true \/ qrdy s = true.
Proof.
  intros HR HF Hp Hw Hl. destruct (QI_run es _ _ _ _ _ _ _ QI_init HR) as (bs & q & r & [H1 H2 H3 H4 H5 H6 H7]).
  rewrite failed_none in H7; [|done]. unfold qrest in H2. rewrite Hp in H2.
  assert (r = []) as -> by (destruct r as [|[] ?]; [done|by destruct H2]).
  destruct H7 as [|[|[|]]]; try done; [|by left|by right]. intros ->. apply Hl. cbn in *. rewrite app_nil_r in *. by rewrite H5, H6, concat_reverse_perm.
Qed.

(** the selector thread alone: *)
Definition by_sel (e : qev) : Prop := match e with QPush _ _ | QTrig _ _ => False | _ => True end.
Lemma by_sel_failed es : forall f, Forall by_sel es -> fold_left failed es f = f.
Proof.
  intros f HF. apply failed_none. eapply Forall_impl; [exact HF|]. intros e He t ->. done.
Qed.
Lemma walk f bs q r : forall s p, QI f s bs q r -> qpc_ s = QWalk p ->
  exists es s' os, run (qstep alloc) s es = Ok s' os /\ Forall by_sel es /\ QI f s' bs q [] /\ qpc_ s' = QIdle /\
    qtr s' = qtr s /\ qrdy s' = qrdy s /\ qwriting s' = qwriting s /\ qposted s' = qposted s.
Proof.
  induction r as [|[a i] r IH]; intros s p HI Hp.
  - pose proof HI as [H1 H2 H3 H4 H5 H6 H7]. unfold qrest, qrunning in *. rewrite Hp in *. cbn in H2. subst p.
    exists [QEnd]. cbn. rewrite Hp. eexists _, _. split; [done|]. split; [by repeat constructor|]. cbn. split_and!; try done.
  - pose proof HI as [H1 H2 H3 H4 H5 H6 H7]. unfold qrest, qrunning in *. rewrite Hp in *. cbn in H2. destruct H2 as [-> (nx & Ha & Hc)].
    cbn in H3. apply NoDup_cons in H3 as [H3a H3b].
    set (s2 := mkkqn (delete a (qheap s)) (qhead s) (qtr s) (qrdy s) (QWalk nx) (qwriting s) (qposted s) (qran s ++ [i])).
    assert (Hx : forall p l, a ∉ l.*1 -> chain (qheap s) p l -> chain (delete a (qheap s)) p l).
    { intros p' l Hl. apply chain_ext. intros b Hb. rewrite lookup_delete_ne; [done|]. intros <-. done. }
    assert (HI2 : QI f s2 bs q r).
    { constructor; cbn; try done.
      + apply Hx; [set_solver|done].
      + apply Hx; [set_solver|done].
      + intros b. rewrite dom_delete_L, elem_of_difference, elem_of_singleton, H4. cbn. rewrite elem_of_cons.
        split; [intros [[->|Hb] Hn]; [done|done]|]. intros Hb. split; [by right|]. intros ->. done.
      + by rewrite <- H6, <- app_assoc. }
    destruct (IH s2 nx HI2 eq_refl) as (es & s' & os & HR & HF & HI' & A & B & C & D & F).
    exists (QNext :: QReturn :: es), s', (NCall i :: NNone :: os). cbn. rewrite Hp, Ha. cbn. rewrite Ha.
    change (mkkqn _ _ _ _ _ _ _ _) with s2. rewrite HR. split; [done|]. split; [by repeat constructor|]. by split_and!.
Qed.
Lemma batch f s bs q r : QI f s bs q r -> qpc_ s = QIdle -> qtr s = true \/ qrdy s = true ->
  exists es s' os, run (qstep alloc) s es = Ok s' os /\ Forall by_sel es /\ qposted s' = qposted s /\ qran s' ≡ₚ qposted s.
Proof.
  intros HI Hp Ht.
  assert (Hrdy : forall s, QI f s bs q r -> qpc_ s = QIdle -> qrdy s = true ->
    exists es s' os, run (qstep alloc) s es = Ok s' os /\ Forall by_sel es /\ qposted s' = qposted s /\ qran s' ≡ₚ qposted s).
  { clear s HI Hp Ht. intros s HI Hp Ht.
    pose proof HI as [H1 H2 H3 H4 H5 H6 H7]. unfold qrunning, qrest in *. rewrite Hp in *. cbn in *.
    assert (r = []) as -> by (destruct r as [|[] ?]; [done|by destruct H2]). cbn in *.
    assert (S1 : qstep alloc s QDetach = Ok (mkkqn (qheap s) None (qtr s) false (QWalk (qhead s)) (qwriting s) (qposted s) (qran s)) NNone).
    { cbn. by rewrite Hp, Ht. }
    set (s1 := mkkqn _ _ _ _ _ _ _ _) in S1.
    assert (HI1 : QI f s1 (bs ++ [reverse (q.*2)]) [] q).
    { constructor; cbn; try done.
      + by rewrite app_nil_r.
      + intros a. by rewrite H4, app_nil_r.
      + rewrite concat_app, H5. cbn. by rewrite !app_nil_r.
      + rewrite fmap_app, concat_app, <- H6. cbn. by rewrite reverse_involutive, !app_nil_r. }
    destruct (walk _ _ _ _ s1 _ HI1 eq_refl) as (es & s' & os & HR & HF & HI' & A & B & C & D & F).
    exists (QDetach :: es), s', (NNone :: os). cbn [run]. rewrite S1, HR. split_and!; [done|by constructor|done|].
    change (qposted s1) with (qposted s) in F. rewrite <- F. pose proof (QI_posted _ _ _ _ _ HI') as P1. pose proof (QI_ran _ _ _ _ _ HI') as P2.
    cbn in P1, P2. rewrite app_nil_r in P1, P2. by rewrite P1, P2, concat_reverse_perm. }
  destruct (qrdy s) eqn:Er; [by apply Hrdy|]. destruct Ht as [Ht|]; [|done].
  assert (S1 : qstep alloc s QSelect = Ok (mkkqn (qheap s) (qhead s) false true QIdle (qwriting s) (qposted s) (qran s)) NNone).
  { cbn. by rewrite Hp, Ht. }
  set (s1 := mkkqn _ _ _ _ _ _ _ _) in S1.
  assert (HI1 : QI f s1 bs q r).
  { destruct HI as [H1 H2 H3 H4 H5 H6 H7]. unfold qrunning, qrest in *. rewrite Hp in *. constructor; cbn; try done. auto. }
  destruct (Hrdy s1 HI1 eq_refl eq_refl) as (es & s' & os & HR & HF & P & Q).
  exists (QSelect :: es), s', (NNone :: os). cbn [run]. rewrite S1, HR. split_and!; [done|by constructor|done|done].
Qed.
(** and then it runs all of them; in fact a single successful trigger suffices: whatever failed before, once the event is triggered
    or the selectable is READY, the selector alone runs everything posted so far *)
Theorem C63_all_run s : reachable (qstep alloc) kqn_init s -> qtr s = true \/ qrdy s = true ->
  exists es s' os, run (qstep alloc) s es = Ok s' os /\ Forall by_sel es /\ qposted s' = qposted s /\ qran s' ≡ₚ qposted s.
Proof.
  intros (es0 & os0 & HR0) Ht. destruct (QI_run es0 _ _ _ _ _ _ _ QI_init HR0) as (bs & q & r & HI).
  generalize dependent (fold_left failed es0 false). intros f HI. clear HR0.
  assert (Hw : forall s r p, QI f s bs q r -> qpc_ s = QWalk p -> qtr s = true \/ qrdy s = true ->
    exists es s' os, run (qstep alloc) s es = Ok s' os /\ Forall by_sel es /\ qposted s' = qposted s /\ qran s' ≡ₚ qposted s).
  { clear s r HI Ht. intros s r p HI Hp Ht.
    destruct (walk _ _ _ _ s p HI Hp) as (es & s' & os & HR & HF & HI' & A & B & C & D & F).
    destruct (batch _ s' _ _ _ HI' A) as (es2 & s2 & os2 & R2 & F2 & P2 & Q2); [by rewrite B, C|].
    exists (es ++ es2), s2, (os ++ os2). rewrite run_app, HR, R2. split_and!; [done|by apply Forall_app|congruence|by rewrite Q2, F]. }
  destruct (qpc_ s) as [|p|a p] eqn:Hp; [by eapply batch|by eapply Hw|].
  destruct (qheap s !! a) as [n|] eqn:Ea.
  2: { exfalso. eapply (QI_safe f s bs q r QReturn HI). cbn. by rewrite Hp, Ea. }
  assert (S1 : qstep alloc s QReturn = Ok (mkkqn (delete a (qheap s)) (qhead s) (qtr s) (qrdy s) (QWalk p) (qwriting s) (qposted s) (qran s)) NNone).
  { cbn. by rewrite Hp, Ea. }
  set (s1 := mkkqn _ _ _ _ _ _ _ _) in S1.
  assert (HI1 : QI f s1 bs q r).
  { pose proof HI as [H1 H2 H3 H4 H5 H6 H7]. unfold qrunning, qrest in *. rewrite Hp in *. cbn in *. apply NoDup_cons in H3 as [H3a H3b].
    assert (Hx : forall p l, a ∉ l.*1 -> chain (qheap s) p l -> chain (delete a (qheap s)) p l).
    { intros p' l Hl. apply chain_ext. intros b Hb. rewrite lookup_delete_ne; [done|]. intros <-. done. }
    constructor; cbn; try done.
    + apply Hx; [set_solver|done].
    + apply Hx; [set_solver|done].
    + intros b. rewrite dom_delete_L, elem_of_difference, elem_of_singleton, H4, elem_of_cons.
      split; [intros [[->|Hb] Hn]; [done|done]|]. intros Hb. split; [by right|]. intros ->. done. }
  destruct (Hw s1 r p HI1 eq_refl Ht) as (es & s' & os & HR & HF & P & Q).
  exists (QReturn :: es), s', (NNone :: os). cbn [run]. rewrite S1, HR. split_and!; [done|by constructor|done|done].
Qed.
End M.
Print Assumptions C63_safe.
Print Assumptions C63_order.
Print Assumptions C63_exactly_once.
Print Assumptions C63_wakeup.
Print Assumptions C63_all_run.

Definition qalloc (k : nat) (X : gset positive) : positive := fresh X.
Lemma qalloc_fresh k X : qalloc k X ∉ X.
Proof. apply is_fresh. Qed.
(** two posting threads, a post while the batch is walked, a post from inside a callback, a trigger that finds nothing left *)
Definition kq_demo : list qev :=
  [QPush 1 10; QPush 2 20; QTrig 2 true; QSelect; QDetach; QPush 3 30; QNext; QPush 4 40; QTrig 4 true; QReturn; QNext; QReturn; QEnd;
   QTrig 1 true; QSelect; QDetach; QNext; QReturn; QNext; QReturn; QEnd; QTrig 3 true; QSelect; QDetach; QEnd].
Example C63_demo : match run (qstep qalloc) kqn_init kq_demo with
  | Ok s _ => qran s = [20; 10; 40; 30] /\ qposted s = [10; 20; 30; 40] /\ qtr s = false /\ map_to_list (qheap s) = [] | _ => False end.
Proof. vm_compute. done. Qed.
Example C63_wakeup_demo : match run (qstep qalloc) kqn_init (take 13 kq_demo ++ [QTrig 1 true; QTrig 3 true]) with
  | Ok s _ => qpc_ s = QIdle /\ qwriting s = [] /\ length (qran s) = 2 /\ length (qposted s) = 4 /\ qtr s = true | _ => False end.
Proof. vm_compute. done. Qed.
(** posting order is not kept inside a batch: *)
Theorem C63_fifo_refuted : exists s os, run (qstep qalloc) kqn_init
  [QPush 7 1; QTrig 7 true; QPush 7 2; QTrig 7 true; QSelect; QDetach; QNext; QReturn; QNext; QReturn; QEnd] = Ok s os /\
  qposted s = [1; 2] /\ qran s = [2; 1].
Proof. eexists _, _. split; [vm_compute; reflexivity|]. done. Qed.
Print Assumptions C63_fifo_refuted.
(** a failed trigger is only printed: the caller of next() is not told and the callback waits for someone else's post *)
Theorem C63_trigger_failure_refuted : exists s os, run (qstep qalloc) kqn_init [QPush 7 1; QTrig 7 false] = Ok s os /\
  qposted s = [1] /\ qran s = [] /\ qwriting s = [] /\
  forall e, by_sel e -> qstep qalloc s e = Disabled.
Proof. eexists _, _. split; [vm_compute; reflexivity|]. split_and!; try done. by intros []. Qed.
Print Assumptions C63_trigger_failure_refuted.
