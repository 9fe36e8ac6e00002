(** Proofs for C72: the effects of the steps, continued: the beginning and the return of calls, opening, closing and seeking. *)
From Verif Require Import WfModel WfSpec WfProof WfProof2 WfProof3 WfProof4.
Local Open Scope Z_scope.

Lemma snoc_split {A} (h k : list A) e h1 x h2 : h ++ [e] = h1 ++ x :: h2 -> (h2 = [] /\ h1 = h /\ x = e) \/ exists h2', h2 = h2' ++ [e] /\ h = h1 ++ x :: h2'.
Proof.
  destruct h2 as [|z h2 _] using rev_ind; intros H.
  - apply app_inj_tail in H as [<- <-]. by left.
  - right. rewrite app_comm_cons, app_assoc in H. apply app_inj_tail in H as [-> <-]. by exists h2.
Qed.
Section I.
Context (home : nat -> nat) (maxw : nat) (c0 : nat -> list Z).
Notation WI := (WI home c0).
Notation opinv := (opinv home).

Lemma at_no s fi o ph : at_ s fi o ph -> fib s fi <> FRun /\ fib s fi <> FNone /\ forall i f, fib s fi <> FJoin i f.
Proof. intros H. destruct ph; cbn in H; [|destruct H as [H _]| |]; rewrite H; done. Qed.
Lemma open_at s id t f : WI s -> open_call id t f (hist s) -> exists fi o ph, at_ s fi o ph /\ o_id o = id /\ o_f o = f /\ o_t o = t /\ opinv s fi o ph.
Proof.
  intros HI Ho. assert (H : exists fi o ph, at_ s fi o ph /\ o_id o = id).
  { destruct (w_open _ _ _ HI _ _ _ Ho) as [(o & ph & H1 & H2)|H1]; [eauto|]. destruct (w_join _ _ _ HI _ _ _ H1) as (o & ph & H2 & H3 & _). eauto. }
  destruct H as (fi & o & ph & H1 & H2). pose proof (w_op _ _ _ HI _ _ _ H1) as HP. destruct (p_call _ _ _ _ _ HP) as (wr & off & C1 & _).
  destruct Ho as [(wr' & len & full & off' & C2) _]. rewrite H2 in C1.
  pose proof (call_uniq _ _ _ _ _ _ _ _ _ _ _ _ _ _ _ _ (proj1 (w_ids _ _ _ HI)) C1 C2) as [= Et Ef _ _ _ _]. eauto 8.
Qed.
Lemma busy_al s f : WI s -> busy f (hist s) -> f_al (fls s f) = true.
Proof. intros HI (id & t & Ho). destruct (open_at _ _ _ _ HI Ho) as (fi & o & ph & _ & _ & <- & _ & HP). apply HP. Qed.

(** a call returns *)
Lemma WI_ret s fi o r g : WI s -> at_ s fi o (PExit r) ->
  (g (Prog (o_t o)) = FRun) -> (forall id, fi = Help id -> g fi = FNone) -> (forall y, y <> fi -> y <> Prog (o_t o) -> g y = fib s y) ->
  WI (mks (fls s) (cont s) (queue s) (runq s) (msgs s) g (bufs s) (nid s)
        (hist s ++ [HRet (o_id o) (o_t o) (o_f o) r (o_len o - o_done o) (if o_wr o then [] else take (o_done o) (bufs s (o_id o)))])).
Proof.
  intros HI Ha Hg1 Hg2 Hg3. pose proof (w_op _ _ _ HI _ _ _ Ha) as HP. set (e := HRet _ _ _ _ _ _). set (s' := mks _ _ _ _ _ _ _ _ _).
  destruct (p_call _ _ _ _ _ HP) as (wr & off & C1 & C2 & C3). cbn [progress] in C3.
  assert (Hfid : (fi = Prog (o_t o)) \/ (fi = Help (o_id o) /\ fib s (Prog (o_t o)) = FJoin (o_id o) (o_f o))).
  { pose proof (p_fid _ _ _ _ _ HP) as H. destruct fi as [t|id]; [left; destruct H; congruence|right]. destruct H as [-> H]. done. }
  assert (Hpt : forall p q, at_ s (Prog (o_t o)) p q -> fi = Prog (o_t o)).
  { intros p q Hp. destruct Hfid as [H|[H1 H2]]; [done|]. apply at_no in Hp as (_ & _ & Hp). by apply Hp in H2. }
  assert (Hg4 : forall y p, y = fi \/ y = Prog (o_t o) -> g y <> FStart p /\ g y <> FWait p /\ (forall r, g y <> FReady p r) /\ forall r, g y <> FExit p r).
  { intros y p [->| ->]; [|rewrite Hg1; by split_and!]. destruct Hfid as [->|[E H2]]; [rewrite Hg1; by split_and!|]. rewrite (Hg2 _ E). by split_and!. }
  assert (HJ : jobs s' = jobs s) by done.
  assert (Hold : forall y p q, at_ s' y p q -> y <> fi /\ y <> Prog (o_t o) /\ at_ s y p q /\ o_id p <> o_id o).
  { intros y p q Hp. assert (y <> fi /\ y <> Prog (o_t o)) as [N1 N2].
    { destruct (decide (y = fi)) as [E|N1]; [|destruct (decide (y = Prog (o_t o))) as [E|N2]; [|done]];
        (destruct (Hg4 y p) as (A1 & A2 & A3 & A4); [tauto|]); destruct q; cbn in Hp; [done|by destruct Hp|by apply A3 in Hp|by apply A4 in Hp|done|by destruct Hp|by apply A3 in Hp|by apply A4 in Hp]. }
    assert (Hp' : at_ s y p q) by (destruct q; cbn in *; by rewrite Hg3 in Hp). split_and!; try done. by destruct (at_neq _ _ _ _ _ _ _ _ _ HI Ha Hp' N1). }
  assert (Hnew : forall y p q, at_ s y p q -> y <> fi -> at_ s' y p q).
  { intros y p q Hp N1. assert (N2 : y <> Prog (o_t o)) by (intros ->; apply Hpt in Hp; congruence). destruct q; cbn in *; by rewrite Hg3. }
  assert (Hoo : forall id t f, open_call id t f (hist s') -> id <> o_id o /\ open_call id t f (hist s)).
  { intros id t f [(w & len & full & q & H) H2]. cbn [s' hist] in *. rewrite returned_app in H2. apply not_elem_of_app in H2 as [H2 H3]. cbn in H3.
    split; [intros ->; apply H3; apply elem_of_list_singleton; done|]. split; [|done]. apply elem_of_app in H as [H|H]; [by eauto|by apply elem_of_list_singleton in H]. }
  assert (Hxf : forall id, xfers id (hist s') = xfers id (hist s)) by (intros id; cbn [s' hist]; rewrite xfers_app; apply app_nil_r).
  assert (Hca : called (hist s') = called (hist s)) by (cbn [s' hist]; rewrite called_app; apply app_nil_r).
  split.
  - apply HI.
  - intros f x Hx. destruct (w_job _ _ _ HI _ _ Hx) as (y & p & H1 & H2). exists y, p. split; [|done]. cbn. rewrite Hg3; [done| |].
    + intros ->. cbn in Ha. congruence.
    + intros ->. destruct Hfid as [->|[_ E]]; cbn in Ha; congruence.
  - intros y p H. cbn in H. destruct (decide (y = fi)) as [E|N1]; [|destruct (decide (y = Prog (o_t o))) as [E|N2]];
      [destruct (Hg4 y p) as (A1 & A2 & A3 & A4); [tauto|done]..|]. rewrite Hg3 in H by done. by apply (w_wait _ _ _ HI) in H.
  - intros y p q Hp. destruct (Hold _ _ _ Hp) as (N1 & N2 & Hp' & N3). eapply opinv_frame; [by apply (w_op _ _ _ HI)|done| |done|done|].
    + constructor; [|done]. cbn. congruence.
    + intros t Ht. cbn. rewrite Hg3; [done| |].
      * exact (join_neq _ _ _ _ _ _ _ Ha Ht).
      * intros [= ->]. destruct Hfid as [->|[_ E]]; [cbn in Ha; congruence|]. rewrite E in Ht. congruence.
  - apply HI.
  - intros t H. cbn in H. destruct (decide (t = o_t o)) as [->|N]; [congruence|].
    destruct (decide (Prog t = fi)) as [<-|N1]; [destruct Hfid as [E|[E _]]; congruence|]. rewrite Hg3 in H; [by apply (w_prog _ _ _ HI) in H|done|congruence].
  - intros id. cbn. destruct (decide (Help id = fi)) as [E|N]; [rewrite E, (Hg2 id) by done; done|]. rewrite Hg3 by done. apply HI.
  - intros t id f Ht. cbn in Ht. assert (Nt : Prog t <> Prog (o_t o)) by (intros E; rewrite E in Ht; congruence).
    assert (Nf : Prog t <> fi) by (intros E; destruct Hfid as [F|[F _]]; congruence). rewrite Hg3 in Ht by done.
    destruct (w_join _ _ _ HI _ _ _ Ht) as (p & q & H1 & H2 & H3 & H4). exists p, q. split; [|done]. apply Hnew; [done|].
    intros E. rewrite E in H1. destruct (at_fun _ _ _ _ _ _ _ _ HI Ha H1) as [-> ->]. congruence.
  - intros id t f Ho. destruct (Hoo _ _ _ Ho) as [N1 Ho']. destruct (w_open _ _ _ HI _ _ _ Ho') as [(p & q & H1 & H2)|H1].
    + left. exists p, q. split; [|done]. apply Hnew; [done|]. intros E. rewrite E in H1. destruct (at_fun _ _ _ _ _ _ _ _ HI Ha H1) as [-> ->]. congruence.
    + right. cbn. rewrite Hg3; [done|exact (join_neq _ _ _ _ _ _ _ Ha H1)|]. intros E. rewrite E in H1. destruct Hfid as [->|[_ F]]; [cbn in Ha; congruence|]. congruence.
  - intros id t id' t' f H1 H2. apply Hoo in H1 as [_ H1], H2 as [_ H2]. by eapply (w_one _ _ _ HI).
  - rewrite Hca. apply HI.
  - rewrite Hca. cbn [s' hist]. rewrite returned_app. cbn. destruct (w_rids _ _ _ HI) as [R1 R2]. split.
    + apply NoDup_app. split_and!; [done| |apply NoDup_singleton]. intros id Hi Hi'. apply elem_of_list_singleton in Hi' as ->. by apply (p_ret _ _ _ _ _ HP).
    + intros id Hi. apply elem_of_app in Hi as [Hi|Hi]; [by apply R2|]. apply elem_of_list_singleton in Hi as ->. by eapply called_in.
  - intros id. rewrite Hxf, Hca. apply HI.
  - intros i. cbn [s' cont hist]. rewrite contents_app. cbn. apply HI.
  - intros f. cbn [s' fls hist]. rewrite owner_app. cbn. apply HI.
  - intros f Hf. cbn [s' fls hist]. rewrite HJ, pos_app. cbn. by apply (w_pos _ _ _ HI).
  - intros h1 h2 id t f w len full acc off' HH. cbn [s' hist] in HH. apply (snoc_split _ []) in HH as [(_ & _ & E)|(h2' & _ & HH)]; [done|]. by eapply (w_callpos _ _ _ HI).
  - intros h1 h2 id f i off' res b a gg HH. cbn [s' hist] in HH. apply (snoc_split _ []) in HH as [(_ & _ & E)|(h2' & _ & HH)]; [done|]. by eapply (w_exec _ _ _ HI).
  - intros id t f r' rem bytes H. rewrite Hxf. cbn [s' hist] in *. apply elem_of_app in H as [H|H].
    + destruct (w_ret _ _ _ HI _ _ _ _ _ _ H) as (w & len & full & acc & q & H1 & H2). exists w, len, full, acc, q. split; [apply elem_of_app; by left|done].
    + apply elem_of_list_singleton in H. injection H as -> -> -> -> -> ->. exists wr, (o_len o), (o_full o), true, off. split; [apply elem_of_app; by left|done].
Qed.

(** a call begins *)
Lemma WI_begin s t f wr len full fi g : WI s -> fib s (Prog t) = FRun -> f_al (fls s f) = true -> ~ busy f (hist s) ->
  let o := mko (nid s) f t (is_wr wr) (wlen wr len) full 0 in
  (fi = Prog t /\ f_sel (fls s f) = home t) \/ (fi = Help (nid s) /\ g (Prog t) = FJoin (nid s) f) ->
  g fi = FStart o -> (forall y, y <> fi -> y <> Prog t -> g y = fib s y) ->
  WI (set_fib g (begin s t f wr len full true)).
Proof.
  intros HI Ht Hal Hb o Hfi Hg1 Hg2. set (s' := set_fib g _).
  assert (HJ : jobs s' = jobs s) by done.
  assert (Hlt : forall id, id ∈ called (hist s) -> (id < nid s)%nat) by apply HI.
  assert (Hnoat : forall y p q, at_ s y p q -> y <> fi /\ y <> Prog t /\ o_id p <> nid s /\ o_f p <> f).
  { intros y p q Hp. pose proof (w_op _ _ _ HI _ _ _ Hp) as HP. pose proof (op_open _ _ _ _ _ HP) as Ho. pose proof Ho as [(w & l & fu & of_ & C) _].
    apply called_in, Hlt in C. assert (N2 : y <> Prog t) by (intros ->; apply at_no in Hp as (Hp & _); done).
    assert (N1 : y <> fi). { destruct Hfi as [[-> _]|[-> _]]; [done|]. intros ->. pose proof (p_fid _ _ _ _ _ HP) as [E _]. lia. }
    split_and!; [done|done|lia|]. intros <-. apply Hb. by exists (o_id p), (o_t p). }
  assert (Hhw : forall y p, fib s y = FWait p -> exists q, at_ s y p q) by (intros y p H; destruct (w_wait _ _ _ HI _ _ H) as [x Hx]; by exists (PWait x)).
  assert (Hold : forall y p q, at_ s' y p q -> (y = fi /\ p = o /\ q = PStart) \/ (y <> fi /\ y <> Prog t /\ at_ s y p q)).
  { intros y p q Hp. destruct (decide (y = fi)) as [->|N1].
    - left. destruct q; cbn in Hp; rewrite Hg1 in Hp; [|by destruct Hp|done|done]. by injection Hp as <-.
    - right. destruct (decide (y = Prog t)) as [->|N2].
      + destruct Hfi as [[-> _]|[_ E]]; [done|]. apply at_no in Hp as (_ & _ & Hp). by apply Hp in E.
      + split_and!; [done|done|]. destruct q; cbn in *; by rewrite Hg2 in Hp. }
  assert (Hnew : forall y p q, at_ s y p q -> at_ s' y p q).
  { intros y p q Hp. destruct (Hnoat _ _ _ Hp) as (N1 & N2 & _). destruct q; cbn in *; by rewrite Hg2. }
  assert (Hj : forall t' id f', fib s (Prog t') = FJoin id f' -> g (Prog t') = FJoin id f').
  { intros t' id f' H. rewrite Hg2; [done| |intros [= ->]; congruence]. destruct Hfi as [[-> _]|[-> _]]; [intros [= ->]; congruence|done]. }
  assert (HP : opinv s' fi o PStart).
  { split; cbn [s' set_fib begin fls fib hist bufs o_id o_f o_t o_wr o_len o_full o_done o].
    - exists wr, (f_off (fls s f)). split_and!; [apply elem_of_app; right; by apply elem_of_list_singleton|done|]. cbn [progress o_id o_f o_t o_wr o_len o_full o_done o].
      assert (Hx : xfers (nid s) (hist s') = []).
      { cbn [s' set_fib begin hist]. rewrite xfers_app. cbn. rewrite app_nil_r. destruct (xfers (nid s) (hist s)) eqn:E; [done|].
        assert (Hn : nid s ∈ called (hist s)) by (apply (w_xids _ _ _ HI); by rewrite E). apply Hlt in Hn. lia. }
      exists []. split_and!; try done; [destruct full; [by left|done]|lia| |cbn; unfold moved; cbn; lia].
      rewrite Hx. cbn [s' set_fib begin bufs]. rewrite upd_eq. by destruct wr.
    - rewrite returned_app. cbn. rewrite app_nil_r. intros H. apply (w_rids _ _ _ HI), Hlt in H. lia.
    - done.
    - destruct Hfi as [[-> H]|[-> H]]; done.
    - done.
    - done. }
  assert (Hoo : forall id t' f', open_call id t' f' (hist s') -> (id = nid s /\ t' = t /\ f' = f) \/ open_call id t' f' (hist s)).
  { intros id t' f' [(w & l & fu & q & H) H2]. cbn [s' set_fib begin hist] in *. rewrite returned_app in H2. apply not_elem_of_app in H2 as [H2 _].
    apply elem_of_app in H as [H|H]; [right; split; [by eauto|done]|]. apply elem_of_list_singleton in H. injection H as -> -> -> _ _ _ _. by left. }
  assert (Hxf : forall id, xfers id (hist s') = xfers id (hist s)) by (intros id; cbn [s' set_fib begin hist]; rewrite xfers_app; apply app_nil_r).
  assert (Hre : returned (hist s') = returned (hist s)) by (cbn [s' set_fib begin hist]; rewrite returned_app; apply app_nil_r).
  assert (Hca : called (hist s') = called (hist s) ++ [nid s]) by (cbn [s' set_fib begin hist]; by rewrite called_app).
  split.
  - apply HI.
  - intros f' x Hx. destruct (w_job _ _ _ HI _ _ Hx) as (y & p & H1 & H2). exists y, p. split; [|done]. destruct (Hhw _ _ H1) as [q Hq].
    destruct (Hnoat _ _ _ Hq) as (N1 & N2 & _). cbn. by rewrite Hg2.
  - intros y p H. cbn in H. destruct (decide (y = fi)) as [->|N1]; [congruence|]. destruct (decide (y = Prog t)) as [->|N2].
    { destruct Hfi as [[-> _]|[_ E]]; [done|congruence]. }
    rewrite Hg2 in H by done. by apply (w_wait _ _ _ HI) in H.
  - intros y p q Hp. destruct (Hold _ _ _ Hp) as [(-> & -> & ->)|(N1 & N2 & Hp')]; [done|]. destruct (Hnoat _ _ _ Hp') as (_ & _ & N3 & N4).
    eapply opinv_frame; [by apply (w_op _ _ _ HI)|done| |cbn; by apply upd_ne|done|].
    + constructor; [|done]. cbn. congruence.
    + intros t' Ht'. by apply Hj.
  - apply HI.
  - intros t' H. cbn in H. destruct (decide (Prog t' = fi)) as [E|N1]; [congruence|]. destruct (decide (Prog t' = Prog t)) as [E|N2].
    { destruct Hfi as [[-> _]|[_ F]]; congruence. }
    rewrite Hg2 in H by done. by apply (w_prog _ _ _ HI) in H.
  - intros id. cbn. destruct (decide (Help id = fi)) as [E|N1]; [rewrite E, Hg1; done|]. rewrite Hg2 by done. apply HI.
  - intros t' id f' H. cbn in H. destruct (decide (Prog t' = fi)) as [E|N1]; [congruence|]. destruct (decide (Prog t' = Prog t)) as [E|N2].
    { injection E as ->. destruct Hfi as [[-> _]|[-> F]]; [done|]. rewrite F in H. injection H as <- <-. exists o, PStart. done. }
    rewrite Hg2 in H by done. destruct (w_join _ _ _ HI _ _ _ H) as (p & q & H1 & H2). exists p, q. split; [by apply Hnew|done].
  - intros id t' f' Ho. destruct (Hoo _ _ _ Ho) as [(-> & -> & ->)|Ho'].
    + destruct Hfi as [[-> _]|[-> F]]; [left; by exists o, PStart|by right].
    + destruct (w_open _ _ _ HI _ _ _ Ho') as [(p & q & H1 & H2)|H1]; [left; exists p, q; split; [by apply Hnew|done]|right; by apply Hj].
  - intros id t1 id' t2 f' H1 H2. destruct (Hoo _ _ _ H1) as [(-> & -> & ->)|H1'], (Hoo _ _ _ H2) as [(-> & E1 & E2)|H2']; try done.
    + exfalso. apply Hb. by exists id', t2.
    + subst. exfalso. apply Hb. by exists id, t1.
    + by eapply (w_one _ _ _ HI).
  - rewrite Hca. cbn [s' set_fib begin nid]. split.
    + apply NoDup_app. split_and!; [apply HI| |apply NoDup_singleton]. intros id Hi Hi'. apply elem_of_list_singleton in Hi' as ->. apply Hlt in Hi. lia.
    + intros id Hi. apply elem_of_app in Hi as [Hi|Hi]; [apply Hlt in Hi; lia|]. apply elem_of_list_singleton in Hi as ->. lia.
  - rewrite Hca, Hre. split; [apply HI|]. intros id Hi. apply elem_of_app. left. by apply (w_rids _ _ _ HI).
  - intros id. rewrite Hxf, Hca. intros H. apply elem_of_app. left. by apply (w_xids _ _ _ HI).
  - intros i. cbn [s' set_fib begin cont hist]. rewrite contents_app. cbn. apply HI.
  - intros f'. cbn [s' set_fib begin fls hist]. rewrite owner_app. cbn. apply HI.
  - intros f' Hf. rewrite HJ. cbn [s' set_fib begin fls hist]. rewrite pos_app. cbn. by apply (w_pos _ _ _ HI).
  - intros h1 h2 id t' f' w l fu acc off' HH. cbn [s' set_fib begin hist] in HH. apply (snoc_split _ []) in HH as [(-> & -> & E)|(h2' & _ & HH)]; [|by eapply (w_callpos _ _ _ HI)].
    injection E as -> -> -> -> -> -> -> ->. split.
    + apply (w_pos _ _ _ HI f Hal). intros r Hr. destruct (job_op _ _ _ _ _ HI Hr) as (y & p & Hp & E & _). by apply Hnoat in Hp as (_ & _ & _ & Hp).
    + pose proof (w_own _ _ _ HI f) as H. rewrite Hal in H. destruct H as (t0 & -> & _). done.
  - intros h1 h2 id f' i off' res b a gg HH. cbn [s' set_fib begin hist] in HH. apply (snoc_split _ []) in HH as [(_ & _ & E)|(h2' & _ & HH)]; [done|]. by eapply (w_exec _ _ _ HI).
  - intros id t' f' r' rem bytes H. rewrite Hxf. cbn [s' set_fib begin hist] in *. apply elem_of_app in H as [H|H]; [|by apply elem_of_list_singleton in H].
    destruct (w_ret _ _ _ HI _ _ _ _ _ _ H) as (w & l & fu & acc & q & H1 & H2). exists w, l, fu, acc, q. split; [apply elem_of_app; by left|done].
Qed.

(** a call that could not make its helper fiber *)
Lemma WI_reject s t f wr len full : WI s -> f_al (fls s f) = true -> ~ busy f (hist s) ->
  WI (log (HRet (nid s) t f 0 (wlen wr len) []) (begin s t f wr len full false)).
Proof.
  intros HI Hal Hb. set (s' := log _ _).
  assert (Hlt : forall id, id ∈ called (hist s) -> (id < nid s)%nat) by apply HI.
  assert (Hh : hist s' = hist s ++ [HCall (nid s) t f wr (wlen wr len) full false (f_off (fls s f)); HRet (nid s) t f 0 (wlen wr len) []]).
  { cbn. by rewrite <- app_assoc. }
  assert (Hoo : forall id t' f', open_call id t' f' (hist s') <-> open_call id t' f' (hist s)).
  { intros id t' f'. unfold open_call. rewrite Hh, returned_app. cbn. split.
    - intros [(w & l & fu & q & H) H2]. apply not_elem_of_app in H2 as [H2 _]. split; [|done]. apply elem_of_app in H as [H|H]; [by eauto|].
      apply elem_of_cons in H as [H|H]; [done|]. by apply elem_of_list_singleton in H.
    - intros [(w & l & fu & q & H) H2]. split; [exists w, l, fu, q; apply elem_of_app; by left|]. apply not_elem_of_app. split; [done|].
      intros Hi. apply elem_of_list_singleton in Hi as ->. apply called_in, Hlt in H. lia. }
  assert (Hxf : forall id, xfers id (hist s') = xfers id (hist s)) by (intros id; rewrite Hh, xfers_app; apply app_nil_r).
  assert (Hca : called (hist s') = called (hist s) ++ [nid s]) by (by rewrite Hh, called_app).
  assert (Hnid : forall y p q, at_ s y p q -> o_id p <> nid s).
  { intros y p q Hp. pose proof (op_open _ _ _ _ _ (w_op _ _ _ HI _ _ _ Hp)) as [(w & l & fu & of_ & C) _]. apply called_in, Hlt in C. lia. }
  split; try apply HI.
  - intros y p q Hp. assert (Hp' : at_ s y p q) by (by destruct q). eapply opinv_frame; [by apply (w_op _ _ _ HI)|exact Hh| | |done|done].
    + pose proof (Hnid _ _ _ Hp'). constructor; [cbn; congruence|]. constructor; [cbn; congruence|done].
    + cbn. apply upd_ne. by eapply Hnid.
  - intros id t' f' Ho. apply Hoo in Ho. destruct (w_open _ _ _ HI _ _ _ Ho) as [(p & q & H1 & H2)|H1]; [left; exists p, q; split; [by destruct q|done]|by right].
  - intros id t1 id' t2 f' H1 H2. apply Hoo in H1, H2. by eapply (w_one _ _ _ HI).
  - rewrite Hca. cbn [s' log begin nid]. split.
    + apply NoDup_app. split_and!; [apply HI| |apply NoDup_singleton]. intros id Hi Hi'. apply elem_of_list_singleton in Hi' as ->. apply Hlt in Hi. lia.
    + intros id Hi. apply elem_of_app in Hi as [Hi|Hi]; [apply Hlt in Hi; lia|]. apply elem_of_list_singleton in Hi as ->. lia.
  - rewrite Hca, Hh, returned_app. cbn. destruct (w_rids _ _ _ HI) as [R1 R2]. split.
    + apply NoDup_app. split_and!; [done| |apply NoDup_singleton]. intros id Hi Hi'. apply elem_of_list_singleton in Hi' as ->. apply R2, Hlt in Hi. lia.
    + intros id Hi. apply elem_of_app in Hi as [Hi|Hi]; apply elem_of_app; [left; by apply R2|by right].
  - intros id. rewrite Hxf, Hca. intros H. apply elem_of_app. left. by apply (w_xids _ _ _ HI).
  - intros i. rewrite Hh, contents_app. cbn. apply HI.
  - intros f'. rewrite Hh, owner_app. cbn. apply HI.
  - intros f' Hf. rewrite Hh, pos_app. cbn. by apply (w_pos _ _ _ HI).
  - intros h1 h2 id t' f' w l fu acc off' HH. cbn [s' log begin hist] in HH. apply (snoc_split _ []) in HH as [(_ & _ & E)|(h2' & _ & HH)]; [done|].
    apply (snoc_split _ []) in HH as [(-> & -> & E)|(h3 & _ & HH)]; [|by eapply (w_callpos _ _ _ HI)]. injection E as -> -> -> -> -> -> -> ->. split.
    + apply (w_pos _ _ _ HI f Hal). intros r Hr. destruct (job_op _ _ _ _ _ HI Hr) as (y & p & Hp & E & HP). apply Hb.
      exists (o_id p), (o_t p). rewrite <- E. by eapply op_open.
    + pose proof (w_own _ _ _ HI f) as H. rewrite Hal in H. destruct H as (t0 & -> & _). done.
  - intros h1 h2 id f' i off' res b a gg HH. cbn [s' log begin hist] in HH. apply (snoc_split _ []) in HH as [(_ & _ & E)|(h2' & _ & HH)]; [done|].
    apply (snoc_split _ []) in HH as [(_ & _ & E)|(h3 & _ & HH)]; [done|]. by eapply (w_exec _ _ _ HI).
  - intros id t' f' r' rem bytes H. rewrite Hxf. rewrite Hh in *. apply elem_of_app in H as [H|H].
    + destruct (w_ret _ _ _ HI _ _ _ _ _ _ H) as (w & l & fu & acc & q & H1 & H2). exists w, l, fu, acc, q. split; [apply elem_of_app; by left|done].
    + apply elem_of_cons in H as [H|H]; [done|]. apply elem_of_list_singleton in H. injection H as -> -> -> -> -> ->.
      exists wr, (wlen wr len), full, false, (f_off (fls s f)). split; [apply elem_of_app; right; apply elem_of_cons; by left|]. split_and!; try done.
      destruct (xfers (nid s) (hist s)) eqn:E; [done|]. assert (Hn : nid s ∈ called (hist s)) by (apply (w_xids _ _ _ HI); by rewrite E). apply Hlt in Hn. lia.
Qed.

(** a handle that no call uses is opened, closed or positioned *)
Lemma WI_file s f x' e : WI s -> ~ busy f (hist s) -> (exists q, e = HSeek f q) \/ e = HClose f \/ (exists t i, e = HOpen t f i) ->
  (if f_al x' then exists t, own1 f (owner f (hist s)) e = Some (t, f_ino x') /\ f_sel x' = home t else own1 f (owner f (hist s)) e = None) ->
  (f_al x' = true -> f_off x' = pos1 f (pos f (hist s)) e) -> WI (log e (set_fls (upd (fls s) f x') s)).
Proof.
  intros HI Hb He Hown Hpos. set (s' := log e _).
  assert (Hnf : forall y p q, at_ s y p q -> o_f p <> f).
  { intros y p q Hp <-. apply Hb. exists (o_id p), (o_t p). eapply op_open. by apply (w_op _ _ _ HI). }
  assert (Hnj : forall x, (f, x) ∉ jobs s). { intros x Hx. destruct (job_op _ _ _ _ _ HI Hx) as (y & p & Hp & E & _). by apply Hnf in Hp. }
  assert (Hfor : forall id, foreign id e) by (by destruct He as [[q ->]|[->|(t & i & ->)]]).
  assert (Hoo : forall id t' f', open_call id t' f' (hist s') <-> open_call id t' f' (hist s)).
  { intros id t' f'. unfold open_call. cbn [s' log set_fls hist]. rewrite returned_app. assert (returned [e] = []) as -> by (by destruct He as [[q ->]|[->|(t & i & ->)]]). rewrite app_nil_r.
    split; intros [(w & l & fu & q & H) H2]; (split; [|done]); exists w, l, fu, q; [|apply elem_of_app; by left].
    apply elem_of_app in H as [H|H]; [done|]. apply elem_of_list_singleton in H. by destruct He as [[? ->]|[->|(? & ? & ->)]]. }
  assert (Hxf : forall id, xfers id (hist s') = xfers id (hist s)).
  { intros id. cbn [s' log set_fls hist]. rewrite xfers_app, (xfers_foreign id [e]), app_nil_r; [done|]. by constructor. }
  assert (Hca : called (hist s') = called (hist s)).
  { cbn [s' log set_fls hist]. rewrite called_app. assert (called [e] = []) as -> by (by destruct He as [[q ->]|[->|(t & i & ->)]]). apply app_nil_r. }
  assert (Hre : returned (hist s') = returned (hist s)).
  { cbn [s' log set_fls hist]. rewrite returned_app. assert (returned [e] = []) as -> by (by destruct He as [[q ->]|[->|(t & i & ->)]]). apply app_nil_r. }
  split; try apply HI.
  - intros y p q Hp. assert (Hp' : at_ s y p q) by (by destruct q). eapply opinv_frame; [by apply (w_op _ _ _ HI)|done|by constructor|done| |done].
    cbn. apply upd_ne. by eapply Hnf.
  - intros m Hm. cbn [s' log set_fls fls msgs] in *. rewrite upd_ne; [by apply (w_msg _ _ _ HI)|]. intros E. eapply (Hnj (Some (m_r m))).
    unfold jobs. rewrite !elem_of_app. right. right. apply elem_of_list_fmap. exists m. split; [by rewrite E|done].
  - intros id t' f' Ho. apply Hoo in Ho. destruct (w_open _ _ _ HI _ _ _ Ho) as [(p & q & H1 & H2)|H1]; [left; exists p, q; split; [by destruct q|done]|by right].
  - intros id t1 id' t2 f' H1 H2. apply Hoo in H1, H2. by eapply (w_one _ _ _ HI).
  - rewrite Hca. apply HI.
  - rewrite Hca, Hre. apply HI.
  - intros id. rewrite Hxf, Hca. apply HI.
  - intros i. cbn [s' log set_fls cont hist]. rewrite contents_app, (w_cont _ _ _ HI). by destruct He as [[q ->]|[->|(t & j & ->)]].
  - intros f'. cbn [s' log set_fls fls hist]. rewrite owner_app. cbn [fold_left]. destruct (decide (f' = f)) as [->|N]; [by rewrite upd_eq|].
    rewrite upd_ne by done. assert (own1 f' (owner f' (hist s)) e = owner f' (hist s)) as ->; [|apply HI].
    destruct He as [[q ->]|[->|(t & j & ->)]]; cbn; rewrite ?decide_False by congruence; done.
  - intros f' Hf. assert (HJ : jobs s' = jobs s) by done. rewrite HJ. cbn [s' log set_fls fls hist] in *. rewrite pos_app. cbn [fold_left].
    destruct (decide (f' = f)) as [->|N].
    + rewrite upd_eq in *. split; [intros r Hr; by apply Hnj in Hr|]. intros _. by apply Hpos.
    + rewrite upd_ne in * by done. assert (pos1 f' (pos f' (hist s)) e = pos f' (hist s)) as ->; [|by apply (w_pos _ _ _ HI)].
      destruct He as [[q ->]|[->|(t & j & ->)]]; cbn; rewrite ?decide_False by congruence; done.
  - intros h1 h2 id t' f' w l fu acc off' HH. cbn [s' log set_fls hist] in HH. apply (snoc_split _ []) in HH as [(_ & _ & E)|(h2' & _ & HH)]; [by destruct He as [[? ->]|[->|(? & ? & ->)]]|]. by eapply (w_callpos _ _ _ HI).
  - intros h1 h2 id f' i off' res b a gg HH. cbn [s' log set_fls hist] in HH. apply (snoc_split _ []) in HH as [(_ & _ & E)|(h2' & _ & HH)]; [by destruct He as [[? ->]|[->|(? & ? & ->)]]|]. by eapply (w_exec _ _ _ HI).
  - intros id t' f' r' rem bytes H. rewrite Hxf. cbn [s' log set_fls hist] in *. apply elem_of_app in H as [H|H].
    + destruct (w_ret _ _ _ HI _ _ _ _ _ _ H) as (w & l & fu & acc & q & H1 & H2). exists w, l, fu, acc, q. split; [apply elem_of_app; by left|done].
    + apply elem_of_list_singleton in H. by destruct He as [[? ->]|[->|(? & ? & ->)]].
Qed.
End I.
