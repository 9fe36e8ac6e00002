(** Proofs for C72: the effects of the steps. *)
From Verif Require Import WfModel WfSpec WfProof.
Local Open Scope Z_scope.

Section I.
Context (home : nat -> nat) (maxw : nat) (c0 : nat -> list Z).
Notation WI := (WI home c0).
Notation opinv := (opinv home).

Lemma at_same s s' fi o ph : at_ s' fi o ph -> fib s' fi = fib s fi -> (forall x, (o_f o, x) ∈ jobs s' -> (o_f o, x) ∈ jobs s) -> at_ s fi o ph.
Proof. intros H E J. destruct ph; cbn in *; rewrite E in H; try done. destruct H. auto. Qed.
Lemma join_neq s fi o ph t id f : at_ s fi o ph -> fib s (Prog t) = FJoin id f -> Prog t <> fi.
Proof. intros H1 H2 <-. destruct ph; cbn in H1; [|destruct H1 as [H1 _]| |]; congruence. Qed.

(** a call goes from one phase to another *)
Lemma WI_change s s' fi o ph o' ph' k : WI s -> at_ s fi o ph -> o_id o' = o_id o -> o_t o' = o_t o -> o_f o' = o_f o ->
  (forall y, y <> fi -> fib s' y = fib s y) -> at_ s' fi o' ph' -> opinv s' fi o' ph' ->
  (forall g, g <> o_f o -> fls s' g = fls s g) -> (forall i, i <> o_id o -> bufs s' i = bufs s i) ->
  f_al (fls s' (o_f o)) = true -> f_sel (fls s' (o_f o)) = f_sel (fls s (o_f o)) -> f_ino (fls s' (o_f o)) = f_ino (fls s (o_f o)) ->
  (forall m, m ∈ msgs s' -> m_data m = f_data (fls s' (m_f m)) /\ m_sel m = f_sel (fls s' (m_f m))) ->
  nid s' = nid s -> hist s' = hist s ++ k ->
  (k = [] \/ exists off res b a g, k = [HExec (o_id o) (o_f o) (f_ino (fls s (o_f o))) off res b a g] /\
     b = contents (c0 (f_ino (fls s (o_f o)))) (f_ino (fls s (o_f o))) (hist s) /\ off = pos (o_f o) (hist s)) ->
  (forall i, cont s' i = contents (c0 i) i (hist s')) ->
  (forall g x, g <> o_f o -> (g, x) ∈ jobs s' <-> (g, x) ∈ jobs s) -> NoDup (fst <$> jobs s') ->
  (forall x, (o_f o, x) ∈ jobs s' -> exists y, ph' = PWait y) ->
  ((forall r, (o_f o, Some r) ∈ jobs s' -> f_off (fls s' (o_f o)) + Z.max 0 r = pos (o_f o) (hist s')) /\
      ((forall r, (o_f o, Some r) ∉ jobs s') -> f_off (fls s' (o_f o)) = pos (o_f o) (hist s'))) -> WI s'.
Proof.
  intros HI Ha E1 E2 E3 Hfib Ha' Hop Hfls Hbuf Hal Hsel Hino Hmsg Hnid Hh Hk Hcont Hjobs Hnd Hjf Hpos.
  assert (Hoo : forall id t f, open_call id t f (hist s') <-> open_call id t f (hist s)).
  { intros id t f. unfold open_call. rewrite Hh, returned_app. destruct Hk as [->|(off & res & b & a & g & -> & _)]; cbn; rewrite ?app_nil_r; [done|].
    split; intros [(wr & len & full & q & H) H2]; (split; [|done]); exists wr, len, full, q;
      [apply elem_of_app in H as [H|H]; [done|by apply elem_of_list_singleton in H]|apply elem_of_app; by left]. }
  assert (Hold : forall y p q, y <> fi -> at_ s' y p q -> at_ s y p q /\ o_f p <> o_f o /\ o_id p <> o_id o).
  { intros y p q Hy Hat. assert (Ha1 : exists q', at_ s y p q').
    { destruct q as [|x|r|r]; cbn in Hat; rewrite (Hfib y Hy) in Hat; [by exists PStart| |by exists (PReady r)|by exists (PExit r)].
      destruct Hat as [Hat _]. destruct (w_wait _ _ _ HI _ _ Hat) as [x' Hx]. by exists (PWait x'). }
    destruct Ha1 as [q' Hq]. destruct (at_neq _ _ _ _ _ _ _ _ _ HI Ha Hq Hy) as [N1 N2]. split; [|done].
    eapply at_same; [done|by apply Hfib|]. intros x Hx. by apply Hjobs. }
  assert (Hnew : forall y p q, y <> fi -> at_ s y p q -> at_ s' y p q).
  { intros y p q Hy Hat. destruct (at_neq _ _ _ _ _ _ _ _ _ HI Ha Hat Hy) as [N1 N2]. eapply at_same; [done|by rewrite Hfib|].
    intros x Hx. by apply Hjobs. }
  assert (Hxf : forall id, id <> o_id o -> xfers id (hist s') = xfers id (hist s)).
  { intros id Hn. rewrite Hh. destruct Hk as [->|(off & res & b & a & g & -> & _)]; [by rewrite app_nil_r|]. rewrite xfers_app.
    rewrite (xfers_foreign id [_]); [by rewrite app_nil_r|]. constructor; [|done]. cbn. congruence. }
  assert (Hcall : called (hist s') = called (hist s)).
  { rewrite Hh. destruct Hk as [->|(off & res & b & a & g & -> & _)]; [by rewrite app_nil_r|]. rewrite called_app. apply app_nil_r. }
  assert (Hret : returned (hist s') = returned (hist s)).
  { rewrite Hh. destruct Hk as [->|(off & res & b & a & g & -> & _)]; [by rewrite app_nil_r|]. rewrite returned_app. apply app_nil_r. }
  assert (Hown : forall f, owner f (hist s') = owner f (hist s)).
  { intros f. rewrite Hh, owner_app. by destruct Hk as [->|(off & res & b & a & g & -> & _)]. }
  assert (Hpo : forall f, f <> o_f o -> pos f (hist s') = pos f (hist s)).
  { intros f Hf. rewrite Hh, pos_app. destruct Hk as [->|(off & res & b & a & g & -> & _)]; [done|]. cbn. by rewrite decide_False. }
  pose proof (w_op _ _ _ HI _ _ _ Ha) as HP.
  split.
  - done.
  - intros f x Hx. destruct (decide (f = o_f o)) as [->|Hn].
    + destruct (Hjf _ Hx) as [y ->]. destruct Ha' as [Ha' _]. eauto.
    + apply Hjobs in Hx; [|done]. destruct (w_job _ _ _ HI _ _ Hx) as (y & p & H1 & H2). exists y, p. split; [|done]. rewrite Hfib; [done|].
      intros ->. destruct ph; cbn in Ha; [|destruct Ha as [Ha _]| |]; congruence.
  - intros y p Hy. destruct (decide (y = fi)) as [->|Hn].
    + destruct ph'; cbn in Ha'; [|destruct Ha' as [Ha' Hx]| |]; rewrite Hy in Ha'; try done. injection Ha' as ->. eauto.
    + rewrite Hfib in Hy by done. destruct (w_wait _ _ _ HI _ _ Hy) as [x Hx]. exists x. apply Hjobs; [|done].
      assert (Hat : at_ s y p (PWait x)) by done. by destruct (at_neq _ _ _ _ _ _ _ _ _ HI Ha Hat Hn).
  - intros y p q Hat. destruct (decide (y = fi)) as [->|Hn].
    + destruct ph', q; cbn in Ha', Hat; repeat match goal with H : _ /\ _ |- _ => destruct H end;
        match goal with H : fib s' fi = _, H' : fib s' fi = _ |- _ => rewrite H in H'; try discriminate H'; injection H' as <- end; subst; try done.
      enough (x0 = x) as -> by done.
      match goal with HA : (_, x) ∈ _, HB : (_, x0) ∈ _ |- _ => apply elem_of_list_lookup in HA as [i Hi]; apply elem_of_list_lookup in HB as [j Hj] end.
      assert (i = j). { eapply NoDup_lookup; [done| |]; rewrite list_lookup_fmap; [rewrite Hi|rewrite Hj]; done. } subst j. congruence.
    + destruct (Hold _ _ _ Hn Hat) as (Hat' & N1 & N2). pose proof (w_op _ _ _ HI _ _ _ Hat') as HP'.
      eapply opinv_frame; [done|done| |by apply Hbuf|by apply Hfls|].
      * destruct Hk as [->|(off & res & b & a & g & -> & _)]; [done|]. constructor; [|done]. cbn. congruence.
      * intros t Ht. rewrite Hfib; [done|]. exact (join_neq _ _ _ _ _ _ _ Ha Ht).
  - done.
  - intros t. destruct (decide (Prog t = fi)) as [<-|Hn]; [|rewrite Hfib by done; apply HI].
    destruct ph'; cbn in Ha'; [|destruct Ha' as [Ha' _]| |]; congruence.
  - intros id. destruct (decide (Help id = fi)) as [<-|Hn]; [|rewrite Hfib by done; apply HI].
    destruct ph'; cbn in Ha'; [|destruct Ha' as [Ha' _]| |]; split; congruence.
  - intros t id f Ht. assert (Hn : Prog t <> fi) by (intros <-; destruct ph'; cbn in Ha'; [|destruct Ha' as [Ha' _]| |]; congruence).
    rewrite Hfib in Ht by done. destruct (w_join _ _ _ HI _ _ _ Ht) as (p & q & H1 & H2 & H3 & H4).
    destruct (decide (Help id = fi)) as [<-|Hn'].
    + destruct (at_fun _ _ _ _ _ _ _ _ HI Ha H1) as [-> ->]. exists o', ph'. split; [done|]. split_and!; congruence.
    + exists p, q. split; [by apply Hnew|done].
  - intros id t f Ho. apply Hoo in Ho. destruct (w_open _ _ _ HI _ _ _ Ho) as [(p & q & H1 & H2)|H1].
    + left. destruct (decide (Prog t = fi)) as [<-|Hn].
      * destruct (at_fun _ _ _ _ _ _ _ _ HI Ha H1) as [-> ->]. exists o', ph'. split; [done|]. congruence.
      * exists p, q. split; [by apply Hnew|done].
    + right. rewrite Hfib; [done|]. exact (join_neq _ _ _ _ _ _ _ Ha H1).
  - intros id t id' t' f H1 H2. apply Hoo in H1, H2. by eapply (w_one _ _ _ HI).
  - rewrite Hcall, Hnid. apply HI.
  - rewrite Hcall, Hret. apply HI.
  - intros id H. rewrite Hcall. destruct (decide (id = o_id o)) as [->|Hn].
    + destruct (p_call _ _ _ _ _ HP) as (wr & off & H' & _). by eapply called_in.
    + rewrite Hxf in H by done. by apply (w_xids _ _ _ HI).
  - done.
  - intros f. rewrite Hown. destruct (decide (f = o_f o)) as [->|Hn]; [|rewrite Hfls by done; apply HI].
    rewrite Hal, Hsel, Hino. pose proof (w_own _ _ _ HI (o_f o)) as H. by rewrite (p_al _ _ _ _ _ HP) in H.
  - intros f Hf. destruct (decide (f = o_f o)) as [->|Hn]; [done|]. rewrite Hpo, Hfls by done. rewrite Hfls in Hf by done.
    destruct (w_pos _ _ _ HI f Hf) as [H1 H2]. split; [intros r Hr; apply H1; by apply Hjobs|]. intros H. apply H2. intros r Hr. eapply H, Hjobs; done.
  - intros h1 h2 id t f wr len full acc off HH. rewrite Hh in HH. destruct Hk as [->|(off' & res & b & a & g & -> & _)]; [rewrite app_nil_r in HH; by eapply (w_callpos _ _ _ HI)|].
    destruct h2 as [|z h2 _] using rev_ind; [by apply app_inj_tail in HH as [_ HH]|]. rewrite app_comm_cons, app_assoc in HH. apply app_inj_tail in HH as [HH _].
    by eapply (w_callpos _ _ _ HI).
  - intros h1 h2 id f i off res b a g HH. rewrite Hh in HH.
    destruct Hk as [->|(off' & res' & b' & a' & g' & -> & Hb & Hp)]; [rewrite app_nil_r in HH; by eapply (w_exec _ _ _ HI)|].
    destruct h2 as [|z h2 _] using rev_ind.
    + apply app_inj_tail in HH as [<- [= <- <- <- <- <- <- <- <-]]. split_and!; [done|done| |].
      * pose proof (w_own _ _ _ HI (o_f o)) as H. rewrite (p_al _ _ _ _ _ HP) in H. destruct H as (t & H & _). eauto.
      * eexists. by eapply op_open.
    + rewrite app_comm_cons, app_assoc in HH. apply app_inj_tail in HH as [HH _]. by eapply (w_exec _ _ _ HI).
  - intros id t f r rem bytes H. assert (H' : HRet id t f r rem bytes ∈ hist s).
    { rewrite Hh in H. destruct Hk as [->|(off' & res & b & a & g & -> & _)]; [by rewrite app_nil_r in H|]. apply elem_of_app in H as [H|H]; [done|by apply elem_of_list_singleton in H]. }
    destruct (w_ret _ _ _ HI _ _ _ _ _ _ H') as (wr & len & full & acc & off & H1 & H2). exists wr, len, full, acc, off. split; [rewrite Hh; apply elem_of_app; by left|].
    rewrite Hxf; [done|]. intros ->. apply returned_in in H'. by apply (p_ret _ _ _ _ _ HP).
Qed.
End I.
