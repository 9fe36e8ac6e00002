(** rb_augment_path and rb_augment_insert (RbAugModel) repair all summaries. *)
From Verif Require Import RbModel RbZip RbRot RbInsert RbErase RbRemove RbSpec RbHist RbNav RbAugModel RbAugIns.

Section rb_path.
Context {K V : Type} (F : K -> option V -> option V -> V).
Implicit Types (s : rbs K) (t : tree K) (C : ctx K) (g : positive -> V).

Lemma osum_ext g g' t : (forall q, q ∈ ids t -> g' q = g q) -> osum g' (rp t) = osum g (rp t).
Proof. intros H. destruct t; [done|]. cbn. f_equal. apply H. cbn. apply elem_of_cons. by left. Qed.
Lemma allc_ext g g' t : (forall q, q ∈ ids t -> g' q = g q) -> allc F g t -> allc F g' t.
Proof.
  induction t as [|c p k l IHl r IHr]; intros H; cbn; [done|]. intros (H1 & H2 & H3).
  assert (Hl : forall q, q ∈ ids l -> g' q = g q) by (intros; apply H; cbn; set_solver).
  assert (Hr : forall q, q ∈ ids r -> g' q = g q) by (intros; apply H; cbn; set_solver).
  split_and!; [|by apply IHl|by apply IHr].
  rewrite (osum_ext g g' l Hl), (osum_ext g g' r Hr), (H p); [done|cbn; set_solver].
Qed.
Lemma inner_ext g g' t : (forall q, q ∈ ids t -> g' q = g q) -> inner F g t -> inner F g' t.
Proof.
  destruct t as [|c p k l r]; [done|]. intros H [H1 H2]. split; (eapply allc_ext; [|done]); intros; apply H; cbn; set_solver.
Qed.
Definition isibs g C : Prop := Forall (fun f => inner F g (fsib f)) C.
Lemma isibs_ext g g' C : (forall q, q ∈ idsc C -> g' q = g q) -> isibs g C -> isibs g' C.
Proof.
  unfold isibs. induction C as [|f C IH]; intros H; [constructor|]. intros [H1 H2]%Forall_cons. cbn in H.
  constructor; [eapply inner_ext; [|exact H1]|apply IH; [|exact H2]]; intros; apply H; set_solver.
Qed.

Lemma func_ok s C c p k l r g :
  rep s (plug C (Node c p k l r)) -> inner F g (Node c p k l r) ->
  exists g', func F s g p = Some g' /\ allc F g' (Node c p k l r) /\ forall q, q <> p -> g' q = g q.
Proof.
  intros H [Hl Hr]. unfold func. rewrite (rep_rd _ _ _ _ _ _ _ H). cbn.
  apply rep_plug in H as (_ & _ & ND). cbn in ND. apply NoDup_cons in ND as [ND _].
  set (v := F _ _ _). exists (setg g p v).
  assert (Hq : forall q, q <> p -> setg g p v q = g q) by (intros; unfold setg; by rewrite decide_False).
  split; [done|]. split; [|done].
  assert (El : forall q, q ∈ ids l -> setg g p v q = g q) by (intros; apply Hq; set_solver).
  assert (Er : forall q, q ∈ ids r -> setg g p v q = g q) by (intros; apply Hq; set_solver).
  cbn. split_and!; [|by eapply allc_ext|by eapply allc_ext].
  rewrite (osum_ext _ _ _ El), (osum_ext _ _ _ Er). unfold setg. by rewrite decide_True.
Qed.

Lemma path_ok fuel s C c p k l r g :
  rep s (plug C (Node c p k l r)) -> inner F g (Node c p k l r) -> isibs g C -> length C < fuel ->
  exists g', augment_path F fuel s g p = Some g' /\ allc F g' (plug C (Node c p k l r)).
Proof.
  revert C c p k l r g. induction fuel as [|fuel IH]; intros C c p k l r g H Hi HC Hf; [lia|].
  destruct (func_ok s C c p k l r g H Hi) as (g1 & E1 & A1 & O1).
  cbn [augment_path]. rewrite E1. cbn -[rd func augment_path]. rewrite (rep_rd _ _ _ _ _ _ _ H). cbn -[rd func augment_path].
  destruct C as [|f C]; [cbn -[allc]; eauto|].
  cbn [pc]. rewrite (rd_parent _ _ _ _ H). cbn -[rd func augment_path fnode].
  assert (ND : NoDup (ids (Node c p k l r) ++ fp f :: ids (fsib f) ++ idsc C)) by (by apply rep_plug in H as (_ & _ & ND)).
  rewrite NoDup_app, NoDup_cons, NoDup_app in ND. destruct ND as (_ & D1 & D2 & _ & D3 & _).
  assert (Hp : p ∈ ids (Node c p k l r)) by (cbn; set_solver).
  apply Forall_cons in HC as [HC1 HC2].
  assert (Is : inner F g1 (fsib f)).
  { eapply inner_ext; [|exact HC1]. intros q Hq. apply O1. intros ->. apply (D1 p Hp). set_solver. }
  assert (IC : isibs g1 C).
  { eapply isibs_ext; [|exact HC2]. intros q Hq. apply O1. intros ->. apply (D1 p Hp). set_solver. }
  assert (S2 : forall cs ps ks ls rs, fsib f = Node cs ps ks ls rs ->
    exists g2, func F s g1 ps = Some g2 /\ allc F g2 (Node c p k l r) /\ allc F g2 (fsib f) /\ isibs g2 C).
  { intros cs ps ks ls rs Ef. rewrite Ef in Is.
    assert (Hs : exists C', rep s (plug C' (Node cs ps ks ls rs))).
    { destruct f as [c' p' k' sib|c' p' k' sib]; cbn in Ef; subst sib.
      - exists (FR c' p' k' (Node c p k l r) :: C). exact H.
      - exists (FL c' p' k' (Node c p k l r) :: C). exact H. }
    destruct Hs as [C' Hs]. destruct (func_ok s C' cs ps ks ls rs g1 Hs Is) as (g2 & E2 & A2 & O2).
    assert (Hps : ps ∈ ids (fsib f)) by (rewrite Ef; cbn; set_solver).
    exists g2. split_and!; [done| |by rewrite Ef|].
    - eapply allc_ext; [|exact A1]. intros q Hq. apply O2. intros ->. apply (D1 ps Hq). set_solver.
    - eapply isibs_ext; [|exact IC]. intros q Hq. apply O2. intros ->. exact (D3 ps Hps Hq). }
  assert (GO : forall g2, allc F g2 (Node c p k l r) -> allc F g2 (fsib f) -> isibs g2 C ->
     exists g', augment_path F fuel s g2 (fp f) = Some g' /\ allc F g' (plug (f :: C) (Node c p k l r))).
  { intros g2 A2 B2 C2. cbn in Hf. destruct f as [c' p' k' sib|c' p' k' sib]; cbn [plug fill fp fsib] in *.
    - apply IH; [exact H|split; done|done|lia].
    - apply IH; [exact H|split; done|done|lia]. }
  destruct f as [c' p' k' sib|c' p' k' sib]; cbn -[rd func augment_path allc plug isibs] in *.
  - destruct sib as [|cs ps ks ls rs]; cbn [rp].
    + destruct (func_ok s _ c p k l r g1 H (proj2 A1)) as (g2 & E2 & A2 & O2).
      rewrite E2. cbn -[rd func augment_path allc plug isibs]. apply GO; [done|done|].
      eapply isibs_ext; [|exact IC]. intros q Hq. apply O2. intros ->. apply (D1 p Hp). set_solver.
    + rewrite decide_True by done. destruct (S2 _ _ _ _ _ eq_refl) as (g2 & E2 & A2 & B2 & C2).
      rewrite E2. cbn -[rd func augment_path allc plug isibs]. by apply GO.
  - destruct sib as [|cs ps ks ls rs]; cbn [rp].
    + cbn -[rd func augment_path allc plug isibs]. by apply GO.
    + rewrite decide_False; [|intros ->; apply (D1 p Hp); cbn; set_solver].
      destruct (S2 _ _ _ _ _ eq_refl) as (g2 & E2 & A2 & B2 & C2).
      rewrite E2. cbn -[rd func augment_path allc plug isibs]. by apply GO.
Qed.

Lemma offp_split g n0 t : offp F g n0 t ->
  exists C c k l r, t = plug C (Node c n0 k l r) /\ inner F g l /\ inner F g r /\ isibs g C.
Proof.
  induction 1 as [c k l r Hl Hr|c p k l r _ (C & c' & k' & l' & r' & -> & A & B & D) Hr|c p k l r Hl _ (C & c' & k' & l' & r' & -> & A & B & D)].
  - exists [], c, k, l, r. split_and!; try done. constructor.
  - exists (C ++ [FL c p k r]), c', k', l', r'. rewrite plug_app. split_and!; try done. apply Forall_app. split; [done|]. by repeat constructor.
  - exists (C ++ [FR c p k l]), c', k', l', r'. rewrite plug_app. split_and!; try done. apply Forall_app. split; [done|]. by repeat constructor.
Qed.

Lemma augment_insert_ok fuel s g n0 t :
  rep s t -> offp F g n0 t -> length (inorder t) <= fuel ->
  exists g', augment_insert F fuel s g n0 = Some g' /\ allc F g' t.
Proof.
  intros H (C & c & k & l & r & -> & Hl & Hr & HC)%offp_split Hf.
  unfold augment_insert. rewrite (rep_rd _ _ _ _ _ _ _ H). cbn -[augment_path allc].
  destruct l as [|cl pl kl ll rl]; [destruct r as [|cr pr kr lr rr]|]; cbn -[augment_path allc].
  - apply path_ok; [exact H|done|done|]. pose proof (size_plug C (Node c n0 k Leaf Leaf)) as Hs. cbn in Hs. lia.
  - apply (path_ok fuel s (FR c n0 k Leaf :: C) cr pr kr lr rr); [exact H|done|by constructor|].
    pose proof (size_plug (FR c n0 k Leaf :: C) (Node cr pr kr lr rr)) as Hs. cbn [inorder length plug fill] in Hs, Hf |- *.
    rewrite app_length in Hs. cbn in Hs, Hf. lia.
  - apply (path_ok fuel s (FL c n0 k r :: C) cl pl kl ll rl); [exact H|done|by constructor|].
    pose proof (size_plug (FL c n0 k r :: C) (Node cl pl kl ll rl)) as Hs. cbn [inorder length plug fill] in Hs, Hf |- *.
    rewrite app_length in Hs. cbn in Hs, Hf. lia.
Qed.

Lemma allc_plug g C t : allc F g (plug C t) -> allc F g t /\ sibs F g C.
Proof.
  revert t. induction C as [|f C IH]; intros t H; cbn in *; [done|]. apply IH in H as [H HC].
  destruct f; cbn in H; destruct H as (_ & H1 & H2); done.
Qed.
End rb_path.
