(** Invariants of the timer model. *)
From Verif Require Import RbModel RbZip RbRot RbInsert RbErase RbRemove RbSpec RbHist RbNav TimerModel TimerSpec.
From Coq Require Import Sorting.Sorted.
Local Open Scope Z_scope.

Definition key (ch : list brq) : Z := match ch with [] => 0 | q :: _ => active_msec q end.
Definition kcmp (a b : list brq) : Z := key a - key b.
Lemma kcmp_total : total_order kcmp.
Proof. unfold kcmp. split; intros; lia. Qed.

Notation nodes := (list (positive * list brq)).
Implicit Types (s : rbs (list brq)) (l : nodes) (t : tsel).
Definition nonempty l : Prop := Forall (fun e => e.2 <> []) l.
Notation ksorted := (strictly_sorted kcmp).

Lemma inv_size s l : inv s l -> size (heap s) = length l.
Proof.
  intros (t & H & <- & _ & Hout).
  rewrite <- (fmap_length fst), <- ids_inorder.
  assert (ND : NoDup (ids t)) by apply H.
  assert (Hd : dom (heap s) =@{gset positive} list_to_set (ids t)).
  { apply set_eq. intros q. rewrite elem_of_list_to_set, elem_of_dom. split.
    - intros [x Hx]. destruct (decide (q ∈ ids t)); [done|]. by rewrite Hout in Hx.
    - intros Hq. destruct (focus t q Hq) as (C & c & k & tl & tr & ->).
      eexists. exact (rep_rd _ _ _ _ _ _ _ H). }
  rewrite <- (size_dom (D := gset positive)). rewrite Hd. by rewrite size_list_to_set.
Qed.
Lemma inv_fuel s l : inv s l -> fuel_of s = (3 + length l)%nat.
Proof. intros H. unfold fuel_of. by rewrite (inv_size _ _ H). Qed.
Lemma inv_dom s l n : inv s l -> n ∈ l.*1 <-> n ∈ dom (heap s).
Proof.
  intros (t & H & <- & _ & Hout). rewrite <- ids_inorder, elem_of_dom. split.
  - intros Hq. destruct (focus t n Hq) as (C & c & k & tl & tr & ->). eexists. exact (rep_rd _ _ _ _ _ _ _ H).
  - intros [x Hx]. destruct (decide (n ∈ ids t)); [done|]. by rewrite Hout in Hx.
Qed.

Lemma inv_set_dat s l1 n d l2 d' :
  inv s (l1 ++ (n, d) :: l2) -> exists s', upd s n (w_dat d') = Some s' /\ inv s' (l1 ++ (n, d') :: l2).
Proof.
  intros Hi. pose proof (inv_NoDup _ _ Hi) as ND. destruct Hi as (t & H & E & (N & HN) & Hout).
  assert (Hn : n ∈ ids t). { rewrite ids_inorder, E, fmap_app. cbn. set_solver. }
  destruct (focus t n Hn) as (C & c & k & tl & tr & ->).
  destruct (rep_set_dat s C c n k tl tr d' H) as (s3 & E3 & H3 & _ & So3).
  exists s3. split; [done|]. exists (plug C (Node c n d' tl tr)). rewrite inorder_plug in E. cbn in E.
  rewrite <- app_assoc in E. cbn in E. rewrite app_assoc in E.
  symmetry in E. rewrite E in ND.
  assert (E' := E). symmetry in E'. destruct (focus_unique _ _ _ _ _ _ _ ND E') as (El & Ed & Er).
  split_and!; [done| | |].
  - rewrite inorder_plug. cbn. by rewrite <- El, <- Er, <- !app_assoc.
  - destruct (rbt_plug_ctx _ _ _ HN) as (c0 & n0 & Hrb0 & HRC0).
    eapply rbt_plug; [|exact HRC0]. inversion Hrb0; simplify_eq; econstructor; eauto.
  - intros q Hq. rewrite ids_plug in Hq. rewrite So3, Hout; [done| |]; by rewrite ids_plug.
Qed.

(** the descent is the one of the generic insertion, plus the flag *)
Notation sorted := (strictly_sorted kcmp).
Definition good (tr : tree (list brq)) := nonempty (inorder tr).
Lemma descent_ok fuel s q C tt :
  rep s (plug C tt) -> good tt -> (height tt <= fuel)%nat ->
  (exists n, insert_descent fuel s q (rp tt) (locof C) (pc C) (bool_decide (lo C = [])) = Some (inl n, false)
     /\ tfind kcmp [q] tt = Some n) \/
  (tfind kcmp [q] tt = None /\ exists C',
     insert_descent fuel s q (rp tt) (locof C) (pc C) (bool_decide (lo C = []))
       = Some (inr (locof C', pc C'), bool_decide (lo C' = []))
      /\ plug C' Leaf = plug C tt /\
      (sorted (inorder tt) -> exists l1 l2, lo C' = lo C ++ l1 /\ hi C' = l2 ++ hi C /\
         Forall (fun e => 0 < kcmp [q] e.2) l1 /\ Forall (fun e => kcmp [q] e.2 < 0) l2)).
Proof.
  revert C fuel; induction tt as [|c p d l IHl r IHr]; intros C fuel H Hg Hf.
  - right. split; [done|]. exists C. split; [by destruct fuel|]. split; [done|]. intros _. exists [], [].
    rewrite app_nil_r. by repeat constructor.
  - destruct fuel as [|fuel]; [cbn in Hf; lia|]. cbn in Hf.
    unfold good, nonempty in Hg. cbn in Hg. apply Forall_app in Hg as [Hg1 Hg2]. apply Forall_cons in Hg2 as [Hd Hg2].
    destruct d as [|tmp ch]; [done|].
    cbn [rp]. cbn -[rd]. rewrite (rep_rd _ _ _ _ _ _ _ H). cbn -[rd].
    change (kcmp [q] (tmp :: ch)) with (active_msec q - active_msec tmp).
    destruct (Z.ltb_spec (active_msec q - active_msec tmp) 0) as [Hlt|Hge].
    + destruct (IHl (FL c p (tmp :: ch) r :: C) fuel H Hg1 ltac:(lia)) as [(n & E & Hn)|(Hn & C' & E & HP & Hs)].
      * left. exists n. split; [exact E|done].
      * right. split; [done|]. exists C'. split; [exact E|]. split; [exact HP|].
        intros Hso. rewrite sorted_app, sorted_cons in Hso. destruct Hso as (Hl & (Hr & Hpr) & Hlr).
        destruct (Hs Hl) as (l1 & l2 & E1 & E2 & F1 & F2). exists l1, (l2 ++ (p, (tmp :: ch)) :: inorder r).
        cbn in E1, E2. split_and!; [done| |done|].
        -- rewrite E2, <- app_assoc. done.
        -- apply Forall_app. split; [done|]. constructor; [done|]. apply Forall_forall. intros e He.
           specialize (Hpr e He). unfold kcmp in *. cbn in Hpr |- *. lia.
    + destruct (Z.ltb_spec 0 (active_msec q - active_msec tmp)) as [Hgt|Hle].
      * assert (bool_decide (lo (FR c p (tmp :: ch) l :: C) = []) = false) as Hb.
        { apply bool_decide_eq_false_2. cbn. intros E. by repeat apply app_eq_nil in E as [_ E]. }
        destruct (IHr (FR c p (tmp :: ch) l :: C) fuel H Hg2 ltac:(lia)) as [(n & E & Hn)|(Hn & C' & E & HP & Hs)].
        -- left. exists n. rewrite Hb in E. split; [exact E|done].
        -- right. split; [done|]. exists C'. rewrite Hb in E. split; [exact E|]. split; [exact HP|].
           intros Hso. rewrite sorted_app, sorted_cons in Hso. destruct Hso as (Hl & (Hr & Hpr) & Hlr).
           destruct (Hs Hr) as (l1 & l2 & E1 & E2 & F1 & F2). exists (inorder l ++ (p, (tmp :: ch)) :: l1), l2.
           cbn in E1, E2. split_and!; [|done| |done].
           ++ rewrite E1, <- !app_assoc. done.
           ++ apply Forall_app. split; [|by constructor]. apply Forall_forall. intros e He.
              specialize (Hlr e (p, (tmp :: ch)) He ltac:(set_solver)). cbn in Hlr.
              unfold kcmp in *. cbn in Hlr |- *. lia.
      * left. exists p. split; [done|done].
Qed.

(** ** the invariant and its abstraction *)
Definition flat1 (e : positive * list brq) : list (Z * nat) := (fun q => (key e.2, bid q)) <$> e.2.
(** (deadline, id) of every pending timer; the deadline is that of the node *)
Definition flat l : list (Z * nat) := l ≫= flat1.
Definition tinv t l : Prop :=
  inv (block t) l /\ sorted l /\ nonempty l /\ block_first t = fst <$> head l.

Lemma tinv_new now : tinv (tsel_new now) [].
Proof. split_and!; [apply inv_empty|constructor|constructor|done]. Qed.

Lemma flat_app l1 l2 : flat (l1 ++ l2) = flat l1 ++ flat l2.
Proof. unfold flat. by rewrite bind_app. Qed.
Lemma flat_cons e l : flat (e :: l) = flat1 e ++ flat l.
Proof. done. Qed.

(** where an insertion goes *)
Definition place (q : brq) (a : positive) l : nodes :=
  match lookup_key kcmp [q] l with
  | Some n => (fun e => if decide (e.1 = n) then (e.1, q :: e.2) else e) <$> l
  | None => put kcmp [q] (a, [q]) l
  end.

Section alloc.
Context (alloc : nat -> gset positive -> positive) (Halloc : forall k X, alloc k X ∉ X).

Lemma lookup_split q l n : sorted l -> lookup_key kcmp [q] l = Some n ->
  exists l1 d l2, l = l1 ++ (n, d) :: l2 /\ key d = active_msec q /\ Forall (fun e => key e.2 < active_msec q) l1
     /\ Forall (fun e => active_msec q < key e.2) l2.
Proof.
  intros Hs E. destruct (lookup_key_some _ _ _ _ E) as (d & Hd & Hk).
  unfold kcmp in Hk. cbn in Hk.
  apply elem_of_list_split in Hd as (l1 & l2 & ->). exists l1, d, l2.
  rewrite sorted_app, sorted_cons in Hs. destruct Hs as (H1 & (H2 & H3) & H4).
  split_and!; [done|lia| |]; apply Forall_forall; intros e He.
  - specialize (H4 e (n, d) He ltac:(set_solver)). unfold kcmp in H4. cbn in H4. lia.
  - specialize (H3 e He). unfold kcmp in H3. cbn in H3. lia.
Qed.

(** result of an insertion: the nodes are those of [l] with [q] put in front of its chain or as a new
    node, all smaller ones before and all greater ones after *)
Definition placed (q : brq) l l' : Prop :=
  exists l1 l2, Forall (fun e => key e.2 < active_msec q) l1 /\ Forall (fun e => active_msec q < key e.2) l2 /\
    ((exists n d, l = l1 ++ (n, d) :: l2 /\ key d = active_msec q /\ l' = l1 ++ (n, q :: d) :: l2) \/
     (exists a, l = l1 ++ l2 /\ l' = l1 ++ (a, [q]) :: l2)).

Lemma sorted_iff l : sorted l <-> StronglySorted (fun a b : positive * list brq => key a.2 < key b.2) l.
Proof.
  unfold strictly_sorted. induction l as [|x l IH]; [split; constructor|].
  split; inversion 1; subst; constructor; try (by apply IH); eapply Forall_impl; eauto; unfold kcmp; cbn; lia.
Qed.

Lemma placed_sorted q l l' : sorted l -> placed q l l' -> sorted l'.
Proof.
  intros Hs (l1 & l2 & F1 & F2 & [(n & d & -> & Hk & ->)|(a & -> & ->)]).
  - rewrite sorted_app, sorted_cons in *. destruct Hs as (H1 & (H2 & H3) & H4). split_and!; try done.
    + intros b Hb. specialize (H3 b Hb). unfold kcmp in *. cbn in *. lia.
    + intros x y Hx [->|Hy]%elem_of_cons; [|apply H4; set_solver].
      rewrite Forall_forall in F1. specialize (F1 x Hx). unfold kcmp. cbn in *. lia.
  - rewrite sorted_app in Hs. rewrite sorted_app, sorted_cons. destruct Hs as (H1 & H2 & H3).
    rewrite Forall_forall in F1, F2. split_and!; try done.
    + intros b Hb. specialize (F2 b Hb). unfold kcmp. cbn in *. lia.
    + intros x y Hx [->|Hy]%elem_of_cons; [|apply H3; set_solver].
      specialize (F1 x Hx). unfold kcmp. cbn in *. lia.
Qed.
Lemma placed_nonempty q l l' : nonempty l -> placed q l l' -> nonempty l'.
Proof.
  unfold nonempty. intros Hs (l1 & l2 & F1 & F2 & [(n & d & -> & Hk & ->)|(a & -> & ->)]).
  - rewrite Forall_app, Forall_cons in *. naive_solver.
  - rewrite Forall_app in Hs. rewrite Forall_app, Forall_cons. naive_solver.
Qed.
Lemma flat1_push n q d : d <> [] -> key d = active_msec q -> flat1 (n, q :: d) = (active_msec q, bid q) :: flat1 (n, d).
Proof. intros Hd Hk. unfold flat1. cbn. destruct d; [done|]. cbn in *. by rewrite Hk. Qed.
Lemma flat1_one a q : flat1 (a, [q]) = [(active_msec q, bid q)].
Proof. done. Qed.
Lemma placed_flat q l l' : nonempty l -> placed q l l' -> flat l' ≡ₚ (active_msec q, bid q) :: flat l.
Proof.
  unfold nonempty. intros Hs (l1 & l2 & F1 & F2 & [(n & d & -> & Hk & ->)|(a & -> & ->)]).
  - apply Forall_app in Hs as [_ Hs]. apply Forall_cons in Hs as [Hd _]. cbn in Hd.
    rewrite !flat_app, !flat_cons, flat1_push by done. solve_Permutation.
  - rewrite !flat_app, !flat_cons, flat1_one. solve_Permutation.
Qed.

Lemma insert_block_ok s l q a :
  inv s l -> sorted l -> nonempty l -> a ∉ dom (heap s) ->
  exists s' n first l', insert_block_queue s q a = Some (s', n, first) /\ inv s' l' /\ placed q l l' /\
    fst <$> head l' = (if first then Some n else fst <$> head l).
Proof.
  intros Hi Hs Hne Ha. pose proof (inv_fuel _ _ Hi) as HF.
  assert (Ha' : a ∉ l.*1) by (by rewrite (inv_dom _ _ _ Hi)).
  pose proof Hi as (t & Hrep & El & (N & HN) & Hout).
  assert (Hh := height_inorder t). rewrite El in Hh.
  assert (Hg : good t) by (unfold good; by rewrite El).
  assert (root s = rp t) as Hroot by apply Hrep.
  unfold insert_block_queue. rewrite Hroot.
  destruct (descent_ok (fuel_of s) s q [] t Hrep Hg ltac:(lia)) as [(n & E & Hn)|(Hn & C' & E & HP & HS)].
  - change (bool_decide (lo [] = [])) with true in E. cbn [locof pc] in E.
    rewrite E. cbn -[upd rd]. rewrite tfind_lookup, El in Hn; [|apply kcmp_total|by rewrite El].
    destruct (lookup_split _ _ _ Hs Hn) as (l1 & d & l2 & -> & Hk & F1 & F2).
    destruct (inv_dat _ _ _ _ _ Hi) as (nn & Hr & <-). rewrite Hr. cbn -[upd].
    destruct (inv_set_dat _ _ _ _ _ (q :: dat nn) Hi) as (s' & E' & Hi'). rewrite E'. cbn.
    exists s', n, false, (l1 ++ (n, q :: dat nn) :: l2). split_and!; [done|done| |by destruct l1].
    exists l1, l2. split_and!; [done|done|]. left. eauto.
  - change (bool_decide (lo [] = [])) with true in E. cbn [locof pc] in E.
    rewrite E. cbn -[link_node insert_color fuel_of].
    rewrite <- El in Hs. destruct (HS Hs) as (l1 & l2 & E1 & E2 & F1 & F2). cbn in E1, E2, HP. rewrite app_nil_r in E2.
    rewrite <- HP in Hrep.
    assert (Haids : a ∉ ids (plug C' Leaf)).
    { rewrite HP, ids_inorder. by rewrite El. }
    destruct (link_ok s C' a [q] Hrep Haids) as (s1 & EL & H1 & So1). rewrite EL. cbn -[insert_color fuel_of].
    assert (Ein : inorder t = l1 ++ l2). { rewrite <- HP, inorder_plug, E1, E2. done. }
    rewrite <- HP in HN. destruct (rbt_plug_ctx _ _ _ HN) as (c & n & Hrb & HRC).
    assert (HI : rebal s1 (plug C' (Node false a [q] Leaf Leaf)) (insert_color (fuel_of s) s1 a)).
    { assert (c = true /\ n = 0%nat) as [-> ->] by (by inversion Hrb).
      eapply (insert_color_ok (fuel_of s) s1 C' a [q] Leaf Leaf 0); eauto.
      - repeat constructor.
      - pose proof (size_plug C' Leaf) as HSz. rewrite HP in HSz. cbn in HSz. rewrite El in HSz. lia. }
    destruct HI as (s2 & t2 & EI & H2 & Hin2 & HN2 & So2). rewrite EI. cbn -[upd].
    rewrite inorder_plug in Hin2. cbn in Hin2. rewrite E1, E2 in Hin2.
    exists s2, a, (bool_decide (lo C' = [])), (l1 ++ (a, [q]) :: l2). split_and!; [done| | |].
    + exists t2. split_and!; [done|done|done|]. intros q0 Hq.
      assert (Hids2 : ids t2 ≡ₚ ids (plug C' (Node false a [q] Leaf Leaf))).
      { rewrite !ids_inorder, Hin2, inorder_plug. cbn. by rewrite E1, E2. }
      rewrite Hids2 in Hq. rewrite So2 by done. rewrite So1 by done. apply Hout.
      rewrite ids_plug in Hq. rewrite <- HP, ids_plug. cbn in Hq |- *. set_solver.
    + exists l1, l2. split_and!.
      * eapply Forall_impl; [exact F1|]. unfold kcmp; cbn; intros; lia.
      * eapply Forall_impl; [exact F2|]. unfold kcmp; cbn; intros; lia.
      * right. exists a. rewrite <- El, Ein. done.
    + case_bool_decide as Hb; rewrite E1 in Hb; [by rewrite Hb|]. rewrite <- El, Ein. by destruct l1.
Qed.

Lemma add_block_ok t l q : tinv t l ->
  exists t' l', add_block_queue alloc t q = Some t' /\ tinv t' l' /\ placed q l l' /\ clk t' = clk t.
Proof.
  intros (Hi & Hs & Hne & Hf). unfold add_block_queue.
  destruct (insert_block_ok (block t) l q _ Hi Hs Hne (Halloc (nalloc t) _)) as (s' & n & first & l' & E & Hi' & Hp & Hh).
  rewrite E. cbn -[rb_first fuel_of].
  rewrite (inv_first _ _ _ Hi') by (rewrite (inv_fuel _ _ Hi'); lia). cbn -[fuel_of].
  rewrite decide_True by (rewrite Hh, Hf; by destruct first).
  eexists _, l'. split; [done|]. split; [|done].
  split_and!; cbn; [done|by eapply placed_sorted|by eapply placed_nonempty|].
  rewrite Hf, Hh. by destruct first.
Qed.

(** ** clock adjustment *)
Definition shift_head (d : Z) (ch : list brq) : list brq :=
  match ch with [] => [] | q :: ch => mkbrq (bid q) (active_msec q + d) :: ch end.
Definition shift_nodes (d : Z) l : nodes := prod_map id (shift_head d) <$> l.

Lemma adjust_loop_ok F fuel d s l1 l2 :
  inv s (l1 ++ l2) -> nonempty l2 -> (length (l1 ++ l2) < F)%nat -> (length l2 <= fuel)%nat ->
  exists s', adjust_loop F fuel s d (fst <$> head l2) = Some s' /\ inv s' (l1 ++ shift_nodes d l2).
Proof.
  revert fuel l1 s; induction l2 as [|[n ch] l2 IH]; intros fuel l1 s Hi Hne HF Hf; cbn -[fuel_of].
  - exists s. split; [by destruct fuel|done].
  - destruct fuel as [|fuel]; [cbn in Hf; lia|]. cbn -[rd upd rb_next].
    destruct (inv_dat _ _ _ _ _ Hi) as (nn & Hr & Hd). rewrite Hr. cbn -[upd rb_next]. rewrite Hd.
    apply Forall_cons in Hne as [Hc Hne]. cbn in Hc. destruct ch as [|q ch]; [done|].
    destruct (inv_set_dat _ _ _ _ _ (mkbrq (bid q) (active_msec q + d) :: ch) Hi) as (s' & E & Hi').
    rewrite E. cbn -[rb_next]. rewrite (inv_next _ _ _ _ _ _ Hi') by (rewrite app_length in *; cbn in *; lia).
    cbn. rewrite cons_middle, app_assoc in Hi'.
    destruct (IH fuel _ _ Hi' Hne) as (s2 & E2 & Hi2).
    { rewrite !app_length in *. cbn in *. lia. } { cbn in Hf. lia. }
    exists s2. split; [done|]. rewrite <- app_assoc in Hi2. done.
Qed.
Lemma shift_key d ch : ch <> [] -> key (shift_head d ch) = key ch + d.
Proof. by destruct ch. Qed.
Lemma shift_sorted d l : nonempty l -> sorted l -> sorted (shift_nodes d l).
Proof.
  induction l as [|[n ch] l IH]; [done|]. intros [Hc Hn]%Forall_cons [Hs Hlt]%sorted_cons. cbn in Hc.
  cbn. apply sorted_cons. split; [by apply IH|]. cbn. intros b Hb.
  apply elem_of_list_fmap in Hb as ([m c2] & -> & Hb). unfold nonempty in Hn. rewrite Forall_forall in Hn.
  specialize (Hn _ Hb). specialize (Hlt _ Hb). unfold kcmp in *. cbn in *. rewrite !shift_key by done. lia.
Qed.
Lemma shift_flat d l : nonempty l -> flat (shift_nodes d l) = prod_map (fun x => x + d) id <$> flat l.
Proof.
  induction l as [|[n ch] l IH]; [done|]. intros [Hc Hn]%Forall_cons. cbn in Hc. cbn [shift_nodes fmap list_fmap].
  rewrite !flat_cons, fmap_app. unfold shift_nodes in IH. rewrite IH by done. f_equal.
  unfold flat1. cbn. rewrite shift_key by done. destruct ch as [|q ch]; [done|]. cbn. f_equal.
  rewrite <- !list_fmap_compose. done.
Qed.
Lemma adjust_ok t l d : tinv t l ->
  exists t', adjust_time t d = Some t' /\ tinv t' (shift_nodes d l) /\ clk t' = clk t.
Proof.
  intros (Hi & Hs & Hne & Hf). unfold adjust_time. rewrite Hf.
  pose proof (inv_fuel _ _ Hi) as HF.
  destruct (adjust_loop_ok (fuel_of (block t)) (fuel_of (block t)) d (block t) [] l Hi Hne) as (s' & E & Hi').
  { rewrite HF. cbn. lia. } { lia. }
  rewrite E. cbn -[fuel_of]. eexists. split; [done|]. split; [|done]. split_and!; cbn; [exact Hi'|by apply shift_sorted| |].
  - unfold nonempty, shift_nodes in *. apply Forall_fmap. eapply Forall_impl; [exact Hne|]. intros [m [|]] H; cbn in *; done.
  - by destruct l.
Qed.

(** ** the pass *)
Lemma detach_ok fuel t l : tinv t l -> (length l < fuel)%nat ->
  exists t' l1 l2, detach fuel t = Some (t', l1.*2) /\ l = l1 ++ l2 /\ tinv t' l2 /\ clk t' = clk t
    /\ Forall (fun e => key e.2 <= clk t) l1 /\ Forall (fun e => clk t < key e.2) l2.
Proof.
  revert t l; induction fuel as [|fuel IH]; intros t l HI Hf; [lia|].
  pose proof HI as (Hi & Hs & Hne & Hb). cbn -[fuel_of]. rewrite Hb. destruct l as [|[n ch] l].
  - exists t, [], []. by split_and!.
  - cbn -[fuel_of rd rb_next rbtree_remove]. destruct (inv_dat _ [] _ _ _ Hi) as (nn & Hr & Hd). rewrite Hr.
    cbn -[fuel_of rd rb_next rbtree_remove]. rewrite Hd.
    pose proof Hne as [Hc Hn]%Forall_cons. cbn in Hc. destruct ch as [|q ch]; [done|].
    pose proof Hs as [Hs' Hlt]%sorted_cons.
    destruct (Z.ltb_spec (clk t) (active_msec q)) as [Hge|Hle].
    + exists t, [], ((n, q :: ch) :: l). split_and!; try done. constructor; [done|].
      apply Forall_forall. intros e He. specialize (Hlt e He). unfold kcmp in Hlt. cbn in *. lia.
    + rewrite (inv_next _ _ [] _ _ _ Hi) by (rewrite (inv_fuel _ _ Hi); cbn; lia).
      cbn -[fuel_of rbtree_remove].
      destruct (inv_remove (fuel_of (block t)) _ _ n Hi) as (s' & E & Hi').
      { cbn. set_solver. } { rewrite (inv_fuel _ _ Hi). lia. }
      rewrite E. cbn -[fuel_of detach].
      assert (Hdrop : drop_node n ((n, q :: ch) :: l) = l).
      { apply (drop_node_focus []). exact (inv_NoDup _ _ Hi). }
      rewrite Hdrop in Hi'. edestruct (IH (mktsel s' (fst <$> head l) (clk t) (nalloc t)) l) as (t' & l1 & l2 & E2 & -> & HI2 & Hck & F1 & F2).
      { by split_and!. } { cbn in Hf. lia. }
      rewrite E2. cbn. cbn in Hck, F1, F2. exists t', ((n, q :: ch) :: l1), l2. split_and!; try done. by constructor.
Qed.

Lemma flat1_keys e : Forall (fun x => x.1 = key e.2) (flat1 e).
Proof. unfold flat1. apply Forall_fmap, Forall_true. done. Qed.
Lemma flat_lt l z : Forall (fun e => key e.2 < z) l -> Forall (fun x => x.1 < z) (flat l).
Proof.
  induction 1 as [|e l He Hl IH]; [constructor|]. rewrite flat_cons. apply Forall_app. split; [|done].
  eapply Forall_impl; [apply flat1_keys|]. cbn. intros x ->. done.
Qed.
Lemma flat_le l z : Forall (fun e => key e.2 <= z) l -> Forall (fun x => x.1 <= z) (flat l).
Proof.
  induction 1 as [|e l He Hl IH]; [constructor|]. rewrite flat_cons. apply Forall_app. split; [|done].
  eapply Forall_impl; [apply flat1_keys|]. cbn. intros x ->. done.
Qed.
Lemma flat_gt l z : Forall (fun e => z < key e.2) l -> Forall (fun x => z < x.1) (flat l).
Proof.
  induction 1 as [|e l He Hl IH]; [constructor|]. rewrite flat_cons. apply Forall_app. split; [|done].
  eapply Forall_impl; [apply flat1_keys|]. cbn. intros x ->. done.
Qed.
Lemma enqueue_app e P1 P2 :
  Forall (fun x => x.1 < e.1) P1 -> Forall (fun x => e.1 <= x.1) P2 -> enqueue e (P1 ++ P2) = P1 ++ e :: P2.
Proof.
  intros H1 H2. induction H1 as [|x P1 Hx H1 IH]; cbn.
  - destruct H2; cbn; [done|]. by rewrite decide_False by lia.
  - rewrite decide_True by done. by rewrite IH.
Qed.
Lemma split_due_app now P1 P2 :
  Forall (fun x => x.1 <= now) P1 -> Forall (fun x => now < x.1) P2 -> split_due now (P1 ++ P2) = (P1, P2).
Proof.
  intros H1 H2. induction H1 as [|x P1 Hx H1 IH]; cbn.
  - destruct H2; cbn; [done|]. by rewrite decide_False by lia.
  - rewrite decide_True by done. by rewrite IH.
Qed.
Lemma placed_enqueue q l l' : nonempty l -> placed q l l' -> flat l' = enqueue (active_msec q, bid q) (flat l).
Proof.
  unfold nonempty. intros Hs (l1 & l2 & F1 & F2 & [(n & d & -> & Hk & ->)|(a & -> & ->)]).
  - apply Forall_app in Hs as [_ Hs]. apply Forall_cons in Hs as [Hd _]. cbn in Hd.
    rewrite !flat_app, !flat_cons, flat1_push by done. rewrite enqueue_app; [done|by apply flat_lt|].
    apply Forall_app. split.
    + eapply Forall_impl; [apply flat1_keys|]. cbn. intros x ->. lia.
    + eapply Forall_impl; [by apply flat_gt|]. cbn. intros; lia.
  - rewrite !flat_app, !flat_cons, flat1_one. rewrite enqueue_app; [done|by apply flat_lt|].
    eapply Forall_impl; [by apply flat_gt|]. cbn. intros; lia.
Qed.
Lemma enqueue_all_app es es' P : enqueue_all (es ++ es') P = enqueue_all es' (enqueue_all es P).
Proof. unfold enqueue_all. by rewrite foldl_app. Qed.

Lemma add_timers_ok adds t l : tinv t l ->
  exists t' l', add_timers alloc t adds = Some t' /\ tinv t' l' /\ clk t' = clk t /\
    flat l' = enqueue_all ((fun a => (clk t + a.2, a.1)) <$> adds) (flat l).
Proof.
  revert t l; induction adds as [|[i ms] adds IH]; intros t l HI; cbn -[add_timer].
  - exists t, l. by split_and!.
  - unfold add_timer. destruct (add_block_ok t l (mkbrq i (clk t + ms)) HI) as (t1 & l1 & E & HI1 & Hp & Hck).
    rewrite E. cbn. destruct (IH t1 l1 HI1) as (t2 & l2 & E2 & HI2 & Hck2 & HP).
    exists t2, l2. split_and!; [done|done|by rewrite Hck2|]. rewrite HP, Hck.
    by rewrite (placed_enqueue _ _ _ ltac:(apply HI) Hp).
Qed.
Lemma run_chain_ok cb ch t l : tinv t l ->
  exists t' l', run_chain alloc t cb ch = Some (t', bid <$> ch) /\ tinv t' l' /\ clk t' = clk t /\
    flat l' = enqueue_all (registered (clk t) cb (bid <$> ch)) (flat l).
Proof.
  revert t l; induction ch as [|q ch IH]; intros t l HI; cbn.
  - exists t, l. by split_and!.
  - destruct (add_timers_ok (cb (bid q)) t l HI) as (t1 & l1 & E & HI1 & Hck & HP). rewrite E. cbn.
    destruct (IH t1 l1 HI1) as (t2 & l2 & E2 & HI2 & Hck2 & HP2). rewrite E2. cbn.
    exists t2, l2. split_and!; [done|done|by rewrite Hck2|]. rewrite HP2, HP, Hck.
    rewrite <- enqueue_all_app. done.
Qed.
Lemma run_chains_ok cb chs t l : tinv t l ->
  exists t' l', run_chains alloc t cb chs = Some (t', bid <$> mjoin chs) /\ tinv t' l' /\ clk t' = clk t /\
    flat l' = enqueue_all (registered (clk t) cb (bid <$> mjoin chs)) (flat l).
Proof.
  revert t l; induction chs as [|ch chs IH]; intros t l HI; cbn.
  - exists t, l. by split_and!.
  - destruct (run_chain_ok cb ch t l HI) as (t1 & l1 & E & HI1 & Hck & HP). rewrite E. cbn.
    destruct (IH t1 l1 HI1) as (t2 & l2 & E2 & HI2 & Hck2 & HP2). rewrite E2. cbn.
    exists t2, l2. rewrite fmap_app. split_and!; [done|done|by rewrite Hck2|]. rewrite HP2, HP, Hck.
    rewrite <- enqueue_all_app. unfold registered. by rewrite bind_app.
Qed.

Lemma flat_ids l : (flat l).*2 = bid <$> mjoin l.*2.
Proof.
  induction l as [|e l IH]; [done|]. rewrite flat_cons, fmap_app, IH. cbn. rewrite fmap_app. f_equal.
  unfold flat1. rewrite <- list_fmap_compose. done.
Qed.
Lemma shift_flat' d l : nonempty l -> flat (shift_nodes d l) = shift d (flat l).
Proof. intros H. rewrite shift_flat by done. unfold shift. apply list_fmap_ext. intros _ [x y] _. done. Qed.

(** every call refines the queue *)
Lemma texec_ok t l o : tinv t l ->
  exists t' l', texec alloc t o = Some (t', (qstep (clk t, flat l) o).1) /\ tinv t' l'
    /\ (clk t', flat l') = (qstep (clk t, flat l) o).2.
Proof.
  intros HI. pose proof HI as (Hi & Hs & Hne & Hb). destruct o as [id ms|now|d|cb]; cbn -[adjust_time add_timer update_time timer_pass].
  - unfold add_timer. destruct (add_block_ok t l (mkbrq id (clk t + ms)) HI) as (t1 & l1 & E & HI1 & Hp & Hck).
    rewrite E. cbn. exists t1, l1. split_and!; [done|done|]. rewrite Hck. by rewrite (placed_enqueue _ _ _ Hne Hp).
  - unfold update_time. destruct (Z.ltb_spec (now / 1000) (clk t / 1000)) as [Hlt|Hge].
    + destruct (adjust_ok t l (now - clk t) HI) as (t1 & E & HI1 & Hck). rewrite E. cbn.
      eexists _, _. split; [done|]. split; [exact HI1|]. cbn. rewrite decide_True by done. by rewrite shift_flat'.
    + cbn. eexists _, l. split; [done|]. split; [exact HI|]. cbn. by rewrite decide_False by lia.
  - destruct (adjust_ok t l d HI) as (t1 & E & HI1 & Hck). rewrite E. cbn.
    eexists _, _. split; [done|]. split; [exact HI1|]. cbn. by rewrite Hck, shift_flat'.
  - unfold timer_pass. destruct (detach_ok (fuel_of (block t)) t l HI) as (t1 & l1 & l2 & E & -> & HI1 & Hck & F1 & F2).
    { rewrite (inv_fuel _ _ Hi). lia. }
    rewrite E. cbn -[fuel_of]. rewrite flat_app, split_due_app; [|by apply flat_le|by apply flat_gt]. cbn.
    destruct (run_chains_ok cb l1.*2 t1 l2 HI1) as (t2 & l3 & E2 & HI3 & Hck2 & HP).
    rewrite E2, flat_ids. exists t2, l3. split_and!; [done|done|]. by rewrite Hck2, HP, Hck.
Qed.
Lemma texec_all_ok os t l : tinv t l ->
  exists t' l', texec_all alloc t os = Some (t', (qrun (clk t, flat l) os).1) /\ tinv t' l'
    /\ (clk t', flat l') = (qrun (clk t, flat l) os).2.
Proof.
  revert t l; induction os as [|o os IH]; intros t l HI; cbn -[qstep texec].
  - by exists t, l.
  - destruct (texec_ok t l o HI) as (t1 & l1 & E & HI1 & H1). rewrite E. cbn -[qstep].
    destruct (IH t1 l1 HI1) as (t2 & l2 & E2 & HI2 & H2). rewrite E2. rewrite H1 in *. cbn -[qstep].
    destruct (qstep (clk t, flat l) o) as [f s']. cbn in *. destruct (qrun s' os) as [fs s'']. cbn in *.
    by exists t2, l2.
Qed.
End alloc.

(** ** the queue meets the user's specification *)
Definition qsorted (P : pending) := StronglySorted (fun e f : Z * nat => e.1 <= f.1) P.
Lemma qsorted_app P1 P2 : qsorted (P1 ++ P2) -> qsorted P1 /\ qsorted P2.
Proof.
  unfold qsorted. induction P1 as [|e P1 IH]; cbn; [split; [constructor|done]|].
  inversion 1 as [|? ? H1 H2]; subst. apply IH in H1 as [Ha Hb]. apply Forall_app in H2 as [H2 _].
  split; [by constructor|done].
Qed.
Lemma enqueue_perm e P : enqueue e P ≡ₚ e :: P.
Proof. induction P as [|f P IH]; cbn; [done|]. case_decide; [|done]. rewrite IH. solve_Permutation. Qed.
Lemma enqueue_sorted e P : qsorted P -> qsorted (enqueue e P).
Proof.
  unfold qsorted. induction 1 as [|f P Hs IH HF]; cbn; [repeat constructor|]. case_decide.
  - constructor; [done|]. rewrite enqueue_perm. constructor; [lia|done].
  - constructor; [by constructor|]. constructor; [lia|]. eapply Forall_impl; [exact HF|]. cbn. intros; lia.
Qed.
Lemma enqueue_all_perm es P : enqueue_all es P ≡ₚ es ++ P.
Proof.
  unfold enqueue_all. revert P; induction es as [|e es IH]; intros P; cbn; [done|].
  rewrite IH, enqueue_perm. solve_Permutation.
Qed.
Lemma enqueue_all_sorted es P : qsorted P -> qsorted (enqueue_all es P).
Proof. unfold enqueue_all. revert P; induction es as [|e es IH]; intros P H; cbn; [done|]. by apply IH, enqueue_sorted. Qed.
Lemma split_due_spec now P a b : qsorted P -> split_due now P = (a, b) ->
  P = a ++ b /\ Forall (fun e => e.1 <= now) a /\ Forall (fun e => now < e.1) b.
Proof.
  intros Hs. revert a b. induction Hs as [|e P Hs IH HF]; intros a b; cbn.
  - intros [= <- <-]. by split_and!.
  - case_decide.
    + destruct (split_due now P) as [a' b']. intros [= <- <-]. destruct (IH _ _ eq_refl) as (-> & H1 & H2).
      split_and!; [done|by constructor|done].
    + intros [= <- <-]. split_and!; [done|constructor|]. constructor; [lia|].
      eapply Forall_impl; [exact HF|]. cbn. intros; lia.
Qed.
Lemma shift_sorted' d P : qsorted P -> qsorted (shift d P).
Proof.
  unfold qsorted, shift. induction 1 as [|e P Hs IH HF]; cbn; [constructor|]. constructor; [done|].
  apply Forall_fmap. eapply Forall_impl; [exact HF|]. cbn. intros; lia.
Qed.
Lemma qstep_ok now P o : qsorted P -> tstep (now, P) o (qstep (now, P) o).1 (qstep (now, P) o).2
  /\ qsorted (qstep (now, P) o).2.2.
Proof.
  intros Hs. destruct o as [id ms|now'|d|cb]; cbn.
  - split; [|by apply enqueue_sorted]. constructor. apply enqueue_perm.
  - split; [|case_decide; [by apply shift_sorted'|done]]. by constructor.
  - split; [|by apply shift_sorted']. by constructor.
  - destruct (split_due now P) as [a b] eqn:E. destruct (split_due_spec _ _ _ _ Hs E) as (-> & H1 & H2). cbn.
    apply qsorted_app in Hs as [Ha Hb]. split; [|by apply enqueue_all_sorted].
    econstructor; try done. rewrite enqueue_all_perm. solve_Permutation.
Qed.
Lemma qrun_ok os (s : Z * pending) : qsorted s.2 -> truns s os (qrun s os).1 (qrun s os).2.
Proof.
  revert s; induction os as [|o os IH]; intros [now P] Hs; cbn -[qstep]; [constructor|].
  destruct (qstep_ok now P o Hs) as [H1 H2]. destruct (qstep (now, P) o) as [f s']. cbn in *.
  specialize (IH s' H2). destruct (qrun s' os) as [fs s'']. cbn in *. by econstructor.
Qed.
