(** Property C38: intrusive lists.  Model: KlistModel.v.

    Specification: a set of lists, header -> elements in order.  Legal use: a node that is in no list may
    be (re)initialised as a header or appended to a list; only a node that is in a list may be removed. *)
From Verif Require Import KlistModel KlistProof.

Notation lists := (gmap positive (list positive)).
Inductive lop :=
| LNew (x : positive) (junk : lnode)  (* memory obtained for a link, contents arbitrary *)
| LInit (l : positive)
| LAppend (l x : positive)
| LRemove (x : positive).
Definition lexec (h : lheap) (o : lop) : option lheap :=
  match o with
  | LNew x j => Some (<[x := j]> h)
  | LInit l => klist_init h l
  | LAppend l x => klist_append h l x
  | LRemove x => klist_remove h x
  end.
Fixpoint lexec_all (h : lheap) (os : list lop) : option lheap :=
  match os with [] => Some h | o :: os => h ← lexec h o; lexec_all h os end.

(** spec state: the nodes that exist, and the lists *)
Definition unused (L : lists) (x : positive) : Prop := L !! x = None /\ forall l xs, L !! l = Some xs -> x ∉ xs.
Definition llegal (A : gset positive) (L : lists) (o : lop) : Prop :=
  match o with
  | LNew x _ => unused L x
  | LInit l => l ∈ A /\ unused L l
  | LAppend l x => x ∈ A /\ unused L x /\ is_Some (L !! l)
  | LRemove x => exists l xs, L !! l = Some xs /\ x ∈ xs
  end.
Definition lspec (A : gset positive) (L : lists) (o : lop) : gset positive * lists :=
  match o with
  | LNew x _ => ({[x]} ∪ A, L)
  | LInit l => (A, <[l := []]> L)
  | LAppend l x => (A, alter (fun xs => xs ++ [x]) l L)
  | LRemove x => (A, filter (fun y => y <> x) <$> L)
  end.
Fixpoint lspec_all (A : gset positive) (L : lists) (os : list lop) : lists :=
  match os with [] => L | o :: os => let '(A, L) := lspec A L o in lspec_all A L os end.
Fixpoint llegal_all (A : gset positive) (L : lists) (os : list lop) : Prop :=
  match os with [] => True | o :: os => llegal A L o /\ let '(A, L) := lspec A L o in llegal_all A L os end.

Definition linv (h : lheap) (A : gset positive) (L : lists) : Prop :=
  dom h = A /\ (forall l xs, L !! l = Some xs -> is_list h l xs) /\
  (forall l xs l' xs', L !! l = Some xs -> L !! l' = Some xs' -> l <> l' -> forall y, y ∈ l :: xs -> y ∈ l' :: xs' -> False).

Lemma is_list_frame h h' l xs : is_list h l xs ->
  (forall y, y ∈ l :: xs -> get_next h' y = get_next h y /\ get_prev h' y = get_prev h y) -> is_list h' l xs.
Proof.
  intros [ND HL] F. split; [done|]. eapply links_frame; [exact HL|]. intros l1 a b l2 E.
  assert (a ∈ l :: xs ++ [l]) by (rewrite E; set_solver). assert (b ∈ l :: xs ++ [l]) by (rewrite E; set_solver).
  split; apply F; set_solver.
Qed.
Lemma filter_ne_notin (x : positive) (xs : list positive) : x ∉ xs -> filter (fun y => y <> x) xs = xs.
Proof.
  induction xs as [|y xs IH]; [done|]. intros [H1 H2]%not_elem_of_cons. rewrite filter_cons_True by done. by rewrite IH.
Qed.

Lemma lexec_ok h A L o : linv h A L -> llegal A L o ->
  exists h', lexec h o = Some h' /\ linv h' (lspec A L o).1 (lspec A L o).2.
Proof.
  intros (HD & HI & HX) HL. destruct o as [x j|l|l x|x]; cbn [lexec lspec fst snd].
  - destruct HL as [U1 U2]. eexists. split; [done|]. split_and!; [by rewrite dom_insert_L, HD| |done].
    intros l xs E. eapply is_list_frame; [by apply HI|]. intros y Hy.
    assert (y <> x). { intros ->. apply elem_of_cons in Hy as [->|Hy]; [congruence|by eapply U2]. }
    unfold get_next, get_prev. by rewrite lookup_insert_ne.
  - destruct HL as (HA & U1 & U2). unfold klist_init. rewrite <- HD in HA.
    destruct (set_next_ok h l (Some l) HA) as (h1 & E1). rewrite E1. cbn. apply set_next_spec in E1 as (N1 & P1 & D1).
    destruct (set_prev_ok h1 l (Some l)) as (h2 & E2); [by rewrite D1|]. rewrite E2. apply set_prev_spec in E2 as (P2 & N2 & D2).
    exists h2. split; [done|]. split_and!; [congruence| |].
    + intros m xs [[<- <-]|[Hne E]]%lookup_insert_Some.
      * split; [apply NoDup_singleton|]. cbn. apply links_cons2. split; [|apply links_one].
        split; [by rewrite N2, N1, decide_True|by rewrite P2, decide_True].
      * eapply is_list_frame; [by apply HI|]. intros y Hy.
        assert (y <> l). { intros ->. apply elem_of_cons in Hy as [->|Hy]; [congruence|by eapply U2]. }
        by rewrite N2, N1, P2, P1, !decide_False.
    + intros a xs b ys [[<- <-]|[Ha Ea]]%lookup_insert_Some [[<- <-]|[Hb Eb]]%lookup_insert_Some Hne y Hy1 Hy2; [done| | |by eapply (HX a xs b ys)].
      * apply elem_of_list_singleton in Hy1 as ->. apply elem_of_cons in Hy2 as [->|Hy2]; [congruence|by eapply U2].
      * apply elem_of_list_singleton in Hy2 as ->. apply elem_of_cons in Hy1 as [->|Hy1]; [congruence|by eapply U2].
  - destruct HL as (HA & (U1 & U2) & [xs E]). rewrite <- HD in HA.
    assert (Hx : x ∉ l :: xs). { intros [->|Hx]%elem_of_cons; [congruence|by eapply U2]. }
    destruct (append_effect h l xs x (HI _ _ E) Hx HA) as (h' & E' & D' & HN & HP).
    exists h'. split; [done|]. split_and!; [congruence| |].
    + intros m ys Em. destruct (decide (l = m)) as [->|Hne].
      * rewrite lookup_alter, E in Em. cbn in Em. simplify_eq. eapply append_is_list; [by apply HI|done|done|done].
      * rewrite lookup_alter_ne in Em by done. eapply is_list_frame; [by apply HI|]. intros y Hy.
        assert (y <> x). { intros ->. apply elem_of_cons in Hy as [->|Hy]; [congruence|by eapply U2]. }
        assert (forall z, z ∈ l :: xs -> y <> z) as HZ. { intros z Hz ->. by eapply (HX l xs m ys). }
        rewrite HN, HP. rewrite !decide_False; [done|done|apply HZ; set_solver|apply HZ, lastp_in|done].
    + intros a xa b xb Ea Eb Hne y Ha Hb.
      assert (HH : forall m xm, alter (fun xs => xs ++ [x]) l L !! m = Some xm -> y ∈ m :: xm ->
                exists xm', L !! m = Some xm' /\ (y ∈ m :: xm' \/ (y = x /\ m = l))).
      { intros m xm Em Hm. destruct (decide (l = m)) as [->|Hn].
        - rewrite lookup_alter, E in Em. cbn in Em. simplify_eq. exists xs. split; [done|]. set_solver.
        - rewrite lookup_alter_ne in Em by done. exists xm. split; [done|]. by left. }
      destruct (HH _ _ Ea Ha) as (xa' & Ea' & [Ha'|[Hy1 Hy2]]); destruct (HH _ _ Eb Hb) as (xb' & Eb' & [Hb'|[Hy3 Hy4]]); subst.
      * by eapply (HX a xa' b xb').
      * apply elem_of_cons in Ha' as [->|Ha']; [congruence|by eapply (U2 a xa')].
      * apply elem_of_cons in Hb' as [->|Hb']; [congruence|by eapply (U2 b xb')].
      * done.
  - destruct HL as (l & xs & E & Hx). apply elem_of_list_split in Hx as (xs1 & xs2 & ->).
    destruct (remove_effect h l xs1 x xs2 (HI _ _ E)) as (h' & E' & D' & HN & HP).
    pose proof (HI _ _ E) as HIL. pose proof HIL as [ND _].
    assert (Hx1 : x ∉ xs1 /\ x ∉ xs2).
    { apply NoDup_cons in ND as [_ ND]. apply NoDup_app in ND as (_ & N1 & N2). apply NoDup_cons in N2 as [N2 _].
      split; [|done]. intros Hc. apply (N1 x Hc). set_solver. }
    assert (Hf : filter (fun y => y <> x) (xs1 ++ x :: xs2) = xs1 ++ xs2).
    { rewrite filter_app, filter_cons_False by naive_solver. by rewrite !filter_ne_notin by apply Hx1. }
    assert (Hoth : forall m ys, L !! m = Some ys -> m <> l -> x ∉ ys).
    { intros m ys Em Hne Hc. eapply (HX m ys l _ Em E Hne x); set_solver. }
    exists h'. split; [done|]. split_and!; [congruence| |].
    + intros m ys. rewrite lookup_fmap. destruct (L !! m) as [zs|] eqn:Em; cbn; [|done]. intros [= <-].
      destruct (decide (m = l)) as [->|Hne].
      * simplify_eq. rewrite Hf. by eapply remove_is_list.
      * rewrite filter_ne_notin by (by eapply Hoth). eapply is_list_frame; [by apply HI|]. intros y Hy.
        assert (HZ : forall z, z ∈ l :: xs1 ++ x :: xs2 -> y <> z). { intros z Hz ->. by eapply (HX l _ m zs). }
        assert (default l (head xs2) ∈ l :: xs1 ++ x :: xs2) by (destruct xs2; cbn; set_solver).
        assert (lastp l xs1 ∈ l :: xs1 ++ x :: xs2) by (pose proof (lastp_in l xs1); set_solver).
        rewrite HN, HP. rewrite !decide_False by (by apply HZ). done.
    + intros a xa b xb. rewrite !lookup_fmap. destruct (L !! a) as [za|] eqn:Ea; [|done]. destruct (L !! b) as [zb|] eqn:Eb; [|done].
      cbn. intros [= <-] [= <-] Hne y Ha Hb. eapply (HX a za b zb Ea Eb Hne y).
      * apply elem_of_cons in Ha as [->|Ha]; [set_solver|]. apply elem_of_list_filter in Ha. set_solver.
      * apply elem_of_cons in Hb as [->|Hb]; [set_solver|]. apply elem_of_list_filter in Hb. set_solver.
Qed.
Lemma lexec_all_ok os h A L : linv h A L -> llegal_all A L os ->
  exists h' A', lexec_all h os = Some h' /\ linv h' A' (lspec_all A L os).
Proof.
  revert h A L; induction os as [|o os IH]; intros h A L HI HL; cbn -[lexec lspec].
  - eauto.
  - cbn -[lspec llegal] in HL. destruct HL as [H1 H2]. destruct (lexec_ok h A L o HI H1) as (h1 & E1 & HI1).
    rewrite E1. cbn -[lspec]. destruct (lspec A L o) as [A1 L1]. cbn in HI1. by apply IH.
Qed.

(** C38.  Every legal history of operations on any number of lists runs without touching NULL or foreign
    memory; afterwards, for every list, the forward walk visits exactly its elements in the order they
    were appended (without those removed), the backward walk the same in reverse, and klist_empty tells
    whether there are any. *)
Theorem C38_klist (os : list lop) :
  llegal_all ∅ ∅ os ->
  exists h, lexec_all ∅ os = Some h /\
    forall l xs fuel, lspec_all ∅ ∅ os !! l = Some xs -> length xs <= fuel ->
      foreach fuel h l = Some xs /\ rforeach fuel h l = Some (reverse xs) /\
      klist_empty h l = Some (bool_decide (xs = [])).
Proof.
  intros HL. destruct (lexec_all_ok os ∅ ∅ ∅) as (h & A & E & _ & HI & _); [|done|].
  { split_and!; [by apply dom_empty_L| |]; intros l xs; [|intros l' xs']; by rewrite lookup_empty. }
  exists h. split; [done|]. intros l xs fuel El Hf. specialize (HI _ _ El).
  split_and!; [by apply is_list_walk|by apply is_list_rwalk|].
  destruct HI as [ND HLk]. unfold klist_empty. destruct xs as [|x xs].
  - cbn in HLk. apply links_cons2 in HLk as [[-> _] _]. cbn. by rewrite bool_decide_true.
  - cbn in HLk. apply links_cons2 in HLk as [[-> _] _]. cbn. apply NoDup_cons in ND as [ND _]. by rewrite !bool_decide_false by set_solver.
Qed.
Print Assumptions C38_klist.

(** C38: the effect of one operation on memory: only the two neighbours and the node itself *)
Theorem C38_klist_footprint h A L o h' : linv h A L -> llegal A L o -> lexec h o = Some h' ->
  forall y, h' !! y <> h !! y ->
  match o with
  | LNew x _ => y = x
  | LInit l => y = l
  | LAppend l x => y = x \/ exists xs, L !! l = Some xs /\ (y = l \/ last xs = Some y)
  | LRemove x => exists l xs1 xs2, L !! l = Some (xs1 ++ x :: xs2) /\ (y = default l (last xs1) \/ y = default l (head xs2))
  end.
Proof.
  intros (HD & HI & HX) HL E y Hy.
  assert (Heq : get_next h' y = get_next h y -> get_prev h' y = get_prev h y -> dom h' = dom h -> False).
  { intros E1 E2 E3. apply Hy. unfold get_next, get_prev in E1, E2.
    assert (y ∈ dom h' <-> y ∈ dom h) as Hiff by (by rewrite E3). rewrite !elem_of_dom in Hiff.
    destruct (h' !! y) as [[p n]|], (h !! y) as [[p2 n2]|]; cbn in *; [by subst| | |done].
    - destruct (proj1 Hiff) as [? ?]; [eauto|done]. - destruct (proj2 Hiff) as [? ?]; [eauto|done]. }
  destruct o as [x j|l|l x|x]; cbn [lexec] in E.
  - simplify_eq. destruct (decide (y = x)); [done|]. by rewrite lookup_insert_ne in Hy.
  - destruct HL as (HA & _). unfold klist_init in E. rewrite <- HD in HA.
    destruct (set_next_ok h l (Some l) HA) as (h1 & E1). rewrite E1 in E. cbn in E. apply set_next_spec in E1 as (N1 & P1 & D1).
    apply set_prev_spec in E as (P2 & N2 & D2). destruct (decide (y = l)); [done|]. destruct Heq; [| |congruence].
    + by rewrite N2, N1, decide_False. + by rewrite P2, P1, decide_False.
  - destruct HL as (HA & (U1 & U2) & [xs Ex]). rewrite <- HD in HA.
    assert (Hx : x ∉ l :: xs). { intros [->|Hx]%elem_of_cons; [congruence|by eapply U2]. }
    destruct (append_effect h l xs x (HI _ _ Ex) Hx HA) as (h2 & E' & D' & HN & HP). rewrite E in E'. simplify_eq.
    destruct (decide (y = x)) as [->|]; [by left|]. right. exists xs. split; [done|].
    destruct (decide (y = l)) as [->|]; [by left|]. right. destruct (decide (y = lastp l xs)) as [->|Hnl].
    + unfold lastp in *. destruct (last xs); done.
    + destruct Heq; [| |congruence]; [rewrite HN|rewrite HP]; by rewrite !decide_False.
  - destruct HL as (l & xs & Ex & Hx). apply elem_of_list_split in Hx as (xs1 & xs2 & ->).
    destruct (remove_effect h l xs1 x xs2 (HI _ _ Ex)) as (h2 & E' & D' & HN & HP). rewrite E in E'. simplify_eq.
    exists l, xs1, xs2. split; [done|]. destruct (decide (y = lastp l xs1)) as [->|]; [by left|].
    destruct (decide (y = default l (head xs2))) as [->|]; [by right|].
    destruct Heq; [| |congruence]; [rewrite HN|rewrite HP]; by rewrite !decide_False.
Qed.
Print Assumptions C38_klist_footprint.

Definition jnk : lnode := mkl (Some 77%positive) None.
Definition kdemo : list lop :=
  [LNew 1 jnk; LNew 2 jnk; LNew 3 jnk; LNew 4 jnk; LNew 5 jnk; LNew 6 jnk; LInit 1; LInit 2;
   LAppend 1 3; LAppend 2 4; LAppend 1 5; LAppend 1 6; LRemove 5; LAppend 2 5; LRemove 4]%positive.
Local Ltac solve_unused :=
  split; [reflexivity|];
  let l := fresh in let xs := fresh in let H := fresh in
  intros l xs H;
  let M := match type of H with ?m !! _ = _ => m end in
  assert (Forall (fun e : positive * list positive => True) (map_to_list M)) by (by apply Forall_true);
  apply elem_of_map_to_list in H; revert H; vm_compute; intros H;
  repeat (apply elem_of_cons in H as [H|H]; [simplify_eq; set_solver|]); set_solver.
Example C38_demo_legal : llegal_all ∅ ∅ kdemo.
Proof.
  cbn [llegal_all kdemo lspec llegal].
  repeat match goal with
  | |- _ /\ _ => split
  | |- unused _ _ => solve_unused
  | |- _ ∈ (_ : gset positive) => apply (bool_decide_unpack _); vm_compute; exact I
  | |- is_Some _ => vm_compute; eauto
  | |- True => exact I
  end.
  - exists 1%positive, [3; 5; 6]%positive. split; [vm_compute; reflexivity|set_solver].
  - exists 2%positive, [4; 5]%positive. split; [vm_compute; reflexivity|set_solver].
Qed.
Example C38_demo : exists h, lexec_all ∅ kdemo = Some h /\ foreach 9 h 1 = Some [3; 6]%positive /\
  rforeach 9 h 1 = Some [6; 3]%positive /\ foreach 9 h 2 = Some [5]%positive.
Proof. eexists. split_and!; vm_compute; reflexivity. Qed.

(** ** the singly linked list *)
(** [hd] heads the circular chain through [xs] *)
Fixpoint fchain (h : fheap) (a hd : positive) (xs : list positive) : Prop :=
  match xs with [] => h !! a = Some hd | x :: xs => h !! a = Some x /\ fchain h x hd xs end.
Definition is_flist (h : fheap) (hd : positive) (xs : list positive) : Prop := NoDup (hd :: xs) /\ fchain h hd hd xs.
Lemma fchain_frame h h' a hd xs : fchain h a hd xs -> (forall y, y ∈ a :: xs -> h' !! y = h !! y) -> fchain h' a hd xs.
Proof.
  revert a; induction xs as [|x xs IH]; intros a H F; cbn in *.
  - rewrite F by set_solver. done.
  - destruct H as [H1 H2]. split; [rewrite F by set_solver; done|]. apply IH; [done|]. intros; apply F; set_solver.
Qed.
Lemma fwalk_ok h hd xs fuel : is_flist h hd xs -> length xs <= fuel -> fwalk fuel h hd = Some xs.
Proof.
  intros [ND H] Hf. unfold fwalk.
  assert (forall a, fchain h a hd xs -> hd ∉ xs -> NoDup xs -> length xs <= fuel ->
    (n ← h !! a; fwalk_loop fuel h hd n) = Some xs) as G.
  { clear. revert fuel. induction xs as [|x xs IH]; intros fuel a H Hn ND Hf; cbn in H.
    - rewrite H. cbn. destruct fuel; cbn; by rewrite decide_True.
    - destruct H as [-> H]. cbn in Hf. destruct fuel as [|fuel]; [lia|]. cbn. rewrite decide_False by set_solver.
      apply NoDup_cons in ND as [_ ND]. specialize (IH fuel x H ltac:(set_solver) ND ltac:(lia)).
      destruct (h !! x) as [n|]; [|done]. cbn in *. by rewrite IH. }
  apply NoDup_cons in ND as [N1 N2]. by apply G.
Qed.

(** C52: the new item comes first - kforward_list_append does not append at the end *)
Theorem C52_forward_add h hd xs x : is_flist h hd xs -> x ∉ hd :: xs ->
  exists h', kforward_append h hd x = Some h' /\ is_flist h' hd (x :: xs) /\
    forall y, y <> x -> y <> hd -> h' !! y = h !! y.
Proof.
  intros [ND H] Hx. assert (exists n, h !! hd = Some n) as [n En] by (destruct xs; cbn in H; naive_solver).
  unfold kforward_append. rewrite En. cbn. eexists. split; [done|]. split.
  - split. { apply NoDup_cons in ND as [N1 N2]. apply not_elem_of_cons in Hx as [X1 X2].
      constructor; [set_solver|]. by constructor. }
    cbn. split; [by rewrite lookup_insert|]. apply not_elem_of_cons in Hx as [X1 X2].
    destruct xs as [|y xs]; cbn in *.
    + rewrite lookup_insert_ne, lookup_insert by done. congruence.
    + destruct H as [H1 H2]. split; [rewrite lookup_insert_ne, lookup_insert by done; congruence|].
      eapply fchain_frame; [exact H2|]. intros z Hz. apply NoDup_cons in ND as [N1 N2].
      rewrite !lookup_insert_ne; [done| |]; set_solver.
  - intros y H1 H2. by rewrite !lookup_insert_ne.
Qed.
Print Assumptions C52_forward_add.
Theorem C52_forward_append_refuted :
  ~ (forall h hd xs x h', is_flist h hd xs -> x ∉ hd :: xs -> kforward_append h hd x = Some h' ->
       fwalk (S (length xs)) h' hd = Some (xs ++ [x])).
Proof.
  intros H.
  specialize (H (<[1:=2]> (<[2:=1]> ∅))%positive 1%positive [2%positive] 3%positive
                (<[1:=3]> (<[3:=2]> (<[1:=2]> (<[2:=1]> ∅))))%positive).
  assert (Hf : is_flist (<[1:=2]> (<[2:=1]> ∅))%positive 1%positive [2%positive]).
  { split; [apply (bool_decide_unpack _); vm_compute; exact I|]. by vm_compute. }
  specialize (H Hf ltac:(set_solver) eq_refl). vm_compute in H. congruence.
Qed.
Print Assumptions C52_forward_append_refuted.

Theorem C52_forward_remove h hd xs x fuel : is_flist h hd xs -> length xs < fuel ->
  exists h', kforward_remove fuel h hd x = Some (h', bool_decide (x ∈ xs)) /\
    is_flist h' hd (filter (fun y => y <> x) xs) /\ (x ∉ xs -> h' = h).
Proof.
  intros [ND H] Hf. unfold kforward_remove.
  assert (forall a, NoDup (a :: xs) -> hd ∉ xs -> fchain h a hd xs -> length xs < fuel ->
    exists h', kforward_remove_loop fuel h hd x a = Some (h', bool_decide (x ∈ xs)) /\
      fchain h' a hd (filter (fun y => y <> x) xs) /\ (x ∉ xs -> h' = h) /\ (forall y, y ∉ a :: xs -> h' !! y = h !! y)) as G.
  { clear. revert fuel. induction xs as [|z xs IH]; intros fuel a ND Hn H Hf; (destruct fuel as [|fuel]; [cbn in Hf; lia|]); cbn in H.
    - cbn. rewrite H. cbn. rewrite decide_True by done. exists h. split_and!; done.
    - destruct H as [H1 H2]. cbn [kforward_remove_loop]. rewrite H1. cbn [mbind option_bind]. rewrite decide_False by set_solver.
      pose proof ND as [NDa ND']%NoDup_cons. pose proof ND' as [NDz ND2]%NoDup_cons.
      destruct (decide (z = x)) as [->|Hne].
      + assert (exists n, h !! x = Some n) as [n En] by (destruct xs; cbn in H2; naive_solver).
        rewrite En. cbn [mbind option_bind]. eexists. split_and!.
        * rewrite bool_decide_true by set_solver. done.
        * rewrite filter_cons_False by naive_solver. rewrite filter_ne_notin by done.
          destruct xs as [|w xs]; cbn in *.
          -- rewrite lookup_insert. congruence.
          -- destruct H2 as [E2 H2]. rewrite lookup_insert. split; [congruence|]. eapply fchain_frame; [exact H2|].
             intros y Hy. rewrite lookup_insert_ne; [done|]. set_solver.
        * set_solver.
        * intros y Hy. rewrite lookup_insert_ne; [done|]. set_solver.
      + destruct (IH fuel z ND' ltac:(set_solver) H2 ltac:(cbn in Hf; lia)) as (h' & E & HC & HU & HF).
        rewrite E. exists h'. split_and!.
        * f_equal. f_equal. apply bool_decide_ext. set_solver.
        * rewrite filter_cons_True by done. cbn. split; [|done]. by rewrite HF.
        * intros. apply HU. set_solver.
        * intros y Hy. apply HF. set_solver. }
  pose proof ND as [N1 N2]%NoDup_cons. destruct (G hd ND N1 H Hf) as (h' & E & HC & HU & _).
  exists h'. split; [done|]. split; [|done]. split; [|done].
  constructor; [|by apply NoDup_filter]. intros Hc%elem_of_list_filter. naive_solver.
Qed.
Print Assumptions C52_forward_remove.

(** C52: an initialised list is empty; the walk of a list visits exactly its items, in order *)
Theorem C52_forward_init h hd : is_flist (kforward_init h hd) hd [] /\ forall y, y <> hd -> kforward_init h hd !! y = h !! y.
Proof.
  unfold kforward_init. split; [split; [apply NoDup_singleton|cbn; by rewrite lookup_insert]|]. intros y Hy. by rewrite lookup_insert_ne.
Qed.
Theorem C52_forward_walk h hd xs fuel : is_flist h hd xs -> length xs <= fuel -> fwalk fuel h hd = Some xs.
Proof. apply fwalk_ok. Qed.
(** C38: a node cleared after its removal has no links (the test "next == NULL" of the callers works); no other node changes *)
Theorem C38_clear h x n : h !! x = Some n -> exists h', klist_clear h x = Some h' /\ h' !! x = Some (mkl None None) /\ forall y, y <> x -> h' !! y = h !! y.
Proof.
  intros H. unfold klist_clear. rewrite H. cbn. eexists. split; [reflexivity|]. split; [by rewrite lookup_insert|]. intros y Hy. by rewrite lookup_insert_ne.
Qed.
