(** Invariant of the debugging allocator, continued. *)
From Verif Require Import DbgAllocModel DbgAllocSpec DbgAllocHeap DbgAllocProof.
Local Open Scope Z_scope.

Section M.
Context (delay : bool) (nb : nat) (hash : Z -> nat).
Notation own := (own hash).
Notation I := (I delay hash).

(** * The bucket lists *)
Lemma sublist_NoDup {A} (l k : list A) : NoDup k -> l `sublist_of` k -> NoDup l.
Proof.
  intros H Hs. induction Hs as [|x l k Hs IH|x l k Hs IH]; [done| |].
  - apply NoDup_cons in H as [H1 H2]. apply NoDup_cons. split; [|by apply IH]. intros Hx. apply H1. eapply elem_of_submseteq; [exact Hx|]. by apply sublist_submseteq.
  - apply NoDup_cons in H as [_ H2]. by apply IH.
Qed.
Lemma lookup_rec_Some l p r : lookup_rec l p = Some r -> r ∈ l /\ ru r = p.
Proof.
  unfold lookup_rec. destruct (list_find _ l) as [[i x]|] eqn:E; cbn; [|done]. intros [= <-]. apply list_find_Some in E as (E & Hp & _).
  split; [by eapply elem_of_list_lookup_2|done].
Qed.
Lemma lookup_rec_None l p r : lookup_rec l p = None -> r ∈ l -> ru r <> p.
Proof.
  unfold lookup_rec. destruct (list_find _ l) as [[i x]|] eqn:E; cbn; [done|]. intros _ Hr. apply list_find_None in E. rewrite Forall_forall in E. by apply E.
Qed.
Lemma lookup_rec_nodup l r : NoDup (ru <$> l) -> r ∈ l -> lookup_rec l (ru r) = Some r.
Proof.
  intros Hn Hr. destruct (lookup_rec l (ru r)) as [x|] eqn:E; [|by destruct (lookup_rec_None _ _ _ E Hr)].
  apply lookup_rec_Some in E as [Hx E]. f_equal. apply elem_of_list_lookup in Hx as [i Hi], Hr as [j Hj].
  assert (i = j); [|congruence]. eapply (NoDup_lookup (ru <$> l)); [done|by rewrite list_lookup_fmap, Hi|]. rewrite list_lookup_fmap, Hj. cbn. congruence.
Qed.
Lemma unlink_elem l p x : NoDup (ru <$> l) -> x ∈ unlink l p <-> x ∈ l /\ ru x <> p.
Proof.
  intros Hn. unfold unlink. destruct (list_find _ l) as [[i r]|] eqn:E.
  - apply list_find_Some in E as (E & Hp & _). rewrite <-(take_drop_middle l i r E) in Hn |- * at 2. rewrite delete_take_drop.
    rewrite fmap_app, NoDup_app in Hn. cbn in Hn. destruct Hn as (_ & H1 & H2). apply NoDup_cons in H2 as [H2 _].
    rewrite !elem_of_app, elem_of_cons. split.
    + intros [H|H]; (split; [by auto|]); intros E2.
      * apply (H1 (ru x)); [by apply elem_of_list_fmap_1|]. rewrite E2, <-Hp. apply elem_of_list_here.
      * apply H2. rewrite Hp, <-E2. by apply elem_of_list_fmap_1.
    + intros [[H|[->|H]] Hx]; auto. done.
  - apply list_find_None in E. rewrite Forall_forall in E. split; [|by intros []]. intros H. split; [done|]. by apply E.
Qed.
Lemma unlink_nodup l p : NoDup (ru <$> l) -> NoDup (ru <$> unlink l p).
Proof.
  intros H. unfold unlink. destruct (list_find _ l) as [[i r]|]; [|done]. eapply sublist_NoDup; [done|]. apply fmap_sublist, sublist_delete.
Qed.

(** * Transitions *)
Lemma I_retire s v r : I s v -> r ∈ tab s (hash (ru r)) -> (forall t, ~ held (thr s t) (ru r)) -> dmp s = DOff ->
  I (retire delay (set_tab (upd (tab s) (hash (ru r)) (unlink (tab s (hash (ru r))) (ru r))) s) (hash (ru r)) r) (kill delay (ru r) v).
Proof.
  intros HI Hr Hh Hoff. pose proof HI as HI0. pose proof (own_tab hash s v r Hr) as Hown.
  assert (Hvl : vl v (ru r) = Some (rn r, true)). { apply (i_live _ _ _ _ HI). left. by destruct r. }
  assert (Hn : 0 < rn r). { assert (16 < rn r + 16) by (by eapply (i_size _ _ _ _ HI); [exact Hown|]). lia. }
  assert (Hnh : forall y t r', inr r y -> hid (thr s t) = Some r' -> ~ inr r' y).
  { intros y t r' Hy H Hy'. destruct (hid_sep _ _ _ _ _ _ _ _ _ y HI H Hy' Hown) as [E _]; [unfold inr in Hy; lia|done]. }
  destruct HI. set (h := hash (ru r)) in *.
  assert (Hin : forall x i, x ∈ upd (tab s) h (unlink (tab s h) (ru r)) i <-> x ∈ tab s i /\ ru x <> ru r).
  { intros x i. unfold upd. case_decide as E; [subst i; by apply unlink_elem|]. split; [|by intros []]. intros H. split; [done|].
    intros E2. apply i_ht in H. rewrite E2 in H. by apply E. }
  assert (Hnt : forall i, NoDup (ru <$> upd (tab s) h (unlink (tab s h) (ru r)) i)).
  { intros i. unfold upd. case_decide; [by apply unlink_nodup|apply i_nt]. }
  assert (Hlive : forall u n, upd (vl v) (ru r) None u = Some (n, true) <->
      mkr u n ∈ upd (tab s) h (unlink (tab s h) (ru r)) (hash u) \/ exists t z, thr s t = TIns (mkr u n) z true).
  { intros u n. rewrite Hin. cbn [ru]. destruct (decide (u = ru r)) as [->|Hu].
    - rewrite upd_eq. split; [done|]. intros [[_ ?]|(t & z & H)]; [done|]. destruct (Hh t). by rewrite H.
    - rewrite upd_ne by done. rewrite i_live. naive_solver. }
  assert (Hneg : forall u n, upd (vl v) (ru r) None u = Some (n, false) -> 0 <= n).
  { intros u n. unfold upd. case_decide; [done|]. apply i_neg. }
  assert (Hlibc : forall a l, (exists n, upd (vl v) (ru r) None a = Some (n, false) /\ l = Z.max 1 n /\ 0 <= n) <-> own s v WLibc a l).
  { intros a l. cbn. unfold upd. case_decide as E; [|done]. subst a. rewrite Hvl. split; by intros (n & ? & _). }
  assert (Hcopy : forall t p x, thr s t = TCopy p x -> p <> 0 /\ upd (vl v) (ru r) None p <> None /\ (forall t', held (thr s t') p -> t' = t) /\ dmp s = DOff).
  { intros t p x H. destruct (i_copy _ _ _ H) as (H1 & H2 & H3 & H4). split_and!; try done. rewrite upd_ne; [done|]. intros ->. apply (Hh t). rewrite H. by left. }
  unfold retire, kill. rewrite Hvl. destruct delay eqn:Ed.
  - assert (Hown' : forall w a l, own (mks (fill (ru r) (rn r) (λ _, Some 0xee) (mem s)) (blk s) (upd (tab s) h (unlink (tab s h) (ru r))) (d1 s)
        (upd (d2 s) h (r :: d2 s h)) (thr s) (started s) (dmp s) (hist s)) (mkv (put (ru r) (rn r) (λ _, Some 0xee) (vm v)) (upd (vl v) (ru r) None)) w a l <->
        own s v w a l /\ a <> ru r - 8 \/ (w = WDead /\ a = ru r - 8 /\ l = rn r + 16)).
    { intros w a l. destruct w as [| |t|]; cbn [own DbgAllocProof.own tab d1 d2 thr vl].
      - rewrite Hin. cbn [ru]. split; [intros [H1 H2]; left; split; [done|lia]|]. intros [[H1 H2]|[? _]]; [|done]. split; [done|lia].
      - assert (E : forall x i, x ∈ d1 s i ++ upd (d2 s) h (r :: d2 s h) i <-> x ∈ d1 s i ++ d2 s i \/ (x = r /\ i = h)).
        { intros x i. unfold upd. case_decide as E; [subst i; rewrite !elem_of_app, elem_of_cons; naive_solver|naive_solver]. }
        rewrite E. split.
        + intros [H|[E2 _]].
          * left. split; [exact H|]. intros ->. by destruct (own_role _ _ _ _ WDead WTab _ _ _ HI0 H Hown).
          * right. rewrite <-E2. cbn. split_and!; [done|lia|lia].
        + intros [[H _]|(_ & -> & ->)]; [by left|]. right. replace (ru r - 8 + 8) with (ru r) by lia. replace (rn r + 16 - 16) with (rn r) by lia. by destruct r.
      - split.
        + intros H. left. split; [exact H|]. intros ->. by destruct (own_role _ _ _ _ (WPriv t) WTab _ _ _ HI0 H Hown).
        + intros [[H _]|(? & _)]; done.
      - rewrite Hlibc. split.
        + intros H. left. split; [exact H|]. intros ->. by destruct (own_role _ _ _ _ WLibc WTab _ _ _ HI0 H Hown).
        + intros [[H _]|(? & _)]; done. }
    constructor; cbn [mem blk tab d1 d2 thr started dmp hist set_tab vm vl]; try done.
    + eapply ho_mem; [eapply (ho_move _ _ _ _ WTab); [exact i_heap|exact Hown|exact Hown']|]. intros y. unfold fill. case_decide as Hy; [|done]. split; [|done]. intros _.
      eapply (mapped _ hash s v); [exact HI0|exact Hown|lia].
    + intros i x [H _]%Hin. by apply i_ht.
    + intros i x. unfold upd. case_decide as E; [|apply i_hd]. subst i. rewrite elem_of_app, elem_of_cons. intros [H|[->|H]]; [| |]; try (apply i_hd; rewrite elem_of_app; by auto). done.
    + intros i. unfold upd. case_decide as E; [|apply i_nd]. subst i.
      assert (Ep : d1 s h ++ r :: d2 s h ≡ₚ r :: d1 s h ++ d2 s h) by (by rewrite Permutation_middle). rewrite Ep. cbn. apply NoDup_cons. split; [|apply i_nd].
      intros (x & E1 & E2)%elem_of_list_fmap. pose proof (i_hd _ _ E2) as E3. rewrite <-E3 in E2. pose proof (own_dead hash s v x E2) as Ho. rewrite <-E1 in Ho.
      by destruct (own_role _ _ _ _ _ _ _ _ _ HI0 Ho Hown).
    + intros w b l Ho Hw. apply Hown' in Ho as [[Ho _]|(-> & -> & ->)]; [by eapply i_size|]. by eapply i_size.
    + intros t r' y H Hy. rewrite put_fill. assert (Hy2 : ~ inr r y) by (intros Hy2; by eapply Hnh). rewrite !fill_out by (unfold inr in Hy2; lia). by eapply i_hid.
    + intros y Hy. apply fill_ext; [done|]. by apply i_agree.
    + intros Hs Hd. destruct (i_st Hs Hd) as [Hq2 _]. destruct (Hq2 h) as [E _]. rewrite E in Hr. by apply not_elem_of_nil in Hr.
    + intros i p c Hd. congruence.
    + intros i p c sv Hd. congruence.
  - assert (Hown' : forall w a l, own (release (set_tab (upd (tab s) h (unlink (tab s h) (ru r))) s) r) (mkv (put (ru r - 8) (rn r + 16) (λ _, None) (vm v)) (upd (vl v) (ru r) None)) w a l <->
        own s v w a l /\ a <> ru r - 8).
    { intros w a l. unfold release. destruct w as [| |t|]; cbn [own DbgAllocProof.own tab d1 d2 thr vl set_tab set_mb].
      - rewrite Hin. cbn [ru]. split; intros [H1 H2]; (split; [done|lia]).
      - split; [|by intros []]. intros H. split; [exact H|]. intros ->. by destruct (own_role _ _ _ _ WDead WTab _ _ _ HI0 H Hown).
      - split; [|by intros []]. intros H. split; [exact H|]. intros ->. by destruct (own_role _ _ _ _ (WPriv t) WTab _ _ _ HI0 H Hown).
      - rewrite Hlibc. split; [|by intros []]. intros H. split; [exact H|]. intros ->. by destruct (own_role _ _ _ _ WLibc WTab _ _ _ HI0 H Hown). }
    constructor; unfold release; cbn [mem blk tab d1 d2 thr started dmp hist set_tab set_mb vm vl]; try done.
    + eapply (ho_del _ _ _ _ WTab); [exact i_heap|exact Hown|exact Hown'].
    + intros i x [H _]%Hin. by apply i_ht.
    + intros w b l Ho Hw. apply Hown' in Ho as [Ho _]. by eapply i_size.
    + intros t r' y H Hy. rewrite put_fill. assert (Hy2 : ~ inr r y) by (intros Hy2; by eapply Hnh). unfold unmap. rewrite !fill_out by (unfold inr in Hy2; lia). by eapply i_hid.
    + intros y Hy. apply fill_ext; [done|]. by apply i_agree.
    + intros Hs Hd. destruct (i_st Hs Hd) as [Hq2 _]. destruct (Hq2 h) as [E _]. rewrite E in Hr. by apply not_elem_of_nil in Hr.
    + intros i p c Hd. congruence.
    + intros i p c sv Hd. congruence.
Qed.
(** a block of the C library for the program *)
Lemma I_libc_alloc s v a n g : I s v -> 0 <= n -> 0 < a -> (forall y, a <= y < a + Z.max 1 n -> mem s y = None) -> (forall i, g i <> None) ->
  I (libc_alloc s a n g) (mkv (put a (Z.max 1 n) g (vm v)) (upd (vl v) a (Some (n, false)))).
Proof.
  intros HI Hn Ha Hf Hg. pose proof HI as HI0.
  assert (Hsep : forall w b l, own s v w b l -> b + l <= a \/ a + Z.max 1 n <= b) by (intros; eapply fresh_sep; [done..|lia]).
  assert (Hpos : forall w b l, own s v w b l -> 0 < b /\ 0 < l).
  { intros w b l Ho. eapply (ho_pos _ _ _ (i_heap _ _ _ _ HI)). by eapply (ho_own _ _ _ (i_heap _ _ _ _ HI)). }
  destruct HI.
  assert (Hown' : forall w b l, own (libc_alloc s a n g) (mkv (put a (Z.max 1 n) g (vm v)) (upd (vl v) a (Some (n, false)))) w b l <->
     own s v w b l \/ (w = WLibc /\ b = a /\ l = Z.max 1 n)).
  { intros w b l. unfold libc_alloc. destruct w; cbn [own DbgAllocProof.own tab d1 d2 thr set_mb vl]; [naive_solver..|].
    destruct (decide (b = a)) as [->|Hb].
    - rewrite upd_eq. split.
      + intros (n' & [= <-] & -> & _). by right.
      + intros [H|(_ & _ & ->)]; [|by exists n]. exfalso. specialize (Hsep WLibc _ _ H). specialize (Hpos WLibc _ _ H). lia.
    - rewrite upd_ne by done. naive_solver. }
  unfold libc_alloc. constructor; cbn [mem blk tab d1 d2 thr started dmp hist set_mb vm vl]; try done.
  - eapply (ho_add _ _ _ _ WLibc); [exact i_heap|exact Hown'|done|lia|done|done].
  - intros w b l [Ho|(-> & _)]%Hown' Hw; [by eapply i_size|done].
  - intros t r y H Hy. rewrite put_fill. pose proof (own_priv hash s v t r (prv_hid _ _ H)) as Ho. specialize (Hsep _ _ _ Ho).
    rewrite !fill_out by (unfold inr in Hy; lia). by eapply i_hid.
  - intros y Hy. apply fill_ext; [done|]. by apply i_agree.
  - intros u n'. destruct (decide (u = a)) as [->|Hu].
    + rewrite upd_eq. split; [done|]. intros [H|(t & z & H)]; exfalso.
      * pose proof (own_tab hash s v (mkr a n') H) as Ho. pose proof (i_size _ _ _ Ho ltac:(done)) as Hs. cbn [ru rn] in *. specialize (Hsep _ _ _ Ho). lia.
      * pose proof (own_priv hash s v t (mkr a n')) as Ho. rewrite H in Ho. specialize (Ho eq_refl). pose proof (i_size _ _ _ Ho ltac:(done)) as Hs. cbn [ru rn] in *. specialize (Hsep _ _ _ Ho). lia.
    + rewrite upd_ne by done. apply i_live.
  - intros u n'. unfold upd. case_decide; [|apply i_neg]. by intros [= <-].
  - intros t p r H. destruct (i_copy _ _ _ H) as (H1 & H2 & H3 & H4). split_and!; try done. unfold upd. by case_decide.
Qed.
Lemma I_libc_free s v p n : I s v -> vl v p = Some (n, false) -> (forall t, ~ held (thr s t) p) ->
  I (set_mb (unmap p (Z.max 1 n) (mem s)) (upd (blk s) p None) s) (kill delay p v).
Proof.
  intros HI Hvl Hh. pose proof HI as HI0. destruct (live_own _ _ _ _ _ _ _ HI Hvl) as [Hown Hn]. destruct HI.
  assert (Hown' : forall w b l, own (set_mb (unmap p (Z.max 1 n) (mem s)) (upd (blk s) p None) s) (kill delay p v) w b l <-> own s v w b l /\ b <> p).
  { intros w b l. unfold kill. rewrite Hvl. destruct w as [| |t|]; cbn [own DbgAllocProof.own tab d1 d2 thr set_mb vl].
    - split; [|by intros []]. intros H. split; [exact H|]. intros ->. by destruct (own_role _ _ _ _ WTab WLibc _ _ _ HI0 H Hown).
    - split; [|by intros []]. intros H. split; [exact H|]. intros ->. by destruct (own_role _ _ _ _ WDead WLibc _ _ _ HI0 H Hown).
    - split; [|by intros []]. intros H. split; [exact H|]. intros ->. by destruct (own_role _ _ _ _ (WPriv t) WLibc _ _ _ HI0 H Hown).
    - unfold upd. case_decide as E; [|naive_solver]. split; [by intros (? & ? & _)|]. by intros [_ ?]. }
  pose proof Hown' as Hown2. unfold kill in Hown2 |- *. rewrite Hvl in Hown2 |- *.
  constructor; cbn [mem blk tab d1 d2 thr started dmp hist set_mb vm vl]; try done.
  - eapply (ho_del _ _ _ _ WLibc); [exact i_heap|exact Hown|exact Hown2].
  - intros w b l [Ho _]%Hown2 Hw. by eapply i_size.
  - intros t r y H Hy. rewrite put_fill. unfold unmap. assert (Hy2 : ~ (p <= y < p + Z.max 1 n)).
    { intros Hy2. by destruct (hid_sep _ _ _ _ _ _ _ _ _ y HI0 H Hy Hown Hy2). }
    rewrite !fill_out by done. by eapply i_hid.
  - intros y Hy. apply fill_ext; [done|]. by apply i_agree.
  - intros u m. unfold upd. case_decide as E; [|apply i_live]. subst u. split; [done|]. intros H. apply i_live in H. congruence.
  - intros u m. unfold upd. case_decide; [done|apply i_neg].
  - intros t q r H. destruct (i_copy _ _ _ H) as (H1 & H2 & H3 & H4). split_and!; try done. rewrite upd_ne; [done|]. intros ->. apply (Hh t). rewrite H. by left.
Qed.
(** line 245-246: the new block is given back *)
Lemma I_release s v t p r : I s v -> thr s t = TCopy p r -> I (set_thr (upd (thr s) t TIdle) (release s r)) v.
Proof.
  intros HI Ht. pose proof HI as HI0. assert (Hh : hid (thr s t) = Some r) by (by rewrite Ht). pose proof (own_priv hash s v t r (prv_hid _ _ Hh)) as Hown. destruct HI.
  assert (Hown' : forall w b l, own (set_thr (upd (thr s) t TIdle) (release s r)) v w b l <-> own s v w b l /\ b <> ru r - 8).
  { intros w b l. unfold release. destruct w as [| |t'|]; cbn [own DbgAllocProof.own tab d1 d2 thr set_mb set_thr vl].
    - split; [|by intros []]. intros H. split; [exact H|]. intros ->. by destruct (own_role _ _ _ _ WTab (WPriv t) _ _ _ HI0 H Hown).
    - split; [|by intros []]. intros H. split; [exact H|]. intros ->. by destruct (own_role _ _ _ _ WDead (WPriv t) _ _ _ HI0 H Hown).
    - unfold upd. case_decide as E.
      + subst t'. split; [done|]. intros [H Hn]. rewrite Ht in H. cbn in H. injection H as ->. cbn in Hn. lia.
      + split; [|by intros []]. intros H. split; [exact H|]. intros ->. destruct (own_role _ _ _ _ (WPriv t') (WPriv t) _ _ _ HI0 H Hown). congruence.
    - split; [|by intros []]. intros H. split; [exact H|]. intros ->. by destruct (own_role _ _ _ _ WLibc (WPriv t) _ _ _ HI0 H Hown). }
  unfold release. constructor; cbn [mem blk tab d1 d2 thr started dmp hist set_mb set_thr vm vl]; try done.
  - eapply (ho_del _ _ _ _ (WPriv t)); [exact i_heap|exact Hown|exact Hown'].
  - intros w b l [Ho _]%Hown' Hw. by eapply i_size.
  - intros t' r' y H Hy. unfold upd in H. case_decide as Et; [done|]. unfold unmap. assert (Hy2 : ~ inr r y).
    { intros Hy2. destruct (hid_sep _ _ _ _ _ _ _ _ _ y HI0 H Hy Hown); [unfold inr in Hy2; lia|]. congruence. }
    rewrite !fill_out by (unfold inr in Hy2; lia). by eapply i_hid.
  - intros y Hy. unfold unmap. destruct (decide (inr r y)) as [Hi|Hi].
    + rewrite fill_in by (unfold inr in Hi; lia). symmetry. by eapply i_hid.
    + rewrite fill_out by (unfold inr in Hi; lia). apply i_agree. intros t' r' H. destruct (decide (t' = t)) as [->|Hn]; [congruence|]. apply (Hy t'). by rewrite upd_ne.
  - intros u n. rewrite i_live. apply or_iff_compat_l. split; intros (t' & z & H); exists t', z; unfold upd in *; case_decide; try done. congruence.
  - intros t' r' z. unfold upd. case_decide; [done|apply i_z].
  - intros t' q r'. unfold upd at 1. case_decide as Et; [done|]. intros H. destruct (i_copy _ _ _ H) as (H1 & H2 & H3 & H4). split_and!; try done.
    intros t2. unfold upd. case_decide; [done|apply H3].
  - intros Hs Hd. destruct (i_st Hs Hd) as [_ Hq]. by rewrite (Hq t) in Ht.
  - intros i q c Hd. destruct (i_quietd _ _ _ Hd) as [_ Hq]. by rewrite (Hq t) in Ht.
Qed.
Lemma I_poke s v x b : I s v -> vm v x <> None -> I (set_mb (setb x b (mem s)) (blk s) s) (mkv (put x 1 (λ _, Some b) (vm v)) (vl v)).
Proof.
  intros HI Hx. pose proof HI as HI0. destruct HI.
  assert (Hnh : forall t r, hid (thr s t) = Some r -> ~ inr r x). { intros t r H Hy. by destruct (i_hid _ _ _ H Hy). }
  assert (Hown' : forall w a l, own (set_mb (setb x b (mem s)) (blk s) s) (mkv (put x 1 (λ _, Some b) (vm v)) (vl v)) w a l <-> own s v w a l) by (intros []; done).
  unfold setb. constructor; cbn [mem blk tab d1 d2 thr started dmp hist set_mb vm vl]; try done.
  - eapply ho_iff; [exact Hown'|]. eapply ho_mem; [done|]. intros y. unfold fill. case_decide as Hy; [|done]. split; [|done]. intros _.
    replace y with x by lia. by rewrite i_agree.
  - intros t r y H Hy. rewrite put_fill. assert (y <> x) by (intros ->; by eapply Hnh). rewrite !fill_out by lia. by eapply i_hid.
  - intros y Hy. apply fill_ext; [done|]. by apply i_agree.
Qed.
(** the sweeper *)
Lemma I_drop s v i r l : I s v -> d1 s i = r :: l ->
  I (mks (unmap (ru r - 8) (rn r + 16) (mem s)) (upd (blk s) (ru r - 8) None) (tab s) (upd (d1 s) i l) (d2 s) (thr s) (started s) (dmp s) (hist s))
    (mkv (put (ru r - 8) (rn r + 16) (λ _, None) (vm v)) (vl v)).
Proof.
  intros HI Hd. pose proof HI as HI0. assert (Hr : r ∈ d1 s i ++ d2 s i) by (rewrite Hd; apply elem_of_list_here).
  assert (Ei : hash (ru r) = i) by (by eapply i_hd). pose proof (own_dead hash s v r) as Hown. rewrite Ei in Hown. specialize (Hown Hr).
  assert (Hnh : forall y t r', inr r y -> hid (thr s t) = Some r' -> ~ inr r' y).
  { intros y t r' Hy H Hy'. destruct (hid_sep _ _ _ _ _ _ _ _ _ y HI H Hy' Hown) as [E _]; [unfold inr in Hy; lia|done]. }
  destruct HI.
  assert (Hin : forall x j, x ∈ upd (d1 s) i l j ++ d2 s j <-> x ∈ d1 s j ++ d2 s j /\ ru x <> ru r).
  { intros x j. unfold upd. case_decide as E.
    - subst j. pose proof (i_nd i) as Hn. rewrite Hd in Hn |- *. cbn in Hn. apply NoDup_cons in Hn as [Hn _]. rewrite <-app_comm_cons, elem_of_cons. split.
      + intros H. split; [by right|]. intros E. apply Hn. rewrite <-E. by apply elem_of_list_fmap_1.
      + by intros [[->|H] Hx].
    - split; [|by intros []]. intros H. split; [done|]. intros E2. apply i_hd in H. rewrite E2 in H. congruence. }
  assert (Hown' : forall w a b, own (mks (unmap (ru r - 8) (rn r + 16) (mem s)) (upd (blk s) (ru r - 8) None) (tab s) (upd (d1 s) i l) (d2 s) (thr s) (started s) (dmp s) (hist s))
      (mkv (put (ru r - 8) (rn r + 16) (λ _, None) (vm v)) (vl v)) w a b <-> own s v w a b /\ a <> ru r - 8).
  { intros w a b. destruct w as [| |t|]; cbn [own DbgAllocProof.own tab d1 d2 thr vl].
    - split; [|by intros []]. intros H. split; [exact H|]. intros ->. by destruct (own_role _ _ _ _ WTab WDead _ _ _ HI0 H Hown).
    - rewrite Hin. cbn [ru]. split; intros [H1 H2]; (split; [done|lia]).
    - split; [|by intros []]. intros H. split; [exact H|]. intros ->. by destruct (own_role _ _ _ _ (WPriv t) WDead _ _ _ HI0 H Hown).
    - split; [|by intros []]. intros H. split; [exact H|]. intros ->. by destruct (own_role _ _ _ _ WLibc WDead _ _ _ HI0 H Hown). }
  constructor; cbn [mem blk tab d1 d2 thr started dmp hist vm vl]; try done.
  - eapply (ho_del _ _ _ _ WDead); [exact i_heap|exact Hown|exact Hown'].
  - intros j x [H _]%Hin. by apply i_hd.
  - intros j. eapply sublist_NoDup; [apply (i_nd j)|]. apply fmap_sublist. unfold upd. case_decide as E; [|done]. subst j. rewrite Hd. cbn. by constructor.
  - intros w a b [Ho _]%Hown' Hw. by eapply i_size.
  - intros t r' y H Hy. rewrite put_fill. assert (Hy2 : ~ inr r y) by (intros Hy2; by eapply Hnh). unfold unmap. rewrite !fill_out by (unfold inr in Hy2; lia). by eapply i_hid.
  - intros y Hy. apply fill_ext; [done|]. by apply i_agree.
  - intros Hs Ho. destruct (i_st Hs Ho) as [Hq _]. destruct (Hq i) as (_ & E & _). congruence.
  - intros j p c Ho. destruct (i_quietd _ _ _ Ho) as [Hq _]. destruct (Hq i) as (_ & E & _). congruence.
  - intros E j. destruct (i_nodelay E i). congruence.
Qed.
Lemma I_rotate s v i : I s v -> d1 s i = [] -> I (mks (mem s) (blk s) (tab s) (upd (d1 s) i (d2 s i)) (upd (d2 s) i []) (thr s) (started s) (dmp s) (hist s)) v.
Proof.
  intros HI Hd. destruct HI.
  assert (E : forall j, upd (d1 s) i (d2 s i) j ++ upd (d2 s) i [] j = d1 s j ++ d2 s j).
  { intros j. unfold upd. case_decide as E; [|done]. subst j. rewrite Hd. by rewrite app_nil_r. }
  assert (Hq : quiet s -> quiet (mks (mem s) (blk s) (tab s) (upd (d1 s) i (d2 s i)) (upd (d2 s) i []) (thr s) (started s) (dmp s) (hist s))).
  { intros [Hq1 Hq2]. split; [|done]. intros j. cbn. unfold upd. case_decide; [|apply Hq1]. subst j. destruct (Hq1 i) as (? & ? & ?). by split_and!. }
  assert (Hown' : forall w a l, own (mks (mem s) (blk s) (tab s) (upd (d1 s) i (d2 s i)) (upd (d2 s) i []) (thr s) (started s) (dmp s) (hist s)) v w a l <-> own s v w a l).
  { intros w a l. destruct w; cbn [own DbgAllocProof.own tab d1 d2 thr]; try done. by rewrite E. }
  constructor; cbn [mem blk tab d1 d2 thr started dmp hist]; try done; try (intros j; rewrite E; by auto).
  - by eapply ho_iff.
  - intros w a l. rewrite Hown'. apply i_size.
  - intros Hs Ho. by apply Hq, i_st.
  - intros j p c Ho. eapply Hq, i_quietd. exact Ho.
  - intros Ey j. unfold upd. destruct (i_nodelay Ey i), (i_nodelay Ey j). case_decide; done.
Qed.
End M.
