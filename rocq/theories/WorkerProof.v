(** Invariant of the worker pool. *)
From Verif Require Import WorkerModel.
Local Open Scope Z_scope.

Record cell := mkc { ca : positive; cj : nat; cw : bool; ch : bool }.
Fixpoint chain (h : gmap positive param) (p : option positive) (l : list cell) : Prop :=
  match l with
  | [] => p = None
  | c :: l => p = Some (ca c) /\ exists nx, h !! ca c = Some (mkp nx (cj c) (cw c) (ch c)) /\ chain h nx l
  end.
Definition tail_of (l : list cell) : option positive := ca <$> list.last l.
(** a thread that still counts in worker->worker *)
Definition working (p : wpc) : bool := match p with WLoop | WRun _ _ | WCb _ _ => true | _ => false end.
Definition present (p : wpc) : bool := match p with WGone => false | _ => true end.
Definition holds (p : wpc) : option positive := match p with WRun a _ | WCb a _ => Some a | _ => None end.
(** popped, callback not yet called *)
Definition owes (p : wpc) : option nat := match p with WRun _ j => Some j | _ => None end.
Definition count (f : wpc -> bool) (l : list wpc) : nat := length (filter (λ p, f p = true) l).
Definition held (l : list wpc) : list positive := omap holds l.
Arguments held : simpl never.
Arguments count : simpl never.
Definition normal (l : list cell) : list nat := omap (λ c, if ch c then None else Some (cj c)) l.

(** [hi], [lo]: bounds of the values max_worker has had *)
Record WI (hi lo : Z) (s : ws) (l : list cell) : Prop := mkWI {
  WI_chain : chain (heap s) (head s) l;
  WI_last : last s = tail_of l;
  WI_nodup : NoDup (held (thr s) ++ (ca <$> l));
  WI_dom : forall a, a ∈ dom (heap s) <-> a ∈ held (thr s) ++ (ca <$> l);
  WI_queue : queue s = Z.of_nat (length l);
  WI_worker : worker s = Z.of_nat (count working (thr s));
  WI_max : worker s <= Z.max 0 hi;
  WI_one : l <> [] -> 1 <= lo -> 1 <= worker s;
  WI_refs : refs s = Z.of_nat (ext s + count present (thr s));
  WI_alive : alive s = true <-> 0 < refs s;
  WI_frees : frees s = if alive s then 0%nat else 1%nat;
  WI_acc : accepted s ≡ₚ called s ++ omap owes (thr s) ++ (cj <$> l);
  WI_norm : accn s = takenn s ++ normal l;
  WI_job : forall t a j, thr s !! t = Some (WRun a j) -> exists p, heap s !! a = Some p /\ pjob p = j;
  WI_blk : forall a, a ∈ blocked s <-> (exists c, c ∈ l /\ ca c = a /\ cw c = true) \/
     (exists t j p, thr s !! t = Some (WRun a j) /\ heap s !! a = Some p /\ pwait p = true);
  WI_blknd : NoDup (blocked s);
  WI_hi : max_worker s <= hi; WI_lo : lo <= max_worker s }.

Lemma chain_ext h h' p l : (forall a, a ∈ ca <$> l -> h' !! a = h !! a) -> chain h p l -> chain h' p l.
Proof.
  revert p. induction l as [|c l IH]; intros p HE; cbn; [done|]. intros [-> (nx & Ha & Hc)].
  split; [done|]. exists nx. split; [rewrite HE; [done|set_solver]|]. apply IH; [|done]. intros b Hb. apply HE. set_solver.
Qed.
Lemma chain_snoc h p l b c : chain h p l -> tail_of l = Some b -> NoDup (ca <$> l ++ [c]) ->
  h !! ca c = Some (mkp None (cj c) (cw c) (ch c)) ->
  exists q, h !! b = Some q /\ chain (<[b := w_next (Some (ca c)) q]> h) p (l ++ [c]).
Proof.
  revert p. induction l as [|d l IH]; intros p Hc Ht ND Hh; [done|]. cbn in Hc. destruct Hc as [-> (nx & Hd & Hc)].
  cbn in ND. apply NoDup_cons in ND as [Hn ND]. destruct l as [|e l].
  - cbn in Ht, Hc. injection Ht as <-. rewrite Hd. eexists. split; [done|]. cbn. split; [done|].
    exists (Some (ca c)). rewrite lookup_insert. split; [done|]. split; [done|]. exists None.
    rewrite lookup_insert_ne by (cbn in Hn; set_solver). done.
  - destruct (IH nx Hc) as (q & Hq & Hc2); [done|done|done|]. exists q. split; [done|].
    change ((d :: e :: l) ++ [c]) with (d :: ((e :: l) ++ [c])). cbn [chain]. split; [done|]. exists nx. split; [|done].
    rewrite lookup_insert_ne; [done|]. intros ->. apply Hn.
    assert (Hin : ca d ∈ ca <$> (e :: l)). { change (ca <$> list.last (e :: l) = Some (ca d)) in Ht. destruct (list.last (e :: l)) as [z|] eqn:Ez; [|done].
      cbn in Ht. injection Ht as <-. apply elem_of_list_fmap_1. by apply last_Some_elem_of. }
    rewrite fmap_app. set_solver.
Qed.
Lemma tail_snoc l c : tail_of (l ++ [c]) = Some (ca c).
Proof. unfold tail_of. by rewrite last_snoc. Qed.
Lemma thr_upd (l : list wpc) t p : l !! t = Some p ->
  exists r, l ≡ₚ p :: r /\ forall q, <[t := q]> l ≡ₚ q :: r.
Proof.
  intros H. exists (take t l ++ drop (S t) l). split.
  - rewrite <- (take_drop_middle l t p H) at 1. by rewrite Permutation_middle.
  - intros q. rewrite insert_take_drop by (by apply lookup_lt_Some in H). by rewrite Permutation_middle.
Qed.
#[global] Instance count_perm f : Proper ((≡ₚ) ==> (=)) (count f).
Proof. intros l l' H. unfold count. by rewrite H. Qed.
Lemma count_cons f p l : count f (p :: l) = ((if f p then 1 else 0) + count f l)%nat.
Proof. unfold count. rewrite filter_cons. destruct (f p); [by rewrite decide_True|by rewrite decide_False]. Qed.
Lemma count_app f l k : count f (l ++ k) = (count f l + count f k)%nat.
Proof. unfold count. by rewrite filter_app, app_length. Qed.
#[global] Instance held_perm : Proper ((≡ₚ) ==> (≡ₚ)) held.
Proof. intros l l' H. unfold held. by rewrite H. Qed.
Lemma omap_cons {A B} (f : A -> option B) x l : omap f (x :: l) = match f x with Some y => y :: omap f l | None => omap f l end.
Proof. done. Qed.

Lemma WI_init mw mq hi lo : lo <= mw <= hi -> WI hi lo (ws_init mw mq) [].
Proof. intros Hb.
  constructor; cbn; try done; try (split; [by lia|done]); try constructor; try set_solver; try lia.
Qed.
Lemma thr_snoc_lookup (l : list wpc) p t q : (l ++ [p]) !! t = Some q -> l !! t = Some q \/ q = p.
Proof.
  intros [H|[_ H]]%lookup_app_Some; [by left|right]. destruct (t - length l)%nat; [by injection H|done].
Qed.

(** h' has the same cells as h up to next pointers *)
Definition same_cells (h h' : gmap positive param) : Prop :=
  forall b, w_next None <$> h' !! b = w_next None <$> h !! b.
Lemma same_cells_dom h h' : same_cells h h' -> dom h' = dom h.
Proof.
  intros H. apply set_eq. intros b. rewrite !elem_of_dom. specialize (H b). destruct (h !! b), (h' !! b); try done; split; intros [? ?]; done.
Qed.
Lemma same_cells_get h h' b p : same_cells h h' -> h !! b = Some p -> exists p', h' !! b = Some p' /\ pjob p' = pjob p /\ pwait p' = pwait p.
Proof.
  intros H Hb. specialize (H b). rewrite Hb in H. destruct (h' !! b) as [p'|]; [|done]. exists p'. cbn in H. injection H as H1 H2 H3. done.
Qed.
Lemma same_cells_sym h h' : same_cells h h' -> same_cells h' h.
Proof. intros H b. by rewrite H. Qed.
Lemma enqueue_ok s l c high : chain (heap s) (head s) l -> last s = tail_of l -> NoDup (ca c :: (ca <$> l)) ->
  heap s !! ca c = Some (mkp None (cj c) (cw c) (ch c)) -> 
  exists h' hd lt, enqueue s (ca c) high = Some (set_q s h' hd lt (queue s + 1)) /\
    let l' := if high then c :: l else l ++ [c] in
    chain h' hd l' /\ lt = tail_of l' /\ same_cells (heap s) h'.
Proof.
  intros Hc Hl ND Ha. unfold enqueue. apply NoDup_cons in ND as [Hn ND]. rewrite Hl. destruct (tail_of l) as [b|] eqn:Et.
  - assert (Hne : l <> []) by (intros ->; done). destruct high.
    + rewrite Ha. eexists _, _, _. split; [done|]. cbn. split_and!.
      * done.
      * exists (head s). rewrite lookup_insert. split; [done|]. eapply chain_ext; [|exact Hc].
        intros z Hz. rewrite lookup_insert_ne; [done|]. intros <-. done.
      * rewrite <- Et. unfold tail_of. destruct l; [done|]. done.
      * intros z. destruct (decide (z = ca c)) as [->|]; [rewrite lookup_insert, Ha; done|by rewrite lookup_insert_ne].
    + destruct (chain_snoc (heap s) (head s) l b c Hc Et) as (q & Hq & Hc2); [|done|].
      { rewrite fmap_app. apply NoDup_app. split_and!; [done| |apply NoDup_singleton]. intros z Hz ->%elem_of_list_singleton. done. }
      rewrite Hq. eexists _, _, _. split; [done|]. cbn. split_and!; [done|by rewrite tail_snoc|].
      intros z. destruct (decide (z = b)) as [->|]; [rewrite lookup_insert, Hq; done|by rewrite lookup_insert_ne].
  - assert (l = []) as ->. { destruct l as [|d l] using rev_ind; [done|]. by rewrite tail_snoc in Et. }
    cbn in Hc. rewrite Hc. eexists _, _, _. split; [done|]. cbn.
    assert (Hs : forall k : bool, (if k then [c] else [c]) = [c]) by (by intros []). rewrite Hs. cbn. split_and!; [done| |done|done].
    exists None. done.
Qed.
Lemma held_snoc_loop l : held (l ++ [WLoop]) = held l.
Proof. unfold held. rewrite omap_app. cbn. by rewrite app_nil_r. Qed.
Lemma owes_snoc_loop l : omap owes (l ++ [WLoop]) = omap owes l.
Proof. rewrite omap_app. cbn. by rewrite app_nil_r. Qed.

Lemma omap_nodup_inj {A B} (f : A -> option B) (l : list A) : forall t t' p p' a, NoDup (omap f l) -> l !! t = Some p -> l !! t' = Some p' ->
  f p = Some a -> f p' = Some a -> t = t'.
Proof.
  induction l as [|x l IH]; intros t t' p p' a ND; [done|]. rewrite omap_cons in ND.
  destruct t as [|t], t' as [|t']; cbn; intros H1 H2 E1 E2; [done| | |].
  - injection H1 as ->. rewrite E1 in ND. apply NoDup_cons in ND as [Hn _]. destruct Hn. apply elem_of_list_omap. exists p'.
    split; [by eapply elem_of_list_lookup_2|done].
  - injection H2 as ->. rewrite E2 in ND. apply NoDup_cons in ND as [Hn _]. destruct Hn. apply elem_of_list_omap. exists p.
    split; [by eapply elem_of_list_lookup_2|done].
  - f_equal. eapply (IH t t' p p' a); [|done..]. destruct (f x); [by apply NoDup_cons in ND as [_ ?]|done].
Qed.
Lemma upd_lookup (l : list wpc) t q t' p : <[t := q]> l !! t' = Some p -> (t' = t /\ p = q) \/ (t' <> t /\ l !! t' = Some p).
Proof.
  destruct (decide (t' = t)) as [->|Hne].
  - intros H. left. split; [done|]. apply list_lookup_insert_Some in H as [(_ & ? & _)|(? & _)]; done.
  - rewrite list_lookup_insert_ne by done. by right.
Qed.
Lemma present_pos l t p : l !! t = Some p -> present p = true -> (0 < count present l)%nat.
Proof. intros H Hp. destruct (thr_upd l t p H) as (r & E & _). rewrite E, count_cons, Hp. lia. Qed.
Lemma WI_alive_thr hi lo s l t p : WI hi lo s l -> thr s !! t = Some p -> present p = true -> alive s = true.
Proof. intros HI Ht Hp. apply (WI_alive _ _ _ _ HI). rewrite (WI_refs _ _ _ _ HI). pose proof (present_pos _ _ _ Ht Hp). lia. Qed.
Lemma WI_alive_call hi lo s l : WI hi lo s l -> may_call s = true -> alive s = true.
Proof.
  intros HI H. unfold may_call in H. apply orb_true_iff in H as [H|H].
  - apply (WI_alive _ _ _ _ HI). rewrite (WI_refs _ _ _ _ HI). apply negb_true_iff, bool_decide_eq_false in H. lia.
  - unfold in_cb in H. apply existsb_exists in H as (p & Hin & Hp). apply elem_of_list_In, elem_of_list_lookup in Hin as [t Ht].
    eapply WI_alive_thr; [done|done|]. by destruct p.
Qed.
(** the parts of the invariant about references survive dropping one *)
Lemma release_WI hi lo s l : WI hi lo s l -> 0 < refs s -> forall s1 n th, s1 = set_ext (set_thr s th) n ->
  held th = held (thr s) \/ held th ≡ₚ held (thr s) -> worker s = Z.of_nat (count working th) -> refs s - 1 = Z.of_nat (n + count present th) ->
  omap owes th ≡ₚ omap owes (thr s) -> (forall t a j, th !! t = Some (WRun a j) <-> thr s !! t = Some (WRun a j)) -> WI hi lo (release s1) l.
Proof.
  intros [I1 I2 I3 I4 I5 I6 I7 I8 I9 I10 I11 I12 I13 I14 I15 I16 I17 I18] Hr s1 n th -> Hh Hw Hp Ho HT.
  assert (Hh' : held th ≡ₚ held (thr s)) by (destruct Hh as [-> |]; done). clear Hh.
  assert (Hal : alive s = true) by (by apply I10).
  constructor; cbn; try done.
  - by rewrite Hh'.
  - intros a. rewrite I4. by rewrite Hh'.
  - rewrite Hal. cbn. case_bool_decide; cbn; split; try done; lia.
  - rewrite Hal in *. rewrite I11. cbn. by case_bool_decide.
  - by rewrite I12, Ho.
  - intros t a j Ht. rewrite HT in Ht. eauto.
  - intros a. rewrite I15. setoid_rewrite HT. done.
Qed.

Section M.
Context (alloc : nat -> gset positive -> positive) (HA : forall k X, alloc k X ∉ X).

(** [add] succeeds unless a needed thread start fails *)
Lemma add_ok hi lo s l j wait high ok : WI hi lo s l -> alive s = true -> (ok = true \/ max_worker s <= worker s) ->
  exists s' c, add alloc s j wait high ok = Ok s' (OBool true) /\ WI hi lo s' (if high then c :: l else l ++ [c]) /\
     cj c = j /\ cw c = wait /\ ch c = high /\ max_worker s' = max_worker s /\ max_queue s' = max_queue s /\ called s' = called s /\
     accepted s' = accepted s ++ [j] /\ (if wait then blocked s' = ca c :: blocked s else blocked s' = blocked s) /\
     takenn s' = takenn s /\ ext s' = ext s.
Proof.
  intros HI Hal Hok. destruct HI as [I1 I2 I3 I4 I5 I6 I7 I8 I9 I10 I11 I12 I13 I14 I15 I16 I17 I18].
  unfold add. set (a := alloc j (dom (heap s))). assert (Ha : a ∉ dom (heap s)) by apply HA.
  set (c := mkc a j wait high). set (s0 := set_q s _ _ _ _).
  assert (Hnew : a ∉ held (thr s) ++ (ca <$> l)) by (by rewrite <- I4).
  destruct (enqueue_ok s0 l c high) as (h' & hd & lt & HE & Hc & Hlt & Hsame); cbn.
  { eapply chain_ext; [|exact I1]. intros b Hb. rewrite lookup_insert_ne; [done|]. intros <-. set_solver. }
  { exact I2. }
  { constructor; [set_solver|]. by apply NoDup_app in I3 as (_ & _ & ?). }
  { by rewrite lookup_insert. }
  cbn [ca c] in HE. rewrite HE. cbn [mbind option_bind].
  set (l' := if high then c :: l else l ++ [c]) in *.
  assert (Hperm : l' ≡ₚ c :: l) by (unfold l'; destruct high; [done|by rewrite Permutation_app_comm]).
  assert (Hin : forall d, d ∈ l' <-> d = c \/ d ∈ l) by (intros d; rewrite Hperm; set_solver).
  assert (Hlen : length l' = S (length l)) by (by rewrite Hperm).
  assert (Hnorm : (if high then accn s else accn s ++ [j]) = takenn s ++ normal l').
  { unfold l', normal. destruct high; cbn; [done|]. rewrite omap_app. cbn. by rewrite I13, app_assoc. }
  assert (Hdom' : dom h' = {[a]} ∪ dom (heap s)). { rewrite (same_cells_dom _ _ Hsame). cbn. by rewrite dom_insert_L. }
  assert (Hold : forall b p, heap s !! b = Some p -> exists p', h' !! b = Some p' /\ pjob p' = pjob p /\ pwait p' = pwait p).
  { intros b p Hb. eapply same_cells_get; [exact Hsame|]. cbn. rewrite lookup_insert_ne; [done|]. intros <-. apply Ha. by apply elem_of_dom_2 in Hb. }
  assert (Hback : forall b p', b <> a -> h' !! b = Some p' -> exists p, heap s !! b = Some p /\ pjob p' = pjob p /\ pwait p' = pwait p).
  { intros b p' Hne Hb. destruct (same_cells_get _ _ _ _ (same_cells_sym _ _ Hsame) Hb) as (p & Hp & E1 & E2). cbn in Hp.
    rewrite lookup_insert_ne in Hp by done. eauto. }
  (* the two outcomes of spawn *)
  assert (HS : exists th w r, spawn (set_q s0 h' hd lt (queue s0 + 1)) ok = Some (set_thr (set_refs (set_worker (set_q s0 h' hd lt (queue s0 + 1)) w) r) th) /\
     ((th = thr s /\ w = worker s /\ r = refs s /\ max_worker s <= worker s) \/
      (th = thr s ++ [WLoop] /\ w = worker s + 1 /\ r = refs s + 1 /\ worker s < max_worker s))).
  { unfold spawn. cbn. case_decide as Hd.
    - exists (thr s), (worker s), (refs s). split; [done|]. left. split_and!; try done. lia.
    - destruct Hok as [->|Hok]; [|lia]. eexists _, _, _. split; [done|]. right. split_and!; try done. lia. }
  destruct HS as (th & w & r & HSp & HSc). rewrite HSp.
  assert (Hth : held th = held (thr s) /\ omap owes th = omap owes (thr s) /\ w = Z.of_nat (count working th) /\
     r = Z.of_nat (ext s + count present th) /\ w <= Z.max 0 hi /\ (1 <= lo -> 1 <= w) /\
     (forall t a j, th !! t = Some (WRun a j) <-> thr s !! t = Some (WRun a j)) /\ 0 < r).
  { assert (0 < refs s) by (by apply I10). destruct HSc as [(-> & -> & -> & Hm)|(-> & -> & -> & Hm)].
    - split_and!; try done; lia.
    - split_and!; [apply held_snoc_loop|apply owes_snoc_loop| | |lia|lia| |lia].
      + rewrite count_app. change (count working [WLoop]) with 1%nat. lia.
      + rewrite count_app. change (count present [WLoop]) with 1%nat. lia.
      + intros t b k. split; [by intros [H1|H1]%thr_snoc_lookup|]. intros H1. by apply lookup_app_l_Some. }
  destruct Hth as (T1 & T2 & T3 & T4 & T5 & T6 & T7 & T8).
  eexists _, c. split; [done|].
  assert (Hblk : forall bl, (if wait then bl = a :: blocked s else bl = blocked s) ->
     NoDup bl /\ forall b, b ∈ bl <-> (exists d, d ∈ l' /\ ca d = b /\ cw d = true) \/
        (exists t k p, th !! t = Some (WRun b k) /\ h' !! b = Some p /\ pwait p = true)).
  { intros bl Hbl.
    assert (Hab : a ∉ blocked s).
    { rewrite I15. intros [(d & Hd & Ed & _)|(t & k & p & Ht & Hp & _)].
      - apply Hnew. apply elem_of_app. right. rewrite <- Ed. by apply elem_of_list_fmap_1.
      - apply Ha. by apply elem_of_dom_2 in Hp. }
    assert (Hrest : forall b, b <> a -> b ∈ blocked s <-> (exists d, d ∈ l' /\ ca d = b /\ cw d = true) \/
        (exists t k p, th !! t = Some (WRun b k) /\ h' !! b = Some p /\ pwait p = true)).
    { intros b Hb. rewrite I15. split.
      - intros [(d & Hd & Ed & Ew)|(t & k & p & Ht & Hp & Ew)].
        + left. exists d. rewrite Hin. auto.
        + right. destruct (Hold b p Hp) as (p' & Hp' & _ & Ew'). exists t, k, p'. rewrite T7. split_and!; [done|done|congruence].
      - intros [(d & Hd & Ed & Ew)|(t & k & p & Ht & Hp & Ew)].
        + left. exists d. apply Hin in Hd as [->|Hd]; [done|]. auto.
        + right. destruct (Hback b p Hb Hp) as (p' & Hp' & _ & Ew'). exists t, k, p'. rewrite <- T7. split_and!; [done|done|congruence]. }
    assert (Hasel : (exists d, d ∈ l' /\ ca d = a /\ cw d = true) \/ (exists t k p, th !! t = Some (WRun a k) /\ h' !! a = Some p /\ pwait p = true) <-> wait = true).
    { split.
      - intros [(d & Hd & Ed & Ew)|(t & k & p & Ht & Hp & Ew)].
        + apply Hin in Hd as [->|Hd]; [done|]. destruct Hnew. apply elem_of_app. right. rewrite <- Ed. by apply elem_of_list_fmap_1.
        + destruct Hnew. apply elem_of_app. left. unfold held. apply elem_of_list_omap. exists (WRun a k). split; [|done].
          rewrite T7 in Ht. by eapply elem_of_list_lookup_2.
      - intros Hw. left. exists c. split_and!; [apply Hin; by left|done|done]. }
    destruct wait; subst bl.
    - split; [by constructor|]. intros b. destruct (decide (b = a)) as [->|Hne].
      + rewrite Hasel. set_solver.
      + rewrite <- Hrest by done. set_solver.
    - split; [done|]. intros b. destruct (decide (b = a)) as [->|Hne]; [|by apply Hrest].
      rewrite Hasel. split; [done|done]. }
  split; [|destruct wait; cbn; split_and!; done].
  assert (HWI : forall bl, (if wait then bl = a :: blocked s else bl = blocked s) ->
    WI hi lo (mkws h' hd lt (max_worker s) (max_queue s) w (queue s + 1) r (alive s) th (ext s) bl (accepted s ++ [j]) (called s)
      (if high then accn s else accn s ++ [j]) (takenn s) (frees s)) l').
  { intros bl Hbl. destruct (Hblk bl Hbl) as [B1 B2]. constructor; cbn; try done.
    - rewrite T1, Hperm. cbn. rewrite <- Permutation_middle. by constructor.
    - intros b. rewrite Hdom', T1. assert (b ∈ ca <$> l' <-> b = a \/ b ∈ ca <$> l) as Hb by (rewrite Hperm; cbn; set_solver).
      rewrite elem_of_union, elem_of_singleton, I4, !elem_of_app, Hb. tauto.
    - lia.
    - rewrite I12, T2, Hperm. cbn. solve_Permutation.
    - intros t b k Hb. rewrite T7 in Hb. destruct (I14 t b k Hb) as (p & Hp & Ep). destruct (Hold b p Hp) as (p' & Hp' & E1 & _).
      exists p'. split; [done|congruence]. }
  destruct wait; apply HWI; done.
Qed.

Definition good (e : wev) : Prop := match e with WTry _ _ ok | WStart _ ok => ok = true | _ => True end.
Lemma WI_step hi lo s l e s' o : WI hi lo s l -> good e -> wstep alloc s e = Ok s' o -> exists l', WI hi lo s' l'.
Proof.
  intros HI Hg HS. destruct e as [j high ok|j ok| | |t|t|t|t]; cbn [wstep] in HS.
  - destruct (negb (may_call s)); [done|]. destruct (alive s) eqn:Ea; [|done]. cbn [negb] in HS. destruct (over s); [injection HS as <- _; eauto|].
    destruct (add_ok hi lo s l j false high ok HI Ea (or_introl Hg)) as (s2 & c & E & H2 & _). rewrite E in HS. injection HS as <- _. eauto.
  - destruct (negb (may_call s)); [done|]. destruct (alive s) eqn:Ea; [|done]. cbn [negb] in HS.
    destruct (add_ok hi lo s l j (over s) false ok HI Ea (or_introl Hg)) as (s2 & c & E & H2 & _). rewrite E in HS. injection HS as <- _. eauto.
  - destruct (negb (may_call s)); [done|]. destruct (alive s) eqn:Ea; [|done]. injection HS as <- _. exists l.
    destruct HI as [I1 I2 I3 I4 I5 I6 I7 I8 I9 I10 I11 I12 I13 I14 I15 I16 I17 I18]. constructor; cbn; try done; [lia|]. rewrite Ea.
    assert (0 < refs s) by (by apply I10). split; [lia|done].
  - destruct (ext s) as [|n] eqn:Ee; [done|]. destruct (alive s) eqn:Ea; [|done]. injection HS as <- _. exists l.
    eapply (release_WI hi lo s l HI ltac:(by apply (WI_alive _ _ _ _ HI)) (set_ext s n) n (thr s)); try done; [by left|apply HI|].
    rewrite (WI_refs _ _ _ _ HI). rewrite Ee. lia.
  - destruct (thr s !! t) as [p|] eqn:Et; [|done]. destruct p; try done. destruct (alive s) eqn:Ea; [|done]. cbn [negb] in HS.
    destruct (thr_upd _ _ _ Et) as (r & Er & Eu).
    assert (Hheld : forall q, holds q = None -> held (<[t := q]> (thr s)) ≡ₚ held (thr s)).
    { intros q Hq. rewrite (Eu q), Er. unfold held. rewrite !omap_cons, Hq. done. }
    destruct HI as [I1 I2 I3 I4 I5 I6 I7 I8 I9 I10 I11 I12 I13 I14 I15 I16 I17 I18].
    destruct (head s) as [a|] eqn:Eh.
    + destruct (heap s !! a) as [p|] eqn:Ep; [|done]. injection HS as <- _. destruct l as [|c l]; [done|]. exists l.
      cbn in I1. destruct I1 as [[= Eca] (nx & Hc & Hch)]. subst a. rewrite Hc in Ep. injection Ep as <-. cbn [pnext pjob phigh].
      cbn in I3. assert (Hca : ca c ∉ held (thr s) ++ (ca <$> l)).
      { rewrite <- Permutation_middle in I3. by apply NoDup_cons in I3 as [? _]. }
      assert (Hhl : held (<[t := WRun (ca c) (cj c)]> (thr s)) ≡ₚ ca c :: held (thr s)).
      { rewrite (Eu _), Er. unfold held. rewrite !omap_cons. done. }
      assert (HTl : forall t' b k, <[t := WRun (ca c) (cj c)]> (thr s) !! t' = Some (WRun b k) <-> (t' = t /\ b = ca c /\ k = cj c) \/ thr s !! t' = Some (WRun b k)).
      { intros t' b k. split.
        - intros [[-> ?]|[? ?]]%upd_lookup; [left; by simplify_eq|by right].
        - intros [(-> & -> & ->)|H]; [apply list_lookup_insert; by apply lookup_lt_Some in Et|].
          rewrite list_lookup_insert_ne; [done|]. intros <-. congruence. }
      constructor; cbn; try done.
      * destruct l as [|d l].
        -- cbn in Hch. subst nx. done.
        -- destruct Hch as [-> _]. rewrite I2. done.
      * rewrite Hhl. cbn in *. by rewrite <- Permutation_middle in I3.
      * intros b. rewrite I4. rewrite Hhl. cbn. rewrite !elem_of_app, !elem_of_cons, elem_of_app. tauto.
      * rewrite I5. cbn. lia.
      * rewrite (Eu _), I6, Er, !count_cons. done.
      * intros _ Hm. apply I8; done.
      * rewrite (Eu _), I9, Er, !count_cons. done.
      * rewrite I12, (Eu _), Er, !omap_cons. cbn. solve_Permutation.
      * rewrite I13. unfold normal. rewrite omap_cons. destruct (ch c); [done|]. by rewrite <- app_assoc.
      * intros t' b k [(-> & -> & ->)|H]%HTl; [|eauto]. eexists. split; [exact Hc|done].
      * intros b. rewrite I15. setoid_rewrite HTl. split.
        -- intros [(d & Hd & Ed & Ew)|(t' & k & p & Ht & Hp & Ew)].
           ++ apply elem_of_cons in Hd as [->|Hd]; [|left; eauto]. right. exists t, (cj c). eexists. subst b. split; [by left|]. split; [exact Hc|done].
           ++ right. exists t', k, p. auto.
        -- intros [(d & Hd & Ed & Ew)|(t' & k & p & [(-> & -> & ->)|Ht] & Hp & Ew)].
           ++ left. exists d. split; [by right|done].
           ++ left. exists c. split; [by left|]. split; [done|]. rewrite Hc in Hp. injection Hp as <-. done.
           ++ right. eauto 6.
    + injection HS as <- _. exists l. assert (l = []) as ->. { destruct l; [done|]. by destruct I1. }
      assert (HTl : forall t' b k, <[t := WRel]> (thr s) !! t' = Some (WRun b k) <-> thr s !! t' = Some (WRun b k)).
      { intros t' b k. split; [by intros [[-> ?]|[? ?]]%upd_lookup|]. intros H. rewrite list_lookup_insert_ne; [done|]. intros <-. congruence. }
      constructor; cbn; try done.
      * by rewrite (Hheld WRel).
      * intros b. rewrite I4. by rewrite (Hheld WRel).
      * rewrite (Eu _), I6, Er, !count_cons. cbn. lia.
      * lia.
      * rewrite (Eu _), I9, Er, !count_cons. done.
      * rewrite I12, (Eu _), Er, !omap_cons. done.
      * intros t' b k Hb. rewrite HTl in Hb. eauto.
      * intros b. rewrite I15. setoid_rewrite HTl. done.
  - destruct (thr s !! t) as [q|] eqn:Et; [|done]. destruct q as [|a j|a j| |]; try done. destruct (heap s !! a) as [p|] eqn:Ep; [|done].
    injection HS as <- _. exists l. destruct (thr_upd _ _ _ Et) as (r & Er & Eu).
    destruct HI as [I1 I2 I3 I4 I5 I6 I7 I8 I9 I10 I11 I12 I13 I14 I15 I16 I17 I18].
    destruct (I14 t a j Et) as (p' & Hp' & Ej). rewrite Ep in Hp'. injection Hp' as <-.
    assert (Hh : held (<[t := WCb a j]> (thr s)) ≡ₚ held (thr s)).
    { rewrite (Eu _), Er. unfold held. rewrite !omap_cons. done. }
    assert (HNDh : NoDup (omap holds (thr s))) by (by apply NoDup_app in I3 as [? _]).
    assert (Hal : a ∈ held (thr s)).
    { apply elem_of_list_omap. exists (WRun a j). split; [by eapply elem_of_list_lookup_2|done]. }
    assert (Hnl : a ∉ ca <$> l). { apply NoDup_app in I3 as (_ & HH & _). by apply HH. }
    assert (HTl : forall t' b k, <[t := WCb a j]> (thr s) !! t' = Some (WRun b k) <-> b <> a /\ thr s !! t' = Some (WRun b k)).
    { intros t' b k. split.
      - intros [[-> ?]|[Hne H]]%upd_lookup; [done|]. split; [|done]. intros ->. apply Hne. eapply (omap_nodup_inj holds (thr s)); [done|exact H|exact Et|done|done].
      - intros [Hne H]. rewrite list_lookup_insert_ne; [done|]. intros <-. congruence. }
    assert (Hbl : forall bl, bl = (if pwait p then remove1 a (blocked s) else blocked s) -> NoDup bl /\ forall b, b ∈ bl <-> (exists c, c ∈ l /\ ca c = b /\ cw c = true) \/
       (exists t' k p, <[t := WCb a j]> (thr s) !! t' = Some (WRun b k) /\ heap s !! b = Some p /\ pwait p = true)).
    { intros bl ->. split. { destruct (pwait p); [by apply remove1_nodup|done]. }
      intros b.
      assert (HX : b ∈ (if pwait p then remove1 a (blocked s) else blocked s) <-> b ∈ blocked s /\ b <> a).
      { destruct (pwait p) eqn:Ew; [by apply remove1_in|]. split; [|tauto]. intros Hb. split; [done|]. intros ->.
        apply I15 in Hb as [(c & Hc & Ec & _)|(t' & k & p' & _ & Hp' & Ew')]; [|congruence].
        apply Hnl. rewrite <- Ec. by apply elem_of_list_fmap_1. }
      rewrite HX, I15. setoid_rewrite HTl. split.
      - intros [[H|(t' & k & p' & H)] Hne]; [by left|right]. exists t', k, p'. naive_solver.
      - intros [(c & Hc & Ec & Ew)|(t' & k & p' & [Hne Ht] & H)].
        + split; [left; eauto|]. intros ->. apply Hnl. rewrite <- Ec. by apply elem_of_list_fmap_1.
        + split; [right; eauto|done]. }
    assert (HWI : forall bl, bl = (if pwait p then remove1 a (blocked s) else blocked s) ->
       WI hi lo (mkws (heap s) (head s) (last s) (max_worker s) (max_queue s) (worker s) (queue s) (refs s) (alive s)
         (<[t := WCb a j]> (thr s)) (ext s) bl (accepted s) (called s ++ [pjob p]) (accn s) (takenn s) (frees s)) l).
    { intros bl Hb. destruct (Hbl bl Hb) as [B1 B2]. constructor; cbn; try done.
      + by rewrite Hh.
      + intros b. rewrite I4. by rewrite Hh.
      + rewrite (Eu _), I6, Er, !count_cons. done.
      + rewrite (Eu _), I9, Er, !count_cons. done.
      + rewrite I12, (Eu _), Er, !omap_cons. cbn. rewrite Ej. solve_Permutation.
      + intros t' b k Hb'. apply HTl in Hb' as [_ Hb']. eauto. }
    destruct (pwait p); apply HWI; done.
  - destruct (thr s !! t) as [q|] eqn:Et; [|done]. destruct q as [|a j|a j| |]; try done. destruct (heap s !! a) as [p|] eqn:Ep; [|done].
    injection HS as <- _. exists l. destruct (thr_upd _ _ _ Et) as (r & Er & Eu).
    destruct HI as [I1 I2 I3 I4 I5 I6 I7 I8 I9 I10 I11 I12 I13 I14 I15 I16 I17 I18].
    assert (Hh : held (thr s) ≡ₚ a :: held (<[t := WLoop]> (thr s))).
    { rewrite (Eu _), Er. unfold held. rewrite !omap_cons. done. }
    assert (HTl : forall t' b k, <[t := WLoop]> (thr s) !! t' = Some (WRun b k) <-> thr s !! t' = Some (WRun b k)).
    { intros t' b k. split; [by intros [[-> ?]|[? ?]]%upd_lookup|]. intros H. rewrite list_lookup_insert_ne; [done|]. intros <-. congruence. }
    assert (HNDh : NoDup (omap holds (thr s))) by (by apply NoDup_app in I3 as [? _]).
    assert (HTa : forall t' b k, thr s !! t' = Some (WRun b k) -> b <> a).
    { intros t' b k H ->. assert (t' = t) as -> by (eapply (omap_nodup_inj holds (thr s)); [done|exact H|exact Et|done|done]). congruence. }
    rewrite Hh in I3. cbn in I3. apply NoDup_cons in I3 as [Hna I3].
    constructor; cbn; try done.
    + eapply chain_ext; [|exact I1]. intros b Hb. rewrite lookup_delete_ne; [done|]. intros <-. apply Hna. apply elem_of_app. by right.
    + intros b. rewrite dom_delete_L, elem_of_difference, elem_of_singleton, I4, Hh. cbn. rewrite elem_of_cons. split; [tauto|].
      intros Hb. split; [by right|]. intros ->. done.
    + rewrite (Eu _), I6, Er, !count_cons. done.
    + rewrite (Eu _), I9, Er, !count_cons. done.
    + rewrite I12, (Eu _), Er, !omap_cons. done.
    + intros t' b k Hb. rewrite HTl in Hb. rewrite lookup_delete_ne; [eauto|]. intros <-. by eapply HTa.
    + intros b. rewrite I15. setoid_rewrite HTl. split.
      * intros [H|(t' & k & p' & Ht & Hp & Hw)]; [by left|right]. exists t', k, p'. split; [done|]. rewrite lookup_delete_ne; [done|]. intros <-. by eapply HTa.
      * intros [H|(t' & k & p' & Ht & Hp & Hw)]; [by left|right]. exists t', k, p'. split; [done|]. rewrite lookup_delete_ne in Hp; [done|]. intros <-. by eapply HTa.
  - destruct (thr s !! t) as [q|] eqn:Et; [|done]. destruct q as [|a j|a j| |]; try done. destruct (alive s) eqn:Ea; [|done].
    injection HS as <- _. exists l. destruct (thr_upd _ _ _ Et) as (r & Er & Eu).
    eapply (release_WI hi lo s l HI ltac:(by apply (WI_alive _ _ _ _ HI)) _ (ext s) (<[t := WGone]> (thr s))).
    + done.
    + right. rewrite (Eu _), Er. unfold held. rewrite !omap_cons. done.
    + rewrite (WI_worker _ _ _ _ HI), (Eu _), Er, !count_cons. done.
    + rewrite (WI_refs _ _ _ _ HI), (Eu _), Er, !count_cons. cbn [present]. lia.
    + rewrite (Eu _), Er, !omap_cons. done.
    + intros t' b k. split; [by intros [[-> ?]|[? ?]]%upd_lookup|]. intros H. rewrite list_lookup_insert_ne; [done|]. intros <-. congruence.
Qed.
Lemma held_heap hi lo s l t q a : WI hi lo s l -> thr s !! t = Some q -> holds q = Some a -> is_Some (heap s !! a).
Proof.
  intros HI Ht Hq. apply elem_of_dom. apply (WI_dom _ _ _ _ HI), elem_of_app. left. apply elem_of_list_omap. exists q. split; [by eapply elem_of_list_lookup_2|done].
Qed.
Lemma WI_safe hi lo s l e : WI hi lo s l -> good e -> wstep alloc s e <> Crash.
Proof.
  intros HI Hg HS. destruct e as [j high ok|j ok| | |t|t|t|t]; cbn [wstep] in HS.
  - destruct (may_call s) eqn:Em; [|done]. pose proof (WI_alive_call _ _ _ _ HI Em) as Ea. rewrite Ea in HS. cbn [negb] in HS. destruct (over s); [done|].
    destruct (add_ok hi lo s l j false high ok HI Ea (or_introl Hg)) as (s2 & c & E & H2 & _). by rewrite E in HS.
  - destruct (may_call s) eqn:Em; [|done]. pose proof (WI_alive_call _ _ _ _ HI Em) as Ea. rewrite Ea in HS. cbn [negb] in HS.
    destruct (add_ok hi lo s l j (over s) false ok HI Ea (or_introl Hg)) as (s2 & c & E & H2 & _). by rewrite E in HS.
  - destruct (may_call s) eqn:Em; [|done]. pose proof (WI_alive_call _ _ _ _ HI Em) as Ea. by rewrite Ea in HS.
  - destruct (ext s) as [|n] eqn:Ee; [done|]. assert (Ea : alive s = true).
    { apply (WI_alive _ _ _ _ HI). rewrite (WI_refs _ _ _ _ HI). lia. } by rewrite Ea in HS.
  - destruct (thr s !! t) as [q|] eqn:Et; [|done]. destruct q; try done. rewrite (WI_alive_thr _ _ _ _ _ _ HI Et eq_refl) in HS. cbn in HS.
    destruct (head s) as [a|] eqn:Eh; [|done]. pose proof (WI_chain _ _ _ _ HI) as Hc. destruct l as [|c l]; [cbn in Hc; congruence|].
    destruct Hc as [Hc1 (nx & Hc2 & _)]. rewrite Eh in Hc1. injection Hc1 as ->. by rewrite Hc2 in HS.
  - destruct (thr s !! t) as [q|] eqn:Et; [|done]. destruct q; try done. destruct (held_heap _ _ _ _ _ _ _ HI Et eq_refl) as [p Hp]. by rewrite Hp in HS.
  - destruct (thr s !! t) as [q|] eqn:Et; [|done]. destruct q; try done. destruct (held_heap _ _ _ _ _ _ _ HI Et eq_refl) as [p Hp]. by rewrite Hp in HS.
  - destruct (thr s !! t) as [q|] eqn:Et; [|done]. destruct q; try done. by rewrite (WI_alive_thr _ _ _ _ _ _ HI Et eq_refl) in HS.
Qed.
Lemma max_step s e s' o : wstep alloc s e = Ok s' o -> max_worker s' = max_worker s /\ max_queue s' = max_queue s.
Proof.
  intros HS. assert (Hadd : forall j w h ok, add alloc s j w h ok = Ok s' o -> max_worker s' = max_worker s /\ max_queue s' = max_queue s).
  { intros j w h ok. unfold add. set (s0 := set_q s _ _ _ _). unfold enqueue. destruct (last s0).
    - destruct h; cbn.
      + rewrite lookup_insert. cbn. unfold spawn. cbn. case_decide; [|destruct ok; [|done]]; cbn; intros [= <- _]; by destruct w.
      + destruct (_ !! p); [|done]. cbn. unfold spawn. cbn. case_decide; [|destruct ok; [|done]]; cbn; intros [= <- _]; by destruct w.
    - destruct (head s0); [done|]. cbn. unfold spawn. cbn. case_decide; [|destruct ok; [|done]]; cbn; intros [= <- _]; by destruct w. }
  destruct e as [j high ok|j ok| | |t|t|t|t]; cbn [wstep] in HS.
  - destruct (negb (may_call s)); [done|]. destruct (negb (alive s)); [done|]. destruct (over s); [by injection HS as <- _|]. eauto.
  - destruct (negb (may_call s)); [done|]. destruct (negb (alive s)); [done|]. eauto.
  - destruct (negb (may_call s)); [done|]. destruct (negb (alive s)); [done|]. by injection HS as <- _.
  - destruct (ext s); [done|]. destruct (negb (alive s)); [done|]. by injection HS as <- _.
  - destruct (thr s !! t) as [[]|]; try done. destruct (negb (alive s)); [done|]. destruct (head s); [|by injection HS as <- _].
    destruct (heap s !! p); [|done]. by injection HS as <- _.
  - destruct (thr s !! t) as [[]|]; try done. destruct (heap s !! a) as [p|]; [|done]. injection HS as <- _. by destruct (pwait p).
  - destruct (thr s !! t) as [[]|]; try done. destruct (heap s !! a) as [p|]; [|done]. by injection HS as <- _.
  - destruct (thr s !! t) as [[]|]; try done. destruct (negb (alive s)); [done|]. by injection HS as <- _.
Qed.
End M.
