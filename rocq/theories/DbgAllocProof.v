(** Invariant of the debugging allocator. *)
From Verif Require Import DbgAllocModel DbgAllocSpec DbgAllocHeap.
Local Open Scope Z_scope.

Inductive role := WTab | WDead | WPriv (t : nat) | WLibc.
Definition prv (c : tpc) : option rec := match c with TIdle => None | TCopy _ r => Some r | TIns r _ _ => Some r end.
Definition hid (c : tpc) : option rec := match c with TCopy _ r => Some r | TIns r _ false => Some r | _ => None end.
Definition inr (r : rec) (y : Z) : Prop := ru r - 8 <= y < ru r + rn r + 8.

Section M.
Context (delay : bool) (nb : nat) (hash : Z -> nat).
Definition own (s : sys) (v : view) (w : role) (b l : Z) : Prop :=
  match w with
  | WTab => mkr (b + 8) (l - 16) ∈ tab s (hash (b + 8))
  | WDead => mkr (b + 8) (l - 16) ∈ d1 s (hash (b + 8)) ++ d2 s (hash (b + 8))
  | WPriv t => prv (thr s t) = Some (mkr (b + 8) (l - 16))
  | WLibc => exists n, vl v b = Some (n, false) /\ l = Z.max 1 n /\ 0 <= n
  end.
Definition quiet (s : sys) : Prop := (forall i, tab s i = [] /\ d1 s i = [] /\ d2 s i = []) /\ forall t, thr s t = TIdle.
Record I (s : sys) (v : view) : Prop := {
  i_heap : heap_ok (own s v) (mem s) (blk s);
  i_ht : forall i r, r ∈ tab s i -> hash (ru r) = i;
  i_hd : forall i r, r ∈ d1 s i ++ d2 s i -> hash (ru r) = i;
  i_nt : forall i, NoDup (ru <$> tab s i);
  i_nd : forall i, NoDup (ru <$> (d1 s i ++ d2 s i));
  i_size : forall w b l, own s v w b l -> w <> WLibc -> 16 < l;
  i_hid : forall t r y, hid (thr s t) = Some r -> inr r y -> vm v y = None /\ mem s y = raw (rn r) (y - (ru r - 8));
  i_agree : forall y, (forall t r, hid (thr s t) = Some r -> ~ inr r y) -> mem s y = vm v y;
  i_live : forall u n, vl v u = Some (n, true) <-> mkr u n ∈ tab s (hash u) \/ exists t z, thr s t = TIns (mkr u n) z true;
  i_neg : forall u n, vl v u = Some (n, false) -> 0 <= n;
  i_z : forall t r z, thr s t = TIns r z true -> z = false;
  i_copy : forall t p r, thr s t = TCopy p r -> p <> 0 /\ vl v p <> None /\ (forall t', held (thr s t') p -> t' = t) /\ dmp s = DOff;
  i_st : started s = false -> dmp s = DOff -> quiet s;
  i_quietd : forall i p c, dmp s = DAt i p c false -> quiet s;
  i_off : dmp s <> DOff -> started s = false;
  i_dmp : forall i p c sv, dmp s = DAt i (Some p) c sv -> exists r, r ∈ tab s i /\ ru r = p;
  i_nodelay : delay = false -> forall i, d1 s i = [] /\ d2 s i = [] }.

Lemma I_init : I init (view_of delay []).
Proof.
  constructor; unfold init; cbn; try done; try (by intros; set_solver).
  - constructor; cbn; try done.
    + intros w a l. destruct w; cbn; [set_solver..|done|]. by intros (n & ? & _).
    + intros w w' a l l'. destruct w; cbn; [set_solver..|done|]. by intros (n & ? & _).
    + intros y. split; [done|]. by intros (a & l & ? & _).
  - intros. constructor.
  - intros. constructor.
  - intros w b l. destruct w; cbn; [set_solver..|done|done].
Qed.
(** the view matters only pointwise; the history not at all *)
Lemma own_ext s v v' w b l : (forall p, vl v' p = vl v p) -> own s v' w b l <-> own s v w b l.
Proof. intros E. destruct w; cbn; try done. by setoid_rewrite E. Qed.
Lemma I_ext s v v' : (forall y, vm v' y = vm v y) -> (forall p, vl v' p = vl v p) -> I s v -> I s v'.
Proof.
  intros E1 E2 []. constructor; try done.
  - eapply ho_iff; [|exact i_heap0]. intros. by apply own_ext.
  - intros w b l. rewrite own_ext by done. apply i_size0.
  - intros t r y. rewrite E1. apply i_hid0.
  - intros y. rewrite E1. apply i_agree0.
  - intros u n. rewrite E2. apply i_live0.
  - intros u n. rewrite E2. apply i_neg0.
  - intros t p r. rewrite E2. apply i_copy0.
Qed.
Lemma own_log s h v w b l : own (log h s) v w b l <-> own s v w b l.
Proof. by destruct w. Qed.
Lemma I_log h s v : I s v -> I (log h s) v.
Proof.
  intros []. constructor; try done.
Qed.
Lemma prv_hid c r : hid c = Some r -> prv c = Some r.
Proof. destruct c as [| |? ? []]; cbn; congruence. Qed.
Lemma own_priv s v t r : prv (thr s t) = Some r -> own s v (WPriv t) (ru r - 8) (rn r + 16).
Proof. intros H. cbn. rewrite H. destruct r; cbn. f_equal. f_equal; lia. Qed.
Lemma own_tab s v r : r ∈ tab s (hash (ru r)) -> own s v WTab (ru r - 8) (rn r + 16).
Proof. intros H. cbn. replace (ru r - 8 + 8) with (ru r) by lia. replace (rn r + 16 - 16) with (rn r) by lia. by destruct r. Qed.
Lemma own_dead s v r : r ∈ d1 s (hash (ru r)) ++ d2 s (hash (ru r)) -> own s v WDead (ru r - 8) (rn r + 16).
Proof. intros H. cbn. replace (ru r - 8 + 8) with (ru r) by lia. replace (rn r + 16 - 16) with (rn r) by lia. by destruct r. Qed.
(** a live block of the view is a block *)
Lemma live_own s v p n trk : I s v -> vl v p = Some (n, trk) ->
  match trk with
  | false => own s v WLibc p (Z.max 1 n) /\ 0 <= n
  | true => 0 < n /\ exists w, own s v w (p - 8) (n + 16) /\ (w = WTab /\ mkr p n ∈ tab s (hash p) \/ exists t, w = WPriv t /\ thr s t = TIns (mkr p n) false true)
  end.
Proof.
  intros HI H. destruct trk.
  - destruct (proj1 (i_live _ _ HI p n) H) as [Ht|(t & z & Ht)].
    + pose proof (own_tab s v (mkr p n) Ht) as Ho. split; [assert (16 < n + 16) by (by eapply (i_size _ _ HI); [exact Ho|]); lia|]. exists WTab. split; [exact Ho|by left].
    + pose proof (i_z _ _ HI _ _ _ Ht) as ->. pose proof (own_priv s v t (mkr p n)) as Ho. rewrite Ht in Ho. specialize (Ho eq_refl).
      split; [assert (16 < n + 16) by (by eapply (i_size _ _ HI); [exact Ho|]); lia|]. exists (WPriv t). split; [exact Ho|]. right. by exists t.
  - split; [|by eapply i_neg]. exists n. split_and!; [done..|]. by eapply i_neg.
Qed.
Lemma mapped s v w b l y : I s v -> own s v w b l -> b <= y < b + l -> mem s y <> None.
Proof. intros HI Ho Hy. apply (ho_map _ _ _ (i_heap _ _ HI)). exists b, l. split; [|done]. by eapply (ho_own _ _ _ (i_heap _ _ HI)). Qed.
Lemma fresh_sep s v w b l a L : I s v -> own s v w b l -> (forall y, a <= y < a + L -> mem s y = None) -> 0 < L -> b + l <= a \/ a + L <= b.
Proof.
  intros HI Ho Hf HL. pose proof (ho_own _ _ _ (i_heap _ _ HI) _ _ _ Ho) as Eb. destruct (ho_pos _ _ _ (i_heap _ _ HI) _ _ Eb).
  destruct (decide (b + l <= a)); [by left|]. destruct (decide (a + L <= b)); [by right|]. exfalso.
  eapply (mapped _ _ _ _ _ (Z.max a b) HI Ho); [lia|]. apply Hf. lia.
Qed.
Lemma hid_sep s v t r w b l y : I s v -> hid (thr s t) = Some r -> inr r y -> own s v w b l -> b <= y < b + l -> w = WPriv t /\ b = ru r - 8 /\ l = rn r + 16.
Proof.
  intros HI Hh Hy Ho Hb. apply prv_hid in Hh. apply (own_priv s v) in Hh.
  eapply (ho_sep _ _ _ _ _ _ _ _ _ y (i_heap _ _ HI)); [done..|]. unfold inr in Hy. lia.
Qed.
(** at most one block of each kind at an address *)
Lemma own_role s v w w' b l l' : I s v -> own s v w b l -> own s v w' b l' -> w = w' /\ l = l'.
Proof.
  intros HI H1 H2. split; [by eapply (ho_uniq _ _ _ (i_heap _ _ HI))|].
  apply (ho_own _ _ _ (i_heap _ _ HI)) in H1. apply (ho_own _ _ _ (i_heap _ _ HI)) in H2. congruence.
Qed.

(** * Transitions *)
(** a thread gets a new block of the C library, not yet visible to the program *)
Lemma held_new s v p r' : I s v -> vl v p <> None -> forall a L, (forall y, a <= y < a + L -> mem s y = None) -> 0 < L -> ru r' = a + 8 -> 16 < L -> ru r' <> p.
Proof.
  intros HI Hv a L Hf HL Er HL2 E. destruct (vl v p) as [[n trk]|] eqn:Ev; [|done]. pose proof (live_own _ _ _ _ _ HI Ev) as Ho. destruct trk.
  - destruct Ho as (Hn & w & Ho & _). destruct (fresh_sep _ _ _ _ _ _ _ HI Ho Hf); lia.
  - destruct Ho as (Ho & Hn). destruct (fresh_sep _ _ _ _ _ _ _ HI Ho Hf); lia.
Qed.
Lemma I_alloc s v t c r : I s v -> thr s t = TIdle -> hid c = Some r ->
  (forall p r', c = TCopy p r' -> p <> 0 /\ vl v p <> None /\ (forall t', ~ held (thr s t') p) /\ dmp s = DOff) ->
  started s = true -> 0 < rn r -> 8 < ru r -> (forall y, ru r - 8 <= y < ru r - 8 + (rn r + 16) -> mem s y = None) ->
  I (set_thr (upd (thr s) t c) (set_mb (fill (ru r - 8) (rn r + 16) (raw (rn r)) (mem s)) (upd (blk s) (ru r - 8) (Some (rn r + 16))) s)) v.
Proof.
  intros HI Ht Hc Hcp Hst Hn Hu Hf. pose proof HI as HI0. destruct HI.
  assert (Hpt : forall t', prv (upd (thr s) t c t') = if decide (t' = t) then Some r else prv (thr s t')).
  { intros t'. unfold upd. case_decide; [|done]. by apply prv_hid. }
  assert (Hht : forall t', hid (upd (thr s) t c t') = if decide (t' = t) then Some r else hid (thr s t')).
  { intros t'. unfold upd. by case_decide. }
  constructor; cbn [mem blk tab d1 d2 thr started dmp hist set_thr set_mb]; try done.
  - eapply (ho_add _ _ _ _ (WPriv t)); [exact i_heap0| | lia|lia|exact Hf|].
    + intros w a l. destruct w as [| |t'|]; cbn [own tab d1 d2 thr set_thr set_mb].
      * split; [by left|]. by intros [?|[? _]].
      * split; [by left|]. by intros [?|[? _]].
      * rewrite Hpt. case_decide as Et.
        -- subst t'. rewrite Ht. split.
           ++ intros E1. right. assert (E2 : r = mkr (a + 8) (l - 16)) by congruence. rewrite E2. cbn. split_and!; [done|lia|lia].
           ++ intros [?|(_ & -> & ->)]; [done|]. destruct r; cbn. f_equal. f_equal; lia.
        -- split; [by left|]. intros [?|[E _]]; [done|]. congruence.
      * split; [by left|]. by intros [?|[? _]].
    + intros i Hi. unfold raw. by repeat case_decide.
  - intros w b l Ho Hw. destruct w as [| |t'|]; cbn [own tab d1 d2 thr set_thr set_mb] in Ho; [by apply (i_size0 WTab b l)|by apply (i_size0 WDead b l)| |done].
    rewrite Hpt in Ho. case_decide as Et.
    + assert (E2 : r = mkr (b + 8) (l - 16)) by congruence. rewrite E2 in Hn. cbn in Hn. lia.
    + eapply (i_size0 (WPriv t')); [exact Ho|done].
  - intros t' r' y. rewrite Hht. case_decide as Et.
    + intros [= <-] Hy. rewrite fill_in by (unfold inr in Hy; lia). split; [|done]. rewrite <-i_agree0; [apply Hf; unfold inr in Hy; lia|].
      intros t2 r2 H2 Hy2. assert (Ho2 := own_priv s v t2 r2 (prv_hid _ _ H2)). destruct (fresh_sep _ _ _ _ _ _ _ HI0 Ho2 Hf); unfold inr in *; lia.
    + intros H2 Hy. rewrite fill_out; [by eapply i_hid0|]. assert (Ho2 := own_priv s v t' r' (prv_hid _ _ H2)).
      destruct (fresh_sep _ _ _ _ _ _ _ HI0 Ho2 Hf); unfold inr in *; lia.
  - intros y Hy. rewrite fill_out.
    + apply i_agree0. intros t' r' H2. apply (Hy t' r'). rewrite Hht. case_decide as Et; [|done]. subst t'. by rewrite Ht in H2.
    + intros Hin. apply (Hy t r); [rewrite Hht; by rewrite decide_True|unfold inr; lia].
  - intros u n. rewrite i_live0. apply or_iff_compat_l. split; intros (t' & z & H); exists t', z.
    + rewrite upd_ne; [done|]. intros ->. congruence.
    + unfold upd in H. case_decide; [|done]. subst. done.
  - intros t' r' z. unfold upd. case_decide; [intros ->; cbn in Hc; done|apply i_z0].
  - intros t' p r'. unfold upd at 1. case_decide as Et.
    + subst t'. intros ->. destruct (Hcp _ _ eq_refl) as (H1 & H2 & H3 & H4). split_and!; [done..| |done]. intros t'. unfold upd. case_decide; [done|]. intros Hh. by destruct (H3 t').
    + intros H. destruct (i_copy0 _ _ _ H) as (H1 & H2 & H3 & H4). split_and!; [done..| |done]. intros t2. unfold upd. case_decide; [|apply H3]. subst t2. intros Hh.
      exfalso. assert (Hrp : ru r <> p). { apply (held_new s v p r HI0 H2 _ _ Hf); lia. }
      destruct c as [|p2 r2|r2 z re]; [done| |].
      * cbn in Hc, Hh. injection Hc as ->. destruct Hh as [->|Hh]; [|done]. destruct (Hcp _ _ eq_refl) as (_ & _ & H5 & _). apply (H5 t'). rewrite H. by left.
      * cbn in Hc, Hh. destruct re; [done|]. injection Hc as ->. done.
  - congruence.
  - intros i p c0 Hd. exfalso. assert (started s = false) by (apply i_off0; by rewrite Hd). congruence.
Qed.
Lemma own_mb m b s v w a l : own (set_mb m b s) v w a l <-> own s v w a l.
Proof. by destruct w. Qed.
(** memory with the same bytes *)
Lemma I_mem_ext s v m' : (forall y, m' y = mem s y) -> I s v -> I (set_mb m' (blk s) s) v.
Proof.
  intros E []. constructor; cbn [mem blk tab d1 d2 thr started dmp hist set_mb]; try done.
  - eapply ho_mem; [|intros y; by rewrite E]. eapply ho_iff; [|done]. intros. apply own_mb.
  - intros t r y. rewrite E. apply i_hid0.
  - intros y. rewrite E. apply i_agree0.
Qed.
(** the hidden block of a thread becomes visible *)
Lemma I_expose s v t r g : I s v -> hid (thr s t) = Some r -> (forall i, 0 <= i < rn r -> g i <> None) ->
  I (set_thr (upd (thr s) t (TIns r false true)) (set_mb (fill (ru r) (rn r) g (mem s)) (blk s) s))
    (mkv (guarded (ru r) (rn r) g (vm v)) (upd (vl v) (ru r) (Some (rn r, true)))).
Proof.
  intros HI Hh Hg. pose proof HI as HI0. pose proof (prv_hid _ _ Hh) as Hp. pose proof (own_priv s v t r Hp) as Hown.
  assert (Hn : 0 < rn r). { assert (16 < rn r + 16) by (by eapply (i_size _ _ HI); [exact Hown|]). lia. }
  assert (Hbase : forall w l, ~ own s v w (ru r) l).
  { intros w l Ho. destruct (hid_sep _ _ _ _ _ _ _ (ru r) HI Hh ltac:(unfold inr; lia) Ho) as (_ & E & _); [|lia].
    pose proof (ho_own _ _ _ (i_heap _ _ HI) _ _ _ Ho) as Eb. destruct (ho_pos _ _ _ (i_heap _ _ HI) _ _ Eb). lia. }
  destruct HI.
  assert (Hpt : forall t', prv (upd (thr s) t (TIns r false true) t') = prv (thr s t')).
  { intros t'. unfold upd. case_decide; [|done]. by subst. }
  assert (Hht : forall t' r', hid (upd (thr s) t (TIns r false true) t') = Some r' -> t' <> t /\ hid (thr s t') = Some r').
  { intros t' r'. unfold upd. case_decide; [done|]. by split. }
  assert (Hown' : forall w a l, own (set_thr (upd (thr s) t (TIns r false true)) (set_mb (fill (ru r) (rn r) g (mem s)) (blk s) s))
     (mkv (guarded (ru r) (rn r) g (vm v)) (upd (vl v) (ru r) (Some (rn r, true)))) w a l <-> own s v w a l).
  { intros w a l. destruct w; cbn [own tab d1 d2 thr set_thr set_mb vl]; [done..|by rewrite Hpt|].
    destruct (decide (a = ru r)) as [->|Hna]; [|by setoid_rewrite (upd_ne (vl v) (ru r) (Some (rn r, true)) a Hna)].
    rewrite upd_eq. split; [by intros (n & ? & _)|]. intros Ho. exfalso. exact (Hbase WLibc l Ho). }
  constructor; cbn [mem blk tab d1 d2 thr started dmp hist set_thr set_mb vm vl]; try done.
  - eapply ho_iff; [exact Hown'|]. eapply ho_mem; [done|]. intros y. unfold fill. case_decide as Hy; [|done]. split; intros _.
    + by eapply (mapped s v); [|exact Hown|lia].
    + apply Hg. lia.
  - intros w b l. rewrite Hown'. apply i_size0.
  - intros t' r' y [Hne Hh']%Hht Hy. destruct (i_hid0 _ _ _ Hh' Hy) as [E1 E2]. assert (Hno : ~ inr r y).
    { intros Hy2. destruct (hid_sep _ _ _ _ _ _ _ y HI0 Hh' Hy Hown) as [E _]; [unfold inr in Hy2; lia|]. congruence. }
    rewrite guarded_raw by lia. rewrite !fill_out by (unfold inr in Hno; lia). done.
  - intros y Hy. rewrite guarded_raw by lia. destruct (decide (inr r y)) as [Hin|Hin].
    + apply fill_ext; [done|]. rewrite fill_in by (unfold inr in Hin; lia). eapply i_hid0; done.
    + rewrite !fill_out by (unfold inr in Hin; lia). apply i_agree0. intros t' r' Hh' Hy'. destruct (decide (t' = t)) as [->|Hne]; [congruence|].
      apply (Hy t' r'); [by rewrite upd_ne|done].
  - intros u n. destruct (decide (u = ru r)) as [->|Hu].
    + rewrite upd_eq. split.
      * intros [= <-]. right. exists t, false. rewrite upd_eq. by destruct r.
      * intros [H|(t' & z & H)].
        -- pose proof (own_tab s v (mkr (ru r) n) H) as Ho. by destruct (own_role _ _ _ _ _ _ _ HI0 Ho Hown).
        -- unfold upd in H. case_decide; [subst; injection H as H _; destruct r; cbn in *; congruence|].
           pose proof (own_priv s v t' (mkr (ru r) n)) as Ho. rewrite H in Ho. specialize (Ho eq_refl). destruct (own_role _ _ _ _ _ _ _ HI0 Ho Hown). congruence.
    + rewrite upd_ne by done. rewrite i_live0. apply or_iff_compat_l. split; intros (t' & z & H); exists t', z.
      * rewrite upd_ne; [done|]. intros ->. rewrite H in Hh. done.
      * unfold upd in H. case_decide; [|done]. injection H as -> _. done.
  - intros u n. destruct (decide (u = ru r)) as [->|Hu]; [by rewrite upd_eq|]. rewrite upd_ne by done. apply i_neg0.
  - intros t' r' z. unfold upd. case_decide; [congruence|apply i_z0].
  - intros t' p r'. unfold upd at 1. case_decide as Et; [done|]. intros H. destruct (i_copy0 _ _ _ H) as (H1 & H2 & H3 & H4). split_and!; [done| |  |done].
    + unfold upd. by case_decide.
    + intros t2. unfold upd. case_decide; [|apply H3]. subst t2. cbn. intros <-. apply H3. destruct (thr s t) as [|p2 r2|r2 z []]; cbn in Hh |- *; try done; injection Hh as <-; auto.
  - intros Hs Hd. destruct (i_st0 Hs Hd) as [_ Hq]. rewrite (Hq t) in Hh. done.
  - intros i p c Hd. destruct (i_quietd0 _ _ _ Hd) as [_ Hq]. rewrite (Hq t) in Hh. done.
Qed.
(** line 250-254: the block enters the table *)
Lemma I_insert s v t r : I s v -> thr s t = TIns r false true ->
  I (set_thr (upd (thr s) t TIdle) (set_tab (upd (tab s) (hash (ru r)) (r :: tab s (hash (ru r)))) s)) v.
Proof.
  intros HI Ht. pose proof HI as HI0. pose proof (own_priv s v t r) as Hown. rewrite Ht in Hown. specialize (Hown eq_refl).
  destruct HI. set (h := hash (ru r)).
  assert (Hin : forall x i, x ∈ upd (tab s) h (r :: tab s h) i <-> x ∈ tab s i \/ (x = r /\ i = h)).
  { intros x i. unfold upd. case_decide as E; [|naive_solver]. subst i. rewrite elem_of_cons. naive_solver. }
  assert (Hown' : forall w a l, own (set_thr (upd (thr s) t TIdle) (set_tab (upd (tab s) h (r :: tab s h)) s)) v w a l <->
     own s v w a l /\ a <> ru r - 8 \/ (w = WTab /\ a = ru r - 8 /\ l = rn r + 16)).
  { intros w a l. destruct w as [| |t'|]; cbn [own tab d1 d2 thr set_thr set_tab].
    - rewrite Hin. split.
      + intros [H|[E _]].
        * left. split; [exact H|]. intros ->. by destruct (own_role _ _ WTab (WPriv t) _ _ _ HI0 H Hown).
        * right. rewrite <-E. cbn. split_and!; [done|lia|lia].
      + intros [[H _]|(_ & -> & ->)]; [by left|]. right. replace (ru r - 8 + 8) with (ru r) by lia. replace (rn r + 16 - 16) with (rn r) by lia. by destruct r.
    - split.
      + intros H. left. split; [exact H|]. intros ->. by destruct (own_role _ _ WDead (WPriv t) _ _ _ HI0 H Hown).
      + intros [[H _]|(? & _)]; done.
    - unfold upd. case_decide as E.
      + subst t'. split; [done|]. intros [[H Hn]|(? & _)]; [|done]. rewrite Ht in H. cbn in H. injection H as ->. cbn in Hn. lia.
      + split.
        * intros H. left. split; [exact H|]. intros ->. destruct (own_role _ _ (WPriv t') (WPriv t) _ _ _ HI0 H Hown). congruence.
        * intros [[H _]|(? & _)]; done.
    - split.
      + intros H. left. split; [exact H|]. intros ->. by destruct (own_role _ _ WLibc (WPriv t) _ _ _ HI0 H Hown).
      + intros [[H _]|(? & _)]; done. }
  assert (Hht : forall t' r', hid (upd (thr s) t TIdle t') = Some r' <-> hid (thr s t') = Some r').
  { intros t' r'. unfold upd. case_decide; [|done]. subst. by rewrite Ht. }
  constructor; cbn [mem blk tab d1 d2 thr started dmp hist set_thr set_tab]; try done.
  - eapply (ho_move _ _ _ _ (WPriv t)); [exact i_heap0|exact Hown|exact Hown'].
  - intros i x [H|[-> ->]]%Hin; [by apply i_ht0|done].
  - intros i. unfold upd. case_decide as E; [|apply i_nt0]. cbn. apply NoDup_cons. split; [|apply i_nt0]. intros ([u n] & E1 & E2)%elem_of_list_fmap.
    cbn in E1. pose proof (i_ht0 _ _ E2) as E3. cbn in E3. rewrite <-E3 in E2. pose proof (own_tab s v (mkr u n) E2) as Ho. cbn [ru rn] in Ho. rewrite <-E1 in Ho.
    by destruct (own_role _ _ _ _ _ _ _ HI0 Ho Hown).
  - intros w b l Ho Hw. apply Hown' in Ho as [[Ho _]|(-> & -> & ->)]; [by eapply i_size0|]. by eapply i_size0.
  - intros t' r' y H%Hht. by eapply i_hid0.
  - intros y Hy. apply i_agree0. intros t' r' H%Hht. by eapply Hy.
  - intros u n. rewrite i_live0, Hin. split.
    + intros [H|(t' & z & H)]; [by left; left|]. destruct (decide (t' = t)) as [->|Hn].
      * left. right. rewrite Ht in H. injection H as -> _. done.
      * right. exists t', z. by rewrite upd_ne.
    + intros [[H|[E _]]|(t' & z & H)]; [by left| |].
      * right. exists t, false. by rewrite E.
      * right. exists t', z. unfold upd in H. by case_decide.
  - intros t' r' z. unfold upd. case_decide; [done|apply i_z0].
  - intros t' p r'. unfold upd at 1. case_decide as Et; [done|]. intros H. destruct (i_copy0 _ _ _ H) as (H1 & H2 & H3 & H4). split_and!; [done..| |done].
    intros t2. unfold upd. case_decide; [done|apply H3].
  - intros Hs Hd. destruct (i_st0 Hs Hd) as [_ Hq]. by rewrite (Hq t) in Ht.
  - intros i p c Hd. destruct (i_quietd0 _ _ _ Hd) as [_ Hq]. by rewrite (Hq t) in Ht.
  - intros i p c sv Hd. destruct (i_dmp0 _ _ _ _ Hd) as (x & Hx & E). exists x. split; [|done]. apply Hin. by left.
Qed.
End M.
