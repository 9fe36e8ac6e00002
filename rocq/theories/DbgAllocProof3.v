(** The invariant of the debugging allocator is kept by every step within the program's duties. *)
From Verif Require Import DbgAllocModel DbgAllocSpec DbgAllocHeap DbgAllocProof DbgAllocProof2.
Local Open Scope Z_scope.

Section M.
Context (delay : bool) (nb : nat) (hash : Z -> nat).
Notation own := (own hash).
Notation I := (I delay hash).
Notation step := (step delay nb hash).
Definition V (s : sys) : view := view_of delay (hist s).
Lemma view_snoc h x : view_of delay (h ++ [x]) = vstep delay (view_of delay h) x.
Proof. unfold view_of. by rewrite fold_left_app. Qed.

Lemma usable_held s p : usable delay s p -> forall t, ~ held (thr s t) p.
Proof. by intros [_ ?]. Qed.
Lemma view_eta v : mkv (vm v) (vl v) = v. Proof. by destruct v. Qed.
Lemma libc_free_inv s v p n : I s v -> vl v p = Some (n, false) -> libc_free s p = Some (set_mb (unmap p (Z.max 1 n) (mem s)) (upd (blk s) p None) s).
Proof.
  intros HI H. destruct (live_own _ _ _ _ _ _ _ HI H) as [Ho Hn]. pose proof (ho_own _ _ _ (i_heap _ _ _ _ HI) _ _ _ Ho) as Eb.
  destruct (ho_pos _ _ _ (i_heap _ _ _ _ HI) _ _ Eb). unfold libc_free. rewrite decide_False by lia. by rewrite Eb.
Qed.
(** what free finds *)
Lemma find_live s v p n trk : I s v -> vl v p = Some (n, trk) -> (forall t, ~ held (thr s t) p) ->
  if trk then lookup_rec (tab s (hash p)) p = Some (mkr p n) else lookup_rec (tab s (hash p)) p = None.
Proof.
  intros HI H Hh. destruct trk.
  - apply (i_live _ _ _ _ HI) in H as [H|(t & z & H)]; [|destruct (Hh t); by rewrite H]. apply (lookup_rec_nodup _ (mkr p n)); [by eapply i_nt|done].
  - destruct (lookup_rec (tab s (hash p)) p) as [r|] eqn:E; [|done]. apply lookup_rec_Some in E as [E1 E2]. subst p.
    assert (vl v (ru r) = Some (rn r, true)) by (apply (i_live _ _ _ _ HI); left; by destruct r). congruence.
Qed.
Lemma find_null s v : I s v -> lookup_rec (tab s (hash 0)) 0 = None.
Proof.
  intros HI. destruct (lookup_rec (tab s (hash 0)) 0) as [r|] eqn:E; [|done]. apply lookup_rec_Some in E as [E1 E2]. exfalso.
  assert (Hr : r ∈ tab s (hash (ru r))) by (by rewrite E2). pose proof (own_tab hash s v r Hr) as Ho.
  pose proof (ho_own _ _ _ (i_heap _ _ _ _ HI) _ _ _ Ho) as Eb. destruct (ho_pos _ _ _ (i_heap _ _ _ _ HI) _ _ Eb). lia.
Qed.
Lemma live_nz s v p n trk : I s v -> vl v p = Some (n, trk) -> p <> 0.
Proof.
  intros HI H. pose proof (live_own _ _ _ _ _ _ _ HI H) as Ho. destruct trk.
  - destruct Ho as (_ & w & Ho & _). pose proof (ho_own _ _ _ (i_heap _ _ _ _ HI) _ _ _ Ho) as Eb. destruct (ho_pos _ _ _ (i_heap _ _ _ _ HI) _ _ Eb). lia.
  - destruct Ho as (Ho & _). pose proof (ho_own _ _ _ (i_heap _ _ _ _ HI) _ _ _ Ho) as Eb. destruct (ho_pos _ _ _ (i_heap _ _ _ _ HI) _ _ Eb). lia.
Qed.

Lemma I_step_malloc s t n a z junk s' o : I s (V s) -> 0 <= n -> do_malloc s t n a z junk = Ok s' o -> I s' (V s').
Proof.
  intros HI Hn. unfold do_malloc. destruct (thr s t) eqn:Et; try done. destruct (started s) eqn:Es; cbn [negb].
  - case_decide; [by intros [= <- <-]|]. case_decide; [|done]. destruct (can_place s a (n + 16)) eqn:Ec; [|done]. intros [= <- <-].
    apply can_place_spec in Ec as [Ha Hf]. unfold libc_alloc. rewrite Z.max_r in * by lia.
    pose proof (I_alloc delay hash s (V s) t (TIns (mkr (a + 8) n) z false) (mkr (a + 8) n) HI Et eq_refl) as H2. cbn [ru rn] in H2.
    replace (a + 8 - 8) with a in H2 by lia. apply H2; [done|done|lia|lia|done].
  - destruct (can_place s a n) eqn:Ec; [|done]. intros [= <- <-]. apply can_place_spec in Ec as [Ha Hf]. apply I_log. unfold V. cbn [hist log].
    rewrite view_snoc. cbn [vstep]. by apply I_libc_alloc.
Qed.
Lemma I_step_free s p s' o : I s (V s) -> (p = 0 \/ usable delay s p /\ (dmp s <> DOff -> ~ is_guarded delay s p)) -> do_free delay hash s p = Ok s' o -> I s' (V s').
Proof.
  intros HI Hd. unfold do_free. destruct Hd as [->|[Hu Hg]].
  - rewrite (find_null _ _ HI). unfold libc_free. rewrite decide_True by done. intros [= <- <-]. unfold V. cbn. by rewrite app_nil_r; apply I_log.
  - pose proof Hu as [Hl Hh]. destruct (vl (V s) p) as [[n trk]|] eqn:Ev; [|done]. pose proof (find_live _ _ _ _ _ HI Ev Hh) as Hf.
    pose proof (live_nz _ _ _ _ _ HI Ev) as Hz. destruct trk.
    + rewrite Hf. destruct (check_ptr _ _); [|done]. intros [= <- <-]. apply lookup_rec_Some in Hf as [Hin _].
      assert (Hoff : dmp s = DOff). { destruct (dmp s); [done|]. destruct Hg; [done|]. by exists n. }
      pose proof (I_retire delay hash s (V s) (mkr p n) HI Hin Hh Hoff) as H2. cbn [ru] in H2. apply I_log. unfold V at 1. cbn [hist log].
      assert (Eh : hist (retire delay (set_tab (upd (tab s) (hash p) (unlink (tab s (hash p)) p)) s) (hash p) (mkr p n)) = hist s) by (unfold retire; by destruct delay).
      rewrite Eh, view_snoc. exact H2.
    + rewrite Hf. rewrite (libc_free_inv _ _ _ _ HI Ev). rewrite decide_False by done. intros [= <- <-]. apply I_log. unfold V. cbn [hist log]. cbn [hist set_mb]. rewrite view_snoc.
      by apply I_libc_free.
Qed.
Lemma kill_vl p v u : u <> p -> vl (kill delay p v) u = vl v u.
Proof. intros H. unfold kill. destruct (vl v p) as [[m []]|]; cbn; [| |done]; unfold upd; by rewrite decide_False. Qed.
(** realloc of a block of the C library *)
Lemma I_libc_realloc s t p n a junk s' o : I s (V s) -> vl (V s) p <> None -> (forall t, ~ held (thr s t) p) -> (forall m, vl (V s) p <> Some (m, true)) -> 0 < n ->
  do_libc_realloc s t p n a junk = Ok s' o -> I s' (V s').
Proof.
  intros HI Hl Hh Hg Hn. unfold do_libc_realloc. destruct (vl (V s) p) as [[m trk]|] eqn:Ev; [|done]. destruct trk; [by destruct (Hg m)|].
  pose proof (live_own _ _ _ _ _ _ _ HI Ev) as [Ho Hm]. pose proof (ho_own _ _ _ (i_heap _ _ _ _ HI) _ _ _ Ho) as Eb. rewrite Eb.
  destruct (can_place s a n) eqn:Ec; [|done]. apply can_place_spec in Ec as [Ha Hf].
  assert (Hsep : p + Z.max 1 m <= a \/ a + Z.max 1 n <= p) by (eapply fresh_sep; [exact HI|exact Ho|done|lia]).
  set (g := keep (mem s) p (Z.max 1 m) (λ i, Some (junk i))).
  set (v1 := mkv (put a (Z.max 1 n) g (vm (V s))) (upd (vl (V s)) a (Some (n, false)))).
  assert (Hmap : forall y, p <= y < p + Z.max 1 m -> mem s y <> None) by (intros; eapply mapped; done).
  (* the contents of p are what the view says *)
  assert (Hag : forall y, p <= y < p + Z.max 1 m -> mem s y = vm (V s) y).
  { intros y Hy. apply (i_agree _ _ _ _ HI). intros t' r' H Hy'. by destruct (hid_sep _ _ _ _ _ _ _ _ _ y HI H Hy' Ho Hy). }
  (* allocate with total contents; bytes before the start of the block are never read *)
  set (g' := λ i, if decide (0 <= i) then g i else Some 0).
  assert (Hg' : forall i, g' i <> None). { intros i. unfold g', g, keep. repeat case_decide; try done. apply Hmap. lia. }
  assert (HI1 : I (libc_alloc s a n g) v1).
  { pose proof (I_libc_alloc delay hash s (V s) a n g' HI ltac:(lia) Ha Hf Hg') as H2.
    assert (Hfe : forall y, fill a (Z.max 1 n) g (mem s) y = mem (libc_alloc s a n g') y).
    { intros y. unfold libc_alloc. cbn [mem set_mb]. apply fill_ext; [|done]. intros. unfold g'. rewrite decide_True by lia. done. }
    pose proof (I_mem_ext delay hash (libc_alloc s a n g') _ (fill a (Z.max 1 n) g (mem s)) Hfe H2) as H3.
    eapply I_ext; [| |exact H3]; [|done]. intros y. cbn. apply fill_ext; [|done]. intros. unfold g'. rewrite decide_True by lia. done. }
  assert (Hpa : p <> a) by (intros ->; lia).
  assert (Ev1 : vl v1 p = Some (m, false)). { cbn. by rewrite upd_ne. }
  rewrite (libc_free_inv _ _ _ _ HI1 Ev1). intros [= <- <-]. apply I_log. unfold V at 1. cbn [hist log set_mb libc_alloc]. rewrite view_snoc.
  eapply I_ext; [| |exact (I_libc_free delay hash _ _ _ _ HI1 Ev1 Hh)].
  - intros y. cbn [vstep]. fold (V s). rewrite Ev. unfold kill. rewrite Ev, Ev1. cbn [vm]. rewrite !put_fill.
    unfold v1. cbn [vm]. unfold put, fill, g, keep. repeat case_decide; try lia; try done.
    symmetry. apply Hag. lia.
  - intros u. cbn [vstep]. fold (V s). rewrite Ev. cbn [vl]. unfold kill. rewrite Ev, Ev1. cbn [vl]. unfold v1. cbn [vl]. unfold upd. repeat case_decide; subst; try done.
Qed.
Lemma V_hist s s' : hist s' = hist s -> V s' = V s.
Proof. unfold V. by intros ->. Qed.
(** realloc of a guarded block *)
Lemma I_copy_found s t p r n : I s (V s) -> thr s t = TCopy p r -> vl (V s) p = Some (n, true) ->
  let s1 := set_tab (upd (tab s) (hash p) (unlink (tab s (hash p)) p)) s in
  let s2 := set_mb (fill (ru r) (Z.min n (rn r)) (λ i, mem s1 (p + i)) (mem s1)) (blk s1) s1 in
  I (log [HRealloc t p (rn r) (ru r) true (λ _, 0)] (set_thr (upd (thr s2) t (TIns r false true)) (retire delay s2 (hash p) (mkr p n))))
    (vstep delay (V s) (HRealloc t p (rn r) (ru r) true (λ _, 0))).
Proof.
  intros HI Ht Ev s1 s2. destruct (i_copy _ _ _ _ HI _ _ _ Ht) as (_ & _ & Hheld & Hoff).
  assert (Hin : mkr p n ∈ tab s (hash p)).
  { apply (i_live _ _ _ _ HI) in Ev as [?|(t' & z & H)]; [done|]. assert (t' = t) by (apply Hheld; rewrite H; done). congruence. }
  pose proof (own_tab hash s (V s) (mkr p n) Hin) as Hop. cbn [ru rn] in Hop.
  assert (Hhid : hid (thr s t) = Some r) by (by rewrite Ht). pose proof (own_priv hash s (V s) t r (prv_hid _ _ Hhid)) as Hor.
  assert (Hn : 0 < n). { assert (16 < n + 16) by (by eapply (i_size _ _ _ _ HI); [exact Hop|]). lia. }
  assert (Hr : 0 < rn r). { assert (16 < rn r + 16) by (by eapply (i_size _ _ _ _ HI); [exact Hor|]). lia. }
  assert (Hsep : p - 8 + (n + 16) <= ru r - 8 \/ ru r - 8 + (rn r + 16) <= p - 8).
  { eapply (ho_disj _ _ _ (i_heap _ _ _ _ HI)); [by eapply (ho_own _ _ _ (i_heap _ _ _ _ HI))..|].
    intros E. rewrite E in Hop. by destruct (own_role _ _ _ _ _ _ _ _ _ HI Hop Hor). }
  assert (Hag : forall y, p - 8 <= y < p + n + 8 -> mem s y = vm (V s) y).
  { intros y Hy. apply (i_agree _ _ _ _ HI). intros t' r' H Hy'. by destruct (hid_sep _ _ _ _ _ _ _ _ _ y HI H Hy' Hop ltac:(lia)). }
  set (g := λ i, if decide (0 <= i < n) then vm (V s) (p + i) else Some 0xcc).
  assert (Hg : forall i, 0 <= i < rn r -> g i <> None).
  { intros i Hi. unfold g. case_decide; [|done]. rewrite <-Hag by lia. eapply mapped; [exact HI|exact Hop|lia]. }
  pose proof (I_expose delay hash s (V s) t r g HI Hhid Hg) as HI1.
  set (sa := set_thr (upd (thr s) t (TIns r false true)) (set_mb (fill (ru r) (rn r) g (mem s)) (blk s) s)) in HI1.
  set (va := mkv (guarded (ru r) (rn r) g (vm (V s))) (upd (vl (V s)) (ru r) (Some (rn r, true)))) in HI1.
  assert (Hne : p <> ru r) by lia.
  assert (Hha : forall t', ~ held (thr sa t') p).
  { intros t'. cbn. unfold upd. case_decide as E; [cbn; congruence|]. intros H. by apply E, Hheld. }
  pose proof (I_retire delay hash sa va (mkr p n) HI1 Hin Hha Hoff) as HI2. cbn [ru] in HI2. apply I_log.
  set (sb := set_thr (upd (thr s2) t (TIns r false true)) (retire delay s2 (hash p) (mkr p n))).
  set (sc := retire delay (set_tab (upd (tab sa) (hash p) (unlink (tab sa (hash p)) p)) sa) (hash p) (mkr p n)) in HI2.
  assert (Emem : forall y, fill (ru r) (Z.min n (rn r)) (λ i, mem s (p + i)) (mem s) y = fill (ru r) (rn r) g (mem s) y).
  { intros y. destruct (decide (ru r <= y < ru r + rn r)) as [Hy|Hy].
    - rewrite (fill_in (ru r) (rn r)) by done. unfold g. case_decide as Hy2.
      + rewrite fill_in by lia. apply Hag. lia.
      + rewrite fill_out by lia. destruct (i_hid _ _ _ _ HI _ _ y Hhid) as [_ E]; [unfold inr; lia|]. rewrite E. unfold raw. rewrite decide_False by lia. rewrite decide_True by lia. done.
    - rewrite !fill_out by lia. done. }
  assert (Esb : sb = set_mb (mem sb) (blk sc) sc). { unfold sb, sc, s2, s1, sa, retire, release. destruct delay; reflexivity. }
  rewrite Esb. apply I_mem_ext.
  { intros y. unfold sb, sc, s2, s1, sa, retire, release. destruct delay; cbn; apply fill_ext; try done; apply Emem. }
  eapply I_ext; [| |exact HI2].
  - intros y. cbn [vstep]. rewrite Ev. cbn [vm]. rewrite !guarded_raw by lia. unfold kill. rewrite Ev. cbn [ru].
    assert (Eva : vl va p = Some (n, true)). { cbn. by rewrite upd_ne. } rewrite Eva. cbn [vm]. unfold va. cbn [vm].
    destruct (decide (inr r y)) as [Hy|Hy].
    + assert (Hkill : forall f, (if delay then put p n f (guarded (ru r) (rn r) g (vm (V s))) else put (p - 8) (n + 16) (λ _, None) (guarded (ru r) (rn r) g (vm (V s)))) y = guarded (ru r) (rn r) g (vm (V s)) y).
      { intros f. unfold inr in Hy. destruct delay; rewrite put_fill, fill_out by lia; done. }
      rewrite Hkill, guarded_raw by lia. apply fill_ext.
      * intros Hy2. unfold g. repeat case_decide; try lia; done.
      * rewrite !fill_in by (unfold inr in Hy; lia). done.
    + rewrite !fill_out by (unfold inr in Hy; lia). destruct delay; apply fill_ext; try done; rewrite guarded_raw by lia; by rewrite !fill_out by (unfold inr in Hy; lia).
  - intros u. cbn [vstep]. rewrite Ev. cbn [vl]. unfold kill. rewrite Ev. assert (Eva : vl va p = Some (n, true)). { cbn. by rewrite upd_ne. } rewrite Eva. cbn [vl]. unfold va. cbn [vl].
    unfold upd. repeat case_decide; subst; try done.
Qed.
Definition unmaps (l : list rec) (m : mem_t) : mem_t := foldl (λ m r, unmap (ru r - 8) (rn r + 16) m) m l.
Definition clears (l : list rec) (b : Z -> option Z) : Z -> option Z := foldl (λ b r, upd b (ru r - 8) None) b l.
Lemma foldl_release l : forall s, foldl release s l = set_mb (unmaps l (mem s)) (clears l (blk s)) s.
Proof. induction l as [|r l IH]; intros s; cbn; [by destruct s|]. by rewrite IH. Qed.
Lemma I_d1_ext s v g : (forall j, g j = d1 s j) -> I s v -> I (mks (mem s) (blk s) (tab s) g (d2 s) (thr s) (started s) (dmp s) (hist s)) v.
Proof.
  intros E HI. destruct HI. constructor; cbn [mem blk tab d1 d2 thr started dmp hist] in *; try done; try (intros j; rewrite E; by auto).
  - eapply ho_iff; [|exact i_heap]. intros [] a l0; cbn; rewrite ?E; done.
  - intros w a l0 H. apply (i_size w a l0). destruct w; cbn in *; rewrite ?E in H; done.
  - intros Hs Ho. destruct (i_st Hs Ho) as [H1 H2]. split; [|done]. intros j. cbn. rewrite E. apply H1.
  - intros j p c Ho. destruct (i_quietd _ _ _ Ho) as [H1 H2]. split; [|done]. intros j'. cbn. rewrite E. apply H1.
  - intros Ey j. rewrite E. by apply i_nodelay.
Qed.
Lemma I_sweep_drop i l : forall s v, d1 s i = l -> I s v ->
  I (mks (unmaps l (mem s)) (clears l (blk s)) (tab s) (upd (d1 s) i []) (d2 s) (thr s) (started s) (dmp s) (hist s)) (fold_left (vstep delay) ((λ r, HDrop (ru r) (rn r)) <$> l) v).
Proof.
  induction l as [|r l IH]; intros s v Hd HI.
  - apply I_d1_ext; [|done]. intros j. unfold upd. case_decide; [by subst|done].
  - pose proof (I_drop delay hash _ v i r l HI Hd) as HI1. pose proof (λ H, IH _ _ H HI1) as IH2. specialize (IH2 ltac:(cbn; by rewrite upd_eq)). clear IH. rename IH2 into IH.
    apply (I_d1_ext _ _ (upd (d1 s) i [])) in IH; [exact IH|]. intros j. cbn. unfold upd. by case_decide.
Qed.
Lemma I_dmp s v d st : I s v -> (d <> DOff -> forall t p r, thr s t <> TCopy p r) -> (st = false -> d = DOff -> quiet s) -> (forall i p c, d = DAt i p c false -> quiet s) ->
  (d <> DOff -> st = false) -> (forall i p c sv, d = DAt i (Some p) c sv -> exists r, r ∈ tab s i /\ ru r = p) -> I (set_dmp d st s) v.
Proof.
  intros [] H1 H2 H3 H4 H5. constructor; cbn [mem blk tab d1 d2 thr started dmp hist set_dmp]; try done.
  intros t p r H. destruct (i_copy _ _ _ H) as (? & ? & ? & ?). split_and!; try done. destruct d; [done|]. destruct (H1 ltac:(done) _ _ _ H).
Qed.
Lemma head_elem l p : ru <$> head l = Some p -> exists r : rec, r ∈ l /\ ru r = p.
Proof. destruct l as [|r l]; cbn; [done|]. intros [= <-]. exists r. split; [apply elem_of_list_here|done]. Qed.

Lemma I_step s e s' o : I s (V s) -> duty delay s e -> step s e = Ok s' o -> I s' (V s').
Proof.
  intros HI HD HS. destruct e; cbn [step DbgAllocModel.step] in HS.
  - destruct (dmp s) eqn:Ed; [|done]. injection HS as <- _. cbn in HD. unfold V. cbn [hist]. destruct (i_st _ _ _ _ HI HD Ed) as [Hq1 Hq2].
    assert (E : forall i, tab s i = [] /\ d1 s i = [] /\ d2 s i = []) by apply Hq1. pose proof HI as HI0. destruct HI.
    constructor; cbn [mem blk tab d1 d2 thr started dmp hist] in *; try done; try (intros; apply NoDup_nil_2).
    + eapply ho_iff; [|exact i_heap]. intros [] a l; cbn; try done; destruct (E (hash (a + 8))) as (E1 & E2 & E3); by rewrite ?E1, ?E2, ?E3.
    + intros i r H. by apply elem_of_nil in H.
    + intros i r H. by apply elem_of_nil in H.
    + intros w b l H Hw. destruct w; cbn in H; [by apply elem_of_nil in H..| |done]. by eapply (i_size (WPriv t)).
    + intros u n. rewrite i_live. destruct (E (hash u)) as [-> _]. done.
    + intros t p r H. by rewrite Hq2 in H.
  - case_decide; [|done]. eapply I_step_malloc; [done| |done]. lia.
  - case_decide; [|done]. eapply I_step_malloc; [done| |done]. apply Z.mod_pos_bound. lia.
  - destruct (thr s t) eqn:Et; try done. case_decide as Hp; [done|]. destruct HD as (Hn & Hu & Hg). pose proof Hu as [Hl Hh].
    case_decide as Hz.
    + destruct (started s) eqn:Es; [eapply I_step_free; [done| |done]; by right|].
      assert (Hng : forall m, vl (V s) p <> Some (m, true)).
      { intros m E. destruct (dmp s) eqn:Ed; [|apply Hg; [done|by exists m]]. destruct (i_st _ _ _ _ HI Es Ed) as [Hq1 Hq2].
        apply (i_live _ _ _ _ HI) in E as [E|(t' & z & E)]; [destruct (Hq1 (hash p)) as [E2 _]; rewrite E2 in E; by apply elem_of_nil in E|by rewrite Hq2 in E]. }
      destruct (vl (V s) p) as [[m trk]|] eqn:Ev; [|done]. destruct trk; [by destruct (Hng m)|]. rewrite (libc_free_inv _ _ _ _ HI Ev) in HS. injection HS as <- _.
      apply I_log. unfold V. cbn [hist log set_mb]. rewrite view_snoc. by apply I_libc_free.
    + destruct (started s) eqn:Es; cbn [negb] in HS.
      * case_decide; [|done]. destruct (can_place s a (n + 16)) eqn:Ec; [|done]. injection HS as <- _. apply can_place_spec in Ec as [Ha Hf]. unfold libc_alloc. rewrite Z.max_r in * by lia.
        pose proof (I_alloc delay hash s (V s) t (TCopy p (mkr (a + 8) n)) (mkr (a + 8) n) HI Et eq_refl) as H2. cbn [ru rn] in H2.
        replace (a + 8 - 8) with a in H2 by lia. apply H2; try done; try lia. intros p' r' [= <- <-]. split_and!; try done; [lia|].
        destruct (dmp s) eqn:Ed; [done|]. exfalso. assert (started s = false) by (apply (i_off _ _ _ _ HI); by rewrite Ed). congruence.
      * assert (Hng : forall m, vl (V s) p <> Some (m, true)).
        { intros m E. destruct (dmp s) eqn:Ed; [|apply Hg; [done|by exists m]]. destruct (i_st _ _ _ _ HI Es Ed) as [Hq1 Hq2].
          apply (i_live _ _ _ _ HI) in E as [E|(t' & z & E)]; [destruct (Hq1 (hash p)) as [E2 _]; rewrite E2 in E; by apply elem_of_nil in E|by rewrite Hq2 in E]. }
        eapply I_libc_realloc; [done|done|done|done| |done]. lia.
  - destruct (thr s t) as [|p r|] eqn:Et; try done. destruct (i_copy _ _ _ _ HI _ _ _ Et) as (Hp & Hl & Hheld & Hoff).
    destruct (lookup_rec (tab s (hash p)) p) as [[u n]|] eqn:Ef.
    + destruct (check_ptr _ _); [|done]. injection HS as <- _. apply lookup_rec_Some in Ef as [Hin E]. cbn in E. subst u.
      assert (Ev : vl (V s) p = Some (n, true)) by (apply (i_live _ _ _ _ HI); by left). cbn [ru rn].
      pose proof (I_copy_found s t p r n HI Et Ev) as H2. cbn zeta in H2. unfold V at 1. cbn [hist log set_thr].
      match goal with |- context [hist (retire delay ?x (hash p) (mkr p n))] => assert (Eh : hist (retire delay x (hash p) (mkr p n)) = hist s) by (unfold retire; by destruct delay) end.
      rewrite Eh, view_snoc. exact H2.
    + pose proof (I_release delay hash s (V s) t p r HI Et) as HI1. set (s1 := set_thr (upd (thr s) t TIdle) (release s r)) in *.
      assert (Hr : 0 < rn r). { pose proof (own_priv hash s (V s) t r) as Ho. rewrite Et in Ho. specialize (Ho eq_refl). assert (16 < rn r + 16) by (by eapply (i_size _ _ _ _ HI); [exact Ho|]). lia. }
      eapply (I_libc_realloc s1 t p (rn r) a junk); [exact HI1|done| | |done|exact HS].
      * intros t'. cbn. unfold upd. case_decide as E; [intros []|]. intros H. by apply E, Hheld.
      * intros m E. change (V s1) with (V s) in E. apply (i_live _ _ _ _ HI) in E as [E|(t' & z & E)].
        -- by eapply lookup_rec_None in E.
        -- assert (t' = t) by (apply Hheld; rewrite E; done). congruence.
  - destruct (thr s t) as [| |r z re] eqn:Et; try done. injection HS as <- _. destruct re.
    + pose proof (i_z _ _ _ _ HI _ _ _ Et) as ->. exact (I_insert delay hash s (V s) t r HI Et).
    + assert (Hh : hid (thr s t) = Some r) by (by rewrite Et). set (g := λ _ : Z, Some (if z then 0 else 0xcc)).
      assert (Hr : 0 < rn r). { pose proof (own_priv hash s (V s) t r) as Ho. rewrite Et in Ho. specialize (Ho eq_refl). assert (16 < rn r + 16) by (by eapply (i_size _ _ _ _ HI); [exact Ho|]). lia. }
      pose proof (I_expose delay hash s (V s) t r g HI Hh ltac:(done)) as HI1.
      pose proof (I_insert delay hash _ _ t r HI1 ltac:(cbn; by rewrite upd_eq)) as HI2.
      set (vx := mkv (guarded (ru r) (rn r) g (vm (V s))) (upd (vl (V s)) (ru r) (Some (rn r, true)))) in *.
      set (sx := set_thr (upd (thr s) t TIdle) (set_tab (upd (tab s) (hash (ru r)) (r :: tab s (hash (ru r)))) s)) in *.
      assert (Hm : forall y, (if z then fill (ru r) (rn r) (λ _, Some 0) (mem s) else mem s) y = fill (ru r) (rn r) g (mem s) y).
      { intros y. unfold g. destruct z; [done|]. unfold fill. case_decide as Hy; [|done]. destruct (i_hid _ _ _ _ HI _ _ y Hh) as [_ E]; [unfold inr; lia|].
        rewrite E. unfold raw. rewrite decide_False by lia. by rewrite decide_True by lia. }
      pose proof (λ H, I_mem_ext delay hash _ _ (if z then fill (ru r) (rn r) (λ _, Some 0) (mem s) else mem s) H HI2) as HI3. specialize (HI3 Hm). cbn in HI3.
      assert (Ethr : forall t', upd (upd (thr s) t (TIns r false true)) t TIdle t' = upd (thr s) t TIdle t') by (intros t'; unfold upd; by case_decide).
      assert (HIx : I (set_mb (if z then fill (ru r) (rn r) (λ _, Some 0) (mem s) else mem s) (blk s) sx) vx).
      { destruct HI3. constructor; cbn [mem blk tab d1 d2 thr started dmp hist set_mb sx set_thr set_tab] in *; try done.
        - eapply ho_iff; [|exact i_heap]. intros [] b l; cbn; try done. by rewrite Ethr.
        - intros w b l H. apply (i_size w b l). destruct w; cbn in *; try done. by rewrite Ethr.
        - intros t' r' y. rewrite <-Ethr. apply i_hid.
        - intros y H. apply i_agree. intros t' r'. rewrite Ethr. apply H.
        - intros u n. rewrite i_live. apply or_iff_compat_l. by setoid_rewrite Ethr.
        - intros t' r' z'. rewrite <-Ethr. apply i_z.
        - intros t' p r'. rewrite <-Ethr. intros H. destruct (i_copy _ _ _ H) as (? & ? & H3 & ?). split_and!; try done. intros t2. rewrite <-Ethr. apply H3.
        - intros H1 H2. destruct (i_st H1 H2) as [Hq1 Hq2]. split; [exact Hq1|]. intros t'. etrans; [symmetry; exact (Ethr t')|]. apply Hq2.
        - intros i p c H1. destruct (i_quietd _ _ _ H1) as [Hq1 Hq2]. split; [exact Hq1|]. intros t'. etrans; [symmetry; exact (Ethr t')|]. apply Hq2. }
      destruct z; (apply I_log; unfold V; cbn [hist log set_thr set_tab set_mb]; rewrite view_snoc; exact HIx).
  - destruct (thr s t); try done. by eapply I_step_free.
  - destruct (mem s x) eqn:Em; [|done]. injection HS as <- _. apply I_log. unfold V. cbn [hist log set_mb]. rewrite view_snoc. by apply I_poke.
  - destruct (delay && bool_decide (i < nb)%nat) eqn:E1; [|done]. destruct (forallb _ _); [|done]. injection HS as <- _. rewrite foldl_release.
    cbn [mem blk set_mb]. unfold V. cbn [hist log]. unfold view_of. rewrite fold_left_app. apply I_log.
    pose proof (I_sweep_drop i (d1 s i) s (V s) eq_refl HI) as H2. pose proof (I_rotate delay hash _ _ i H2 ltac:(cbn; by rewrite upd_eq)) as H3.
    apply (I_d1_ext _ _ (upd (d1 s) i (d2 s i))) in H3; [exact H3|]. intros j. cbn. unfold upd. by repeat case_decide.
  - destruct (dmp s) eqn:Ed; [|done]. injection HS as <- _. apply I_dmp; try done.
    + intros i p c [= _ _ _ Es]. by apply (i_st _ _ _ _ HI).
    + intros i p c sv [= <- Ep _ _]. by apply head_elem.
  - destruct (dmp s) as [|i [p|] c sv] eqn:Ed; [done| |].
    + destruct (list_find _ (tab s i)) as [[k r]|] eqn:El; [|done]. injection HS as <- _.
      assert (Hoff : started s = false) by (apply (i_off _ _ _ _ HI); by rewrite Ed). apply I_dmp; try done.
      * intros _ t q x H. destruct (i_copy _ _ _ _ HI _ _ _ H) as (_ & _ & _ & ?). congruence.
      * intros j q c' [= _ _ _ ->]. by eapply i_quietd.
      * intros j q c' sv' [= <- Eq _ _]. apply fmap_Some in Eq as (x & E2 & ->). exists x. split; [by eapply elem_of_list_lookup_2|done].
    + assert (Hoff : started s = false) by (apply (i_off _ _ _ _ HI); by rewrite Ed). case_decide.
      * injection HS as <- _. apply I_dmp; try done.
        -- intros _ t q x H2. destruct (i_copy _ _ _ _ HI _ _ _ H2) as (_ & _ & _ & ?). congruence.
        -- intros j q c' [= _ _ _ ->]. by eapply i_quietd.
        -- intros j q c' sv' [= <- Eq _ _]. by apply head_elem.
      * injection HS as <- _. apply I_dmp; try done. intros -> _. by eapply i_quietd.
Qed.
End M.
