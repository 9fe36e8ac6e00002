(** Frame properties of the debugging allocator, the delayed blocks, and what a clean program keeps. *)
From Verif Require Import DbgAllocModel DbgAllocSpec DbgAllocHeap DbgAllocProof DbgAllocProof2 DbgAllocProof3 DbgAllocEff.
Local Open Scope Z_scope.

Section M.
Context (delay : bool) (nb : nat) (hash : Z -> nat).
Notation own := (own hash).
Notation I := (I delay hash).
Notation step := (step delay nb hash).
Notation V := (V delay).
Notation eff := (eff delay hash).
Definition P (s : sys) : Z -> option Z := pend_of delay (hist s).
Lemma pfold_fst h : forall v d, fst (fold_left (pstep delay) h (v, d)) = fold_left (vstep delay) h v.
Proof. induction h as [|x h IH]; intros v d; [done|]. exact (IH _ _). Qed.
Lemma pend_app h k : pend_of delay (h ++ k) = snd (fold_left (pstep delay) k (view_of delay h, pend_of delay h)).
Proof.
  unfold pend_of. rewrite fold_left_app. do 2 f_equal. rewrite (surjective_pairing (fold_left _ _ _)) at 1. by rewrite pfold_fst.
Qed.
Definition PI (s : sys) : Prop := forall p m, P s p = Some m <-> mkr p m ∈ dl s (hash p).
(** an owned region that the program can see *)
Definition seen (s : sys) (w : role) (b l : Z) : Prop := own s (V s) w b l /\ forall t, w = WPriv t -> hid (thr s t) = None.
Lemma live_seen s p n trk : I s (V s) -> vl (V s) p = Some (n, trk) -> exists w, seen s w (lbase p trk) (llen n trk) /\ w <> WDead /\ (w = WLibc <-> trk = false).
Proof.
  intros HI H. pose proof (live_own _ _ _ _ _ _ _ HI H) as Ho. destruct trk; cbn.
  - destruct Ho as (_ & w & Ho & [[-> Hin]|(t & -> & Ht)]).
    + exists WTab. split; [|done]. by split.
    + exists (WPriv t). split; [|done]. split; [done|]. intros t' [= <-]. by rewrite Ht.
  - destruct Ho as [Ho _]. exists WLibc. split; [|done]. by split.
Qed.
Lemma dead_seen s r : I s (V s) -> r ∈ dl s (hash (ru r)) -> seen s WDead (ru r - 8) (rn r + 16).
Proof. intros HI H. split; [|done]. by apply own_dead. Qed.
Lemma seen_mapped s w b l y : I s (V s) -> seen s w b l -> b <= y < b + l -> mem s y <> None.
Proof. intros HI [H _]. by eapply mapped. Qed.
Lemma seen_sep s w b l w' b' l' y : I s (V s) -> seen s w b l -> seen s w' b' l' -> b <= y < b + l -> b' <= y < b' + l' -> w = w' /\ b = b' /\ l = l'.
Proof. intros HI [H _] [H' _] Hy Hy'. by eapply (ho_sep _ _ _ _ _ _ _ _ _ y (i_heap _ _ _ _ HI)). Qed.
Lemma seen_hid s w b l y t r : I s (V s) -> seen s w b l -> b <= y < b + l -> hid (thr s t) = Some r -> ~ inr r y.
Proof. intros HI [Ho Hw] Hy Hh Hi. destruct (hid_sep _ _ _ _ _ _ _ _ _ _ HI Hh Hi Ho Hy) as (-> & _). rewrite (Hw t eq_refl) in Hh. done. Qed.
Lemma seen_view s w b l y : I s (V s) -> seen s w b l -> b <= y < b + l -> mem s y = vm (V s) y.
Proof. intros HI Hs Hy. apply (i_agree _ _ _ _ HI). intros t r Hh. by eapply seen_hid. Qed.
Definition ended (h : list hev) (p : Z) : Prop := h = [HFree p] \/ exists t n q trk junk, h = [HRealloc t p n q trk junk].
Lemma gone_out p n m y : 0 <= n -> ~ (p - 8 <= y < p + n + 8) -> gone delay p n m y = m y.
Proof. intros Hn Hy. unfold gone. destruct delay; unfold unmap; apply fill_out; lia. Qed.
Lemma unmaps_out l y : forall m, (forall r, r ∈ l -> ~ (ru r - 8 <= y < ru r + rn r + 8)) -> unmaps l m y = m y.
Proof.
  induction l as [|r l IH]; intros m H; cbn; [done|]. change (unmaps l (unmap (ru r - 8) (rn r + 16) m) y = m y). rewrite IH.
  - unfold unmap. apply fill_out. specialize (H r ltac:(apply elem_of_list_here)). lia.
  - intros x Hx. apply H. by apply elem_of_list_further.
Qed.
Lemma unmaps_in l y : forall m r, r ∈ l -> ru r - 8 <= y < ru r + rn r + 8 -> unmaps l m y = None.
Proof.
  induction l as [|x l IH]; intros m r Hr Hy; [by apply elem_of_nil in Hr|]. cbn. change (unmaps l (unmap (ru x - 8) (rn x + 16) m) y = None).
  apply elem_of_cons in Hr as [->|Hr]; [|by eapply IH].
  destruct (decide (Exists (λ r, ru r - 8 <= y < ru r + rn r + 8) l)) as [Hx|Hx].
  - apply Exists_exists in Hx as (r & H1 & H2). by eapply IH.
  - rewrite unmaps_out; [unfold unmap; rewrite fill_in by lia; done|]. intros r Hr Hc. apply Hx, Exists_exists. by exists r.
Qed.
(** a visible byte changes only by a write of the program, by the end of its block, or when the delayed block is released *)
Lemma eff_frame s s' h w b l y : I s (V s) -> eff s s' h -> seen s w b l -> b <= y < b + l ->
  mem s' y = mem s y \/ (exists c, h = [HPoke y c] /\ mem s' y = Some c) \/
  (exists p n trk, vl (V s) p = Some (n, trk) /\ ended h p /\ b = lbase p trk /\ l = llen n trk /\ w <> WDead /\
     mem s' y = (if trk && delay then Some 0xee else None) /\ (trk && delay = true -> p <= y < p + n)) \/
  (exists i r, delay = true /\ r ∈ d1 s i /\ h = ((λ r, HDrop (ru r) (rn r)) <$> d1 s i) /\ w = WDead /\ b = ru r - 8 /\ l = rn r + 16 /\ mem s' y = None).
Proof.
  intros HI HE Hs Hy. destruct HE as [Hm _|a n g Hn Hf Hm _|t n z q Ht Hm _|t n z q junk Hn Hf Hm _|t p m n q Ht Ev Hg Hm _|t p m n q junk M Ev Hn HM Hf Hm _
    |p n Hu Ev Hg Hm _|p n Ev Hm _|x c Hm _|i Hd Hg Hm _ _].
  - left. by rewrite Hm.
  - left. rewrite Hm. apply fill_out. intros Hc. eapply seen_mapped; [exact HI|exact Hs|exact Hy|]. by apply Hf.
  - left. rewrite Hm. destruct z; [|done]. apply fill_out. intros Hc. eapply (seen_hid s _ _ _ y t (mkr q n) HI Hs Hy); [by rewrite Ht|]. unfold inr. cbn. lia.
  - left. rewrite Hm. apply fill_out. intros Hc. eapply seen_mapped; [exact HI|exact Hs|exact Hy|]. by apply Hf.
  - pose proof (live_own _ _ _ _ _ _ _ HI Ev) as (Hm0 & _). destruct (live_seen _ _ _ _ HI Ev) as (w' & Hs' & Hw' & _).
    assert (Hq : ~ (q - 8 <= y < q + n + 8)). { intros Hc. eapply (seen_hid s _ _ _ y t (mkr q n) HI Hs Hy); [by rewrite Ht|]. unfold inr. cbn. lia. }
    assert (Hnn : 0 < n). { pose proof (own_priv hash s (V s) t (mkr q n)) as Ho. rewrite Ht in Ho. specialize (Ho eq_refl). cbn [ru rn] in Ho. assert (16 < n + 16) by (by eapply (i_size _ _ _ _ HI); [exact Ho|]). lia. }
    destruct (decide (p - 8 <= y < p + m + 8)) as [Hc|Hc].
    + destruct (seen_sep _ _ _ _ _ _ _ y HI Hs Hs' Hy) as (-> & -> & ->); [cbn; lia|]. rewrite Hm. unfold gone. destruct delay.
      * destruct (decide (p <= y < p + m)) as [Hd|Hd].
        -- right. right. left. exists p, m, true. split_and!; try done. { right. by eexists _, _, _, _, _. } by rewrite fill_in by lia.
        -- left. rewrite !fill_out by lia. done.
      * right. right. left. exists p, m, true. split_and!; try done. { right. by eexists _, _, _, _, _. } unfold unmap. by rewrite fill_in by lia.
    + left. rewrite Hm, gone_out by lia. apply fill_out. lia.
  - destruct (live_seen _ _ _ _ HI Ev) as (w' & Hs' & Hw' & _).
    assert (EM : M y = mem s y). { destruct (HM y) as [?|(t' & r & H1 & H2)]; [done|]. by destruct (seen_hid _ _ _ _ _ _ _ HI Hs Hy H1). }
    assert (Hq : ~ (q <= y < q + Z.max 1 n)). { intros Hc. eapply (seen_mapped _ _ _ _ y HI Hs Hy). rewrite <-EM. by apply Hf. }
    destruct (decide (p <= y < p + Z.max 1 m)) as [Hc|Hc].
    + destruct (seen_sep _ _ _ _ _ _ _ y HI Hs Hs' Hy) as (-> & -> & ->); [cbn; lia|]. right. right. left. exists p, m, false. split_and!; try done.
      * right. by eexists _, _, _, _, _.
      * rewrite Hm. unfold unmap. by rewrite fill_in by lia.
    + left. rewrite Hm. unfold unmap. by rewrite !fill_out by lia.
  - pose proof (live_own _ _ _ _ _ _ _ HI Ev) as (Hm0 & _). destruct (live_seen _ _ _ _ HI Ev) as (w' & Hs' & Hw' & _).
    destruct (decide (p - 8 <= y < p + n + 8)) as [Hc|Hc]; [|left; by rewrite Hm, gone_out by lia].
    destruct (seen_sep _ _ _ _ _ _ _ y HI Hs Hs' Hy) as (-> & -> & ->); [cbn; lia|]. rewrite Hm. unfold gone. destruct delay.
    + destruct (decide (p <= y < p + n)) as [Hd|Hd].
      * right. right. left. exists p, n, true. split_and!; try done. { by left. } by rewrite fill_in by lia.
      * left. by rewrite fill_out by lia.
    + right. right. left. exists p, n, true. split_and!; try done. { by left. } unfold unmap. by rewrite fill_in by lia.
  - destruct (live_seen _ _ _ _ HI Ev) as (w' & Hs' & Hw' & _).
    destruct (decide (p <= y < p + Z.max 1 n)) as [Hc|Hc]; [|left; rewrite Hm; unfold unmap; by rewrite fill_out by lia].
    destruct (seen_sep _ _ _ _ _ _ _ y HI Hs Hs' Hy) as (-> & -> & ->); [cbn; lia|]. right. right. left. exists p, n, false. split_and!; try done. { by left. }
    rewrite Hm. unfold unmap. by rewrite fill_in by lia.
  - destruct (decide (x = y)) as [->|Hx].
    + right. left. exists c. split; [done|]. rewrite Hm. unfold setb. by rewrite fill_in by lia.
    + left. rewrite Hm. unfold setb. apply fill_out. lia.
  - destruct (decide (Exists (λ r, ru r - 8 <= y < ru r + rn r + 8) (d1 s i))) as [Hx|Hx].
    + apply Exists_exists in Hx as (r & H1 & H2). right. right. right. exists i, r.
      assert (Hr : r ∈ dl s (hash (ru r))). { assert (Hin : r ∈ dl s i) by (apply elem_of_app; by left). by rewrite (i_hd _ _ _ _ HI _ _ Hin). }
      pose proof (dead_seen _ _ HI Hr) as Hs'. destruct (seen_sep _ _ _ _ _ _ _ y HI Hs Hs' Hy) as (-> & -> & ->); [lia|].
      split_and!; try done. rewrite Hm. by eapply unmaps_in.
    + left. rewrite Hm. apply unmaps_out. intros r Hr Hc. apply Hx, Exists_exists. by exists r.
Qed.
(** the delayed blocks are those of the history *)
Lemma PI_init : PI init.
Proof. intros p m. unfold P, dl, init. cbn. split; [done|]. intros H. by apply elem_of_nil in H. Qed.
Lemma live_not_dl s p n m trk : I s (V s) -> vl (V s) p = Some (n, trk) -> ~ mkr p m ∈ dl s (hash p).
Proof.
  intros HI Ev Hd. destruct (live_seen _ _ _ _ HI Ev) as (w & Hs & Hw & _). pose proof (dead_seen s (mkr p m) HI Hd) as Hs'. cbn [ru rn] in Hs'.
  assert (16 < m + 16). { destruct Hs' as [Ho _]. by eapply (i_size _ _ _ _ HI); [exact Ho|]. }
  pose proof (live_own _ _ _ _ _ _ _ HI Ev) as Hn. destruct trk; cbn [lbase llen] in *.
  - destruct Hn as [Hn _]. destruct (seen_sep _ _ _ _ _ _ _ p HI Hs Hs') as (E & _); [lia|lia|congruence].
  - destruct (seen_sep _ _ _ _ _ _ _ p HI Hs Hs') as (E & _); [lia|lia|congruence].
Qed.
Lemma PI_drops l : forall v d, forall p m, snd (fold_left (pstep delay) ((λ r, HDrop (ru r) (rn r)) <$> l) (v, d)) p = Some m <-> d p = Some m /\ p ∉ (ru <$> l).
Proof.
  induction l as [|r l IH]; intros v d p m; cbn.
  - split; [|by intros [? _]]. intros H. split; [done|]. apply not_elem_of_nil.
  - unfold pstep at 2. cbn [fst snd]. rewrite IH. rewrite not_elem_of_cons. unfold upd. case_decide as E; [subst; naive_solver|]. naive_solver.
Qed.
Lemma PI_step s s' h : I s (V s) -> PI s -> hist s' = hist s ++ h -> eff s s' h -> PI s'.
Proof.
  intros HI HP Hh HE p m. unfold P. rewrite Hh, pend_app. fold (P s). fold (V s).
  destruct HE as [Hm Hdl|a n g Hn Hf Hm Hdl|t n z q Ht Hm Hdl|t n z q junk Hn Hf Hm Hdl|t p0 m0 n q Ht Ev Hg Hm Hdl|t p0 m0 n q junk M Ev Hn HM Hf Hm Hdl
    |p0 n Hu Ev Hg Hm Hdl|p0 n Ev Hm Hdl|x c Hm Hdl|i Hd Hg Hm Hd1 Hd2]; cbn [fold_left pstep fst snd]; unfold pstep; cbn [fst snd]; try (rewrite (Hdl (mkr p m)); apply HP).
  - rewrite Ev. rewrite (Hdl (mkr p m)). destruct delay eqn:Ed; [|rewrite (HP p m); naive_solver]. unfold upd. case_decide as E.
    + subst p0. pose proof (live_not_dl s p m0 m true) as Hnd. rewrite Ed in Hnd. specialize (Hnd HI Ev). split; [intros [= <-]; by right|]. intros [?|(_ & _ & [= <-])]; done.
    + rewrite (HP p m). split; [by left|]. intros [?|(_ & _ & [= <- <-])]; done.
  - rewrite Ev. rewrite (Hdl (mkr p m)). apply HP.
  - rewrite Ev. rewrite (Hdl (mkr p m)). destruct delay eqn:Ed; [|rewrite (HP p m); naive_solver]. unfold upd. case_decide as E.
    + subst p0. pose proof (live_not_dl s p n m true) as Hnd. rewrite Ed in Hnd. specialize (Hnd HI Ev). split; [intros [= <-]; by right|]. intros [?|(_ & _ & [= <-])]; done.
    + rewrite (HP p m). split; [by left|]. intros [?|(_ & _ & [= <- <-])]; done.
  - rewrite Ev. rewrite (Hdl (mkr p m)). apply HP.
  - rewrite PI_drops, (HP p m). unfold dl. rewrite Hd1, Hd2. unfold upd. destruct (decide (hash p = i)) as [E|E].
    + rewrite app_nil_r. subst i. rewrite elem_of_app. split.
      * intros [[H|H] Hn]; [|done]. destruct Hn. apply elem_of_list_fmap. by exists (mkr p m).
      * intros H. split; [by right|]. intros Hc. apply elem_of_list_fmap in Hc as (r & Er & Hr). pose proof (i_nd _ _ _ _ HI (hash p)) as Hnd. rewrite fmap_app in Hnd.
        apply NoDup_app in Hnd as (_ & Hnd & _). apply (Hnd p); [apply elem_of_list_fmap; by exists r|]. apply elem_of_list_fmap. by exists (mkr p m).
    + split; [by intros [? _]|]. intros H. split; [done|]. intros Hc. apply elem_of_list_fmap in Hc as (r & Er & Hr).
      assert (Hin : r ∈ dl s i) by (apply elem_of_app; by left). apply E. rewrite Er. by eapply (i_hd _ _ _ _ HI).
Qed.
End M.
