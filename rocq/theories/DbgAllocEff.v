(** What one step of the debugging allocator does to memory and history. *)
From Verif Require Import DbgAllocModel DbgAllocSpec DbgAllocHeap DbgAllocProof DbgAllocProof2 DbgAllocProof3.
Local Open Scope Z_scope.

Section M.
Context (delay : bool) (nb : nat) (hash : Z -> nat).
Notation own := (own hash).
Notation I := (I delay hash).
Notation step := (step delay nb hash).
Notation V := (V delay).
Definition dl (s : sys) (i : nat) : list rec := d1 s i ++ d2 s i.
Definition same_dl (s s' : sys) : Prop := forall x i, x ∈ dl s' i <-> x ∈ dl s i.
Definition more_dl (s s' : sys) (p n : Z) : Prop := forall x i, x ∈ dl s' i <-> x ∈ dl s i \/ delay = true /\ i = hash p /\ x = mkr p n.
(** the old block after it is given up *)
Definition gone (p n : Z) (m : mem_t) : mem_t := if delay then fill p n (λ _, Some 0xee) m else unmap (p - 8) (n + 16) m.
Inductive eff (s s' : sys) : list hev -> Prop :=
| E0 : (forall y, mem s' y = mem s y) -> same_dl s s' -> eff s s' []
| E1 a n g : 0 <= n -> (forall y, a <= y < a + n -> mem s y = None) -> (forall y, mem s' y = fill a n g (mem s) y) -> same_dl s s' -> eff s s' []
| E2 t n z q : thr s t = TIns (mkr q n) z false -> (forall y, mem s' y = (if z then fill q n (λ _, Some 0) (mem s) else mem s) y) ->
    same_dl s s' -> eff s s' [HMalloc t n z q true (λ _, 0)]
| E3 t n z q junk : 0 <= n -> (forall y, q <= y < q + Z.max 1 n -> mem s y = None) ->
    (forall y, mem s' y = fill q (Z.max 1 n) (λ i, Some (if z && bool_decide (i < n) then 0 else junk i)) (mem s) y) ->
    same_dl s s' -> eff s s' [HMalloc t n z q false junk]
| E4 t p m n q : thr s t = TCopy p (mkr q n) -> vl (V s) p = Some (m, true) -> guards_ok (mem s) p m ->
    (forall y, mem s' y = gone p m (fill q (Z.min m n) (λ i, mem s (p + i)) (mem s)) y) -> more_dl s s' p m -> eff s s' [HRealloc t p n q true (λ _, 0)]
| E5 t p m n q junk M : vl (V s) p = Some (m, false) -> 0 < n -> (forall y, M y = mem s y \/ exists t r, hid (thr s t) = Some r /\ inr r y) ->
    (forall y, q <= y < q + Z.max 1 n -> M y = None) ->
    (forall y, mem s' y = unmap p (Z.max 1 m) (fill q (Z.max 1 n) (keep M p (Z.max 1 m) (λ i, Some (junk i))) M) y) -> same_dl s s' ->
    eff s s' [HRealloc t p n q false junk]
| E6 p n : usable delay s p -> vl (V s) p = Some (n, true) -> guards_ok (mem s) p n -> (forall y, mem s' y = gone p n (mem s) y) -> more_dl s s' p n -> eff s s' [HFree p]
| E7 p n : vl (V s) p = Some (n, false) -> (forall y, mem s' y = unmap p (Z.max 1 n) (mem s) y) -> same_dl s s' -> eff s s' [HFree p]
| E8 x b : (forall y, mem s' y = setb x b (mem s) y) -> same_dl s s' -> eff s s' [HPoke x b]
| E9 i : delay = true -> (forall r, r ∈ d1 s i -> guards_ok (mem s) (ru r) (rn r) /\ marked (mem s) (ru r) (rn r)) ->
    (forall y, mem s' y = unmaps (d1 s i) (mem s) y) -> d1 s' = upd (d1 s) i (d2 s i) -> d2 s' = upd (d2 s) i [] ->
    eff s s' ((λ r, HDrop (ru r) (rn r)) <$> d1 s i).

Lemma same_dl_refl s s' : d1 s' = d1 s -> d2 s' = d2 s -> same_dl s s'.
Proof. intros E1 E2 x i. unfold dl. by rewrite E1, E2. Qed.
Lemma eff_malloc s t n a z junk s' o : 0 <= n -> do_malloc s t n a z junk = Ok s' o -> exists h, hist s' = hist s ++ h /\ eff s s' h.
Proof.
  intros Hn. unfold do_malloc. destruct (thr s t) eqn:Et; try done. destruct (started s) eqn:Es; cbn [negb].
  - case_decide. { intros [= <- <-]. exists []. rewrite app_nil_r. split; [done|]. apply E0; [done|]. by apply same_dl_refl. }
    case_decide; [|done]. destruct (can_place s a (n + 16)) eqn:Ec; [|done]. intros [= <- <-].
    apply can_place_spec in Ec as [Ha Hf]. exists []. rewrite app_nil_r. split; [done|]. unfold libc_alloc. rewrite Z.max_r in * by lia.
    eapply (E1 _ _ a (n + 16)); [lia|done|done|by apply same_dl_refl].
  - destruct (can_place s a n) eqn:Ec; [|done]. intros [= <- <-]. apply can_place_spec in Ec as [Ha Hf]. eexists. split; [done|].
    eapply E3; [lia|done|done|by apply same_dl_refl].
Qed.
Lemma retire_dl s s0 p n (Hd1 : d1 s0 = d1 s) (Hd2 : d2 s0 = d2 s) : more_dl s (retire delay s0 (hash p) (mkr p n)) p n.
Proof.
  intros x i. unfold dl, retire. destruct delay; cbn [d1 d2 release set_mb]; rewrite ?Hd1, ?Hd2.
  - unfold upd. case_decide as E; [subst i|]; rewrite !elem_of_app, ?elem_of_cons; naive_solver.
  - naive_solver.
Qed.
Lemma eff_free s p s' o : I s (V s) -> (p = 0 \/ usable delay s p /\ (dmp s <> DOff -> ~ is_guarded delay s p)) -> do_free delay hash s p = Ok s' o ->
  exists h, hist s' = hist s ++ h /\ eff s s' h.
Proof.
  intros HI Hd. unfold do_free. destruct Hd as [->|[Hu Hg]].
  - rewrite (find_null _ _ _ _ HI). unfold libc_free. rewrite decide_True by done. intros [= <- <-]. exists []. split; [done|]. apply E0; [done|by apply same_dl_refl].
  - pose proof Hu as [Hl Hh]. destruct (vl (V s) p) as [[n trk]|] eqn:Ev; [|done]. pose proof (find_live _ _ _ _ _ _ _ HI Ev Hh) as Hf.
    pose proof (live_nz _ _ _ _ _ _ _ HI Ev) as Hz. destruct trk.
    + rewrite Hf. destruct (check_ptr _ _) eqn:Ec; [|done]. intros [= <- <-]. apply check_ptr_spec in Ec. cbn [ru rn] in Ec. exists [HFree p]. split.
      { unfold retire. by destruct delay. }
      eapply E6; [done|done|done| |].
      * intros y. unfold retire, gone. by destruct delay.
      * intros x i. rewrite <-(retire_dl s (set_tab (upd (tab s) (hash p) (unlink (tab s (hash p)) p)) s) p n eq_refl eq_refl x i). done.
    + rewrite Hf. rewrite (libc_free_inv _ _ _ _ _ _ HI Ev). rewrite decide_False by done. intros [= <- <-]. exists [HFree p]. split; [done|].
      eapply E7; [done|done|by apply same_dl_refl].
Qed.
Lemma eff_libc_realloc s0 s t p n a junk s' o : I s (V s) -> V s = V s0 -> hist s = hist s0 -> d1 s = d1 s0 -> d2 s = d2 s0 ->
  (forall y, mem s y = mem s0 y \/ exists t r, hid (thr s0 t) = Some r /\ inr r y) ->
  vl (V s) p <> None -> (forall m, vl (V s) p <> Some (m, true)) -> 0 < n ->
  do_libc_realloc s t p n a junk = Ok s' o -> exists h, hist s' = hist s0 ++ h /\ eff s0 s' h.
Proof.
  intros HI EV Eh Ed1 Ed2 Hm0 Hl Hg Hn. unfold do_libc_realloc. destruct (vl (V s) p) as [[m trk]|] eqn:Ev; [|done]. destruct trk; [by destruct (Hg m)|].
  pose proof (live_own _ _ _ _ _ _ _ HI Ev) as [Ho Hm]. pose proof (ho_own _ _ _ (i_heap _ _ _ _ HI) _ _ _ Ho) as Eb. rewrite Eb.
  destruct (can_place s a n) eqn:Ec; [|done]. apply can_place_spec in Ec as [Ha Hf].
  assert (Hsep : p + Z.max 1 m <= a \/ a + Z.max 1 n <= p) by (eapply fresh_sep; [exact HI|exact Ho|done|lia]).
  pose proof (live_nz _ _ _ _ _ _ _ HI Ev) as Hz.
  unfold libc_free. rewrite decide_False by done. unfold libc_alloc at 1. cbn [blk set_mb]. rewrite upd_ne by lia. rewrite Eb. intros [= <- <-].
  eexists. split; [cbn [hist log set_mb libc_alloc]; by rewrite Eh|]. eapply (E5 _ _ t p m n a junk (mem s)); try done.
  - by rewrite <-EV.
  - intros x i. unfold dl. cbn. by rewrite Ed1, Ed2.
Qed.
Lemma eff_step s e s' o : I s (V s) -> duty delay s e -> step s e = Ok s' o -> exists h, hist s' = hist s ++ h /\ eff s s' h.
Proof.
  intros HI HD HS. destruct e; cbn [step DbgAllocModel.step] in HS.
  - destruct (dmp s) eqn:Ed; [|done]. injection HS as <- _. exists []. rewrite app_nil_r. split; [done|]. apply E0; [done|].
    destruct (i_st _ _ _ _ HI HD Ed) as [Hq _]. intros x i. unfold dl. cbn. by destruct (Hq i) as (_ & -> & ->).
  - case_decide; [|done]. eapply eff_malloc; [|done]. lia.
  - case_decide; [|done]. eapply eff_malloc; [|done]. apply Z.mod_pos_bound. lia.
  - destruct (thr s t) eqn:Et; try done. case_decide as Hp; [done|]. destruct HD as (Hn & Hu & Hg). pose proof Hu as [Hl Hh].
    case_decide as Hz.
    + destruct (started s) eqn:Es; [eapply eff_free; [done| |done]; by right|].
      assert (Hng : forall m, vl (V s) p <> Some (m, true)).
      { intros m E. destruct (dmp s) eqn:Ed; [|apply Hg; [done|by exists m]]. destruct (i_st _ _ _ _ HI Es Ed) as [Hq1 Hq2].
        apply (i_live _ _ _ _ HI) in E as [E|(t' & z & E)]; [destruct (Hq1 (hash p)) as [E2 _]; rewrite E2 in E; by apply elem_of_nil in E|by rewrite Hq2 in E]. }
      destruct (vl (V s) p) as [[m trk]|] eqn:Ev; [|done]. destruct trk; [by destruct (Hng m)|]. rewrite (libc_free_inv _ _ _ _ _ _ HI Ev) in HS. injection HS as <- _.
      eexists. split; [done|]. eapply E7; [done|done|by apply same_dl_refl].
    + destruct (started s) eqn:Es; cbn [negb] in HS.
      * case_decide; [|done]. destruct (can_place s a (n + 16)) eqn:Ec; [|done]. injection HS as <- _. apply can_place_spec in Ec as [Ha Hf].
        exists []. rewrite app_nil_r. split; [done|]. unfold libc_alloc. rewrite Z.max_r in * by lia. eapply (E1 _ _ a (n + 16)); [lia|done|done|by apply same_dl_refl].
      * assert (Hng : forall m, vl (V s) p <> Some (m, true)).
        { intros m E. destruct (dmp s) eqn:Ed; [|apply Hg; [done|by exists m]]. destruct (i_st _ _ _ _ HI Es Ed) as [Hq1 Hq2].
          apply (i_live _ _ _ _ HI) in E as [E|(t' & z & E)]; [destruct (Hq1 (hash p)) as [E2 _]; rewrite E2 in E; by apply elem_of_nil in E|by rewrite Hq2 in E]. }
        eapply (eff_libc_realloc s s); try done; [by left|lia].
  - destruct (thr s t) as [|p r|] eqn:Et; try done. destruct (i_copy _ _ _ _ HI _ _ _ Et) as (Hp & Hl & Hheld & Hoff).
    destruct (lookup_rec (tab s (hash p)) p) as [[u n]|] eqn:Ef.
    + destruct (check_ptr _ _) eqn:Ec; [|done]. injection HS as <- _. apply lookup_rec_Some in Ef as [Hin E]. cbn in E. subst u.
      assert (Ev : vl (V s) p = Some (n, true)) by (apply (i_live _ _ _ _ HI); by left). cbn [ru rn]. apply check_ptr_spec in Ec. cbn [ru rn] in Ec.
      exists [HRealloc t p (rn r) (ru r) true (λ _, 0)]. split; [unfold retire; by destruct delay|]. eapply (E4 _ _ t p n); [by destruct r|done|done| |].
      * intros y. unfold retire, gone. by destruct delay.
      * set (s0 := set_mb _ _ _). intros x i. rewrite <-(retire_dl s s0 p n eq_refl eq_refl x i). done.
    + pose proof (I_release delay hash s (V s) t p r HI Et) as HI1. set (s1 := set_thr (upd (thr s) t TIdle) (release s r)) in *.
      assert (Hr : 0 < rn r). { pose proof (own_priv hash s (V s) t r) as Ho. rewrite Et in Ho. specialize (Ho eq_refl). assert (16 < rn r + 16) by (by eapply (i_size _ _ _ _ HI); [exact Ho|]). lia. }
      eapply (eff_libc_realloc s s1); try done.
      * intros y. destruct (decide (inr r y)) as [Hy|Hy]; [right; exists t, r; by rewrite Et|left]. cbn. unfold unmap. apply fill_out. unfold inr in Hy. lia.
      * intros m E. change (V s1) with (V s) in E. apply (i_live _ _ _ _ HI) in E as [E|(t' & z & E)].
        -- by eapply lookup_rec_None in E.
        -- assert (t' = t) by (apply Hheld; rewrite E; done). congruence.
  - destruct (thr s t) as [| |r z re] eqn:Et; try done. injection HS as <- _. destruct re.
    + pose proof (i_z _ _ _ _ HI _ _ _ Et) as ->. exists []. rewrite app_nil_r. split; [done|]. apply E0; [done|by apply same_dl_refl].
    + exists [HMalloc t (rn r) z (ru r) true (λ _, 0)]. split; [by destruct z|]. eapply E2; [by destruct r|by destruct z|by apply same_dl_refl; destruct z].
  - destruct (thr s t); try done. by eapply eff_free.
  - destruct (mem s x) eqn:Em; [|done]. injection HS as <- _. eexists. split; [done|]. eapply E8; [done|by apply same_dl_refl].
  - destruct (delay && bool_decide (i < nb)%nat) eqn:Ed; [|done]. destruct (forallb _ _) eqn:Ef; [|done]. injection HS as <- _. rewrite foldl_release.
    eexists. split; [done|]. apply andb_true_iff in Ed as [Ed _]. apply E9; try done. intros r Hr. rewrite forallb_forall in Ef.
    apply elem_of_list_In, Ef, andb_true_iff in Hr as [H1 H2]. by rewrite <-check_ptr_spec, <-all_ee_spec.
  - destruct (dmp s) eqn:Ed; [|done]. injection HS as <- _. exists []. rewrite app_nil_r. split; [done|]. apply E0; [done|by apply same_dl_refl].
  - exists []. rewrite app_nil_r. destruct (dmp s) as [|i [p|] c sv] eqn:Ed; [done| |].
    + destruct (list_find _ (tab s i)) as [[k r]|] eqn:El; [|done]. injection HS as <- _. split; [done|]. apply E0; [done|by apply same_dl_refl].
    + case_decide; injection HS as <- _; (split; [done|]); apply E0; try done; by apply same_dl_refl.
Qed.
End M.
