(** What a program that stays inside its blocks keeps intact; when the allocator aborts. *)
From Verif Require Import DbgAllocModel DbgAllocSpec DbgAllocHeap DbgAllocProof DbgAllocProof2 DbgAllocProof3 DbgAllocEff DbgAllocProof4.
Local Open Scope Z_scope.

Section M.
Context (delay : bool) (nb : nat) (hash : Z -> nat).
Notation own := (own hash).
Notation I := (I delay hash).
Notation step := (step delay nb hash).
Notation V := (V delay).
Notation eff := (eff delay hash).
Notation P := (P delay).
Notation seen := (seen delay hash).
Definition J (s : sys) : Prop := I s (V s) /\ PI delay hash s.
Lemma J_init : J init.
Proof. split; [apply I_init|apply PI_init]. Qed.
Lemma J_step s e s' o : J s -> duty delay s e -> step s e = Ok s' o -> J s'.
Proof.
  intros [HI HP] HD HS. split; [by eapply I_step|]. destruct (eff_step _ _ _ _ _ _ _ HI HD HS) as (h & Hh & HE). by eapply PI_step.
Qed.
Definition born (h : list hev) (p n : Z) (trk : bool) : Prop :=
  (exists t z junk, h = [HMalloc t n z p trk junk]) \/ exists t p0 junk, h = [HRealloc t p0 n p trk junk].
Lemma drops_vl l : forall v, vl (fold_left (vstep delay) ((λ r, HDrop (ru r) (rn r)) <$> l) v) = vl v.
Proof. induction l as [|r l IH]; intros v; [done|]. cbn. by rewrite IH. Qed.
Lemma kill_vl_eq p v u : vl (kill delay p v) u = if decide (u = p) then match vl v p with Some _ => None | None => vl v u end else vl v u.
Proof.
  unfold kill. destruct (vl v p) as [[m []]|] eqn:E; cbn; unfold upd; repeat case_decide; subst; try done.
Qed.
Lemma vl_back s s' h p n trk : hist s' = hist s ++ h -> eff s s' h -> vl (V s') p = Some (n, trk) -> vl (V s) p = Some (n, trk) /\ ~ ended h p \/ born h p n trk.
Proof.
  intros Hh HE. unfold DbgAllocProof3.V at 1. rewrite Hh. unfold view_of. rewrite fold_left_app. change (fold_left (vstep delay) (hist s) _) with (V s).
  assert (Hne : forall h, match h with [HFree _] | [HRealloc _ _ _ _ _ _] => False | _ => True end -> ~ ended h p).
  { intros h' H [E|(? & ? & ? & ? & ? & E)]; by rewrite E in H. }
  destruct HE as [Hm _|a n0 g Hn Hf Hm _|t n0 z q Ht Hm _|t n0 z q junk Hn Hf Hm _|t p0 m n0 q Ht Ev Hg Hm _|t p0 m n0 q junk M Ev Hn HM Hf Hm _
    |p0 n0 Hu Ev Hg Hm _|p0 n0 Ev Hm _|x c Hm _|i Hd Hg Hm _ _]; cbn [fold_left vstep vl].
  - intros H. left. split; [done|by apply Hne].
  - intros H. left. split; [done|by apply Hne].
  - unfold upd. case_decide as E; [|intros H; left; split; [done|by apply Hne]]. intros [= -> ->]. subst q. right. left. by eexists _, _, _.
  - unfold upd. case_decide as E; [|intros H; left; split; [done|by apply Hne]]. intros [= -> ->]. subst q. right. left. by eexists _, _, _.
  - unfold upd. case_decide as E; [intros [= -> ->]; subst q; right; right; by eexists _, _, _|]. rewrite kill_vl_eq. case_decide as E2; [by rewrite Ev|].
    intros H. left. split; [done|]. intros [?|(? & ? & ? & ? & ? & ?)]; simplify_eq.
  - unfold upd. case_decide as E; [intros [= -> ->]; subst q; right; right; by eexists _, _, _|]. rewrite kill_vl_eq. case_decide as E2; [by rewrite Ev|].
    intros H. left. split; [done|]. intros [?|(? & ? & ? & ? & ? & ?)]; simplify_eq.
  - rewrite kill_vl_eq. case_decide as E2; [by rewrite Ev|]. intros H. left. split; [done|]. intros [?|(? & ? & ? & ? & ? & ?)]; simplify_eq.
  - rewrite kill_vl_eq. case_decide as E2; [by rewrite Ev|]. intros H. left. split; [done|]. intros [?|(? & ? & ? & ? & ? & ?)]; simplify_eq.
  - intros H. left. split; [done|by apply Hne].
  - rewrite drops_vl. intros H. left. split; [done|]. apply Hne. by destruct (d1 s i) as [|? [|? ?]].
Qed.
Lemma pend_back s s' h p n : hist s' = hist s ++ h -> eff s s' h -> P s' p = Some n ->
  P s p = Some n /\ (forall m, HDrop p m ∉ h) \/ (delay = true /\ vl (V s) p = Some (n, true) /\ ended h p).
Proof.
  intros Hh HE. unfold DbgAllocProof4.P at 1. rewrite Hh, pend_app. fold (P s). fold (V s).
  destruct HE as [Hm _|a n0 g Hn Hf Hm _|t n0 z q Ht Hm _|t n0 z q junk Hn Hf Hm _|t p0 m n0 q Ht Ev Hg Hm _|t p0 m n0 q junk M Ev Hn HM Hf Hm _
    |p0 n0 Hu Ev Hg Hm _|p0 n0 Ev Hm _|x c Hm _|i Hd Hg Hm _ _]; cbn [fold_left].
  1-9: unfold pstep; cbn [fst snd].
  1-4,9: intros H; left; split; [done|]; intros m' Hc; repeat (apply elem_of_cons in Hc as [Hc|Hc]; [done|]); by apply elem_of_nil in Hc.
  - rewrite Ev. destruct delay eqn:Ed; unfold upd; [case_decide as E|].
    + intros [= <-]. subst p. right. split_and!; try done. right. by eexists _, _, _, _, _.
    + intros H; left; split; [done|]; intros m' Hc; apply elem_of_list_singleton in Hc; done.
    + intros H; left; split; [done|]; intros m' Hc; apply elem_of_list_singleton in Hc; done.
  - rewrite Ev. intros H; left; split; [done|]; intros m' Hc; apply elem_of_list_singleton in Hc; done.
  - rewrite Ev. destruct delay eqn:Ed; unfold upd; [case_decide as E|].
    + intros [= <-]. subst p. right. split_and!; try done. by left.
    + intros H; left; split; [done|]; intros m' Hc; apply elem_of_list_singleton in Hc; done.
    + intros H; left; split; [done|]; intros m' Hc; apply elem_of_list_singleton in Hc; done.
  - rewrite Ev. intros H; left; split; [done|]; intros m' Hc; apply elem_of_list_singleton in Hc; done.
  - rewrite (PI_drops delay hash). intros [H1 H2]. left. split; [done|]. intros m' Hc. apply elem_of_list_fmap in Hc as (r & [= -> ->] & Hr). apply H2, elem_of_list_fmap. by exists r.
Qed.
Lemma guarded_ok p n g m : 0 <= n -> guards_ok (guarded p n g m) p n.
Proof.
  intros Hn i Hi. unfold guarded, put. split.
  - rewrite decide_True by lia. do 2 f_equal. lia.
  - rewrite decide_False by lia. rewrite decide_True by lia. do 2 f_equal. lia.
Qed.
Lemma live_region s p n : I s (V s) -> vl (V s) p = Some (n, true) -> exists w, seen s w (p - 8) (n + 16) /\ w <> WDead /\ w <> WLibc /\ 0 < n.
Proof.
  intros HI H. pose proof (live_own _ _ _ _ _ _ _ HI H) as [Hn _]. destruct (live_seen _ _ _ _ _ _ HI H) as (w & Hs & H1 & H2). exists w. split_and!; try done.
  intros E. by apply H2 in E.
Qed.
Lemma born_ok s h s' p n : I s' (V s') -> hist s' = hist s ++ h -> vl (V s') p = Some (n, true) -> born h p n true -> guards_ok (mem s') p n.
Proof.
  intros HI Hh Ev HB. destruct (live_region _ _ _ HI Ev) as (w & Hs & _ & _ & Hn).
  assert (HG : guards_ok (vm (V s')) p n).
  { unfold DbgAllocProof3.V. rewrite Hh. destruct HB as [(t & z & junk & ->)|(t & p0 & junk & ->)]; rewrite view_snoc; cbn [vstep vm]; apply guarded_ok; lia. }
  intros i Hi. destruct (HG i Hi). rewrite !(seen_view _ _ _ _ _ _ _ HI Hs) by lia. done.
Qed.

(** what is intact as long as the program stays inside its blocks *)
Definition G (s : sys) : Prop :=
  (forall p n, vl (V s) p = Some (n, true) -> guards_ok (mem s) p n) /\
  (forall p n, P s p = Some n -> guards_ok (mem s) p n /\ marked (mem s) p n).
Lemma G_init : G init.
Proof. by split. Qed.
Definition cleanp (s : sys) (h : list hev) : Prop := forall x c, h = [HPoke x c] -> exists p n trk, vl (V s) p = Some (n, trk) /\ p <= x < p + n.
Lemma eff_ended s s' h p n : eff s s' h -> ended h p -> vl (V s) p = Some (n, true) ->
  delay = true -> forall y, p <= y < p + n -> mem s' y = Some 0xee.
Proof.
  intros HE He Ev Hd y Hy.
  destruct HE as [Hm _|a n0 g Hn Hf Hm _|t n0 z q Ht Hm _|t n0 z q junk Hn Hf Hm _|t p0 m n0 q Ht Ev' Hg Hm _|t p0 m n0 q junk M Ev' Hn HM Hf Hm _
    |p0 n0 Hu Ev' Hg Hm _|p0 n0 Ev' Hm _|x c Hm _|i _ Hg Hm _ _]; destruct He as [He|(? & ? & ? & ? & ? & He)]; try done.
  - assert (p0 = p) by congruence. subst p0. assert (m = n) by congruence. subst m. rewrite Hm. unfold gone. rewrite Hd. by rewrite fill_in by lia.
  - assert (p0 = p) by congruence. subst p0. congruence.
  - assert (p0 = p) by congruence. subst p0. assert (n0 = n) by congruence. subst n0. rewrite Hm. unfold gone. rewrite Hd. by rewrite fill_in by lia.
  - assert (p0 = p) by congruence. subst p0. congruence.
  - by destruct (d1 s i) as [|? [|? ?]].
  - by destruct (d1 s i) as [|? [|? ?]].
Qed.
Lemma G_step s s' h : J s -> I s' (V s') -> hist s' = hist s ++ h -> eff s s' h -> cleanp s h -> G s -> G s'.
Proof.
  intros [HI HP] HI' Hh HE HC [HG1 HG2].
  (* the guards of a live block do not change, ended or not, except that they disappear without delay *)
  assert (Hguard : forall p n y, vl (V s) p = Some (n, true) -> (ended h p -> delay = true) -> p - 8 <= y < p + n + 8 -> ~ (p <= y < p + n) -> mem s' y = mem s y).
  { intros p n y Ev He Hy Hy2. destruct (live_region _ _ _ HI Ev) as (w & Hs & H1 & H2 & Hn).
    destruct (eff_frame _ _ _ _ _ _ _ _ y HI HE Hs) as [?|[(c & Eh & _)|[(p' & n' & trk & Ev' & He' & Eb & El & _ & _ & Hd)|(i & r & _ & _ & _ & -> & _)]]]; [lia|done| | |done].
    - destruct (HC _ _ Eh) as (p' & n' & trk & Ev' & Hx). destruct (live_seen _ _ _ _ _ _ HI Ev') as (w' & Hs' & _ & Hw').
      destruct (seen_sep _ _ _ _ _ _ _ _ _ y HI Hs Hs') as (Ew & Eb & El); [lia|unfold lbase, llen; destruct trk; lia|].
      destruct trk; [cbn in *; assert (p' = p) by lia; subst; assert (n' = n) by lia; subst; lia|]. destruct H2. rewrite Ew. by apply Hw'.
    - destruct (live_seen _ _ _ _ _ _ HI Ev') as (w' & Hs' & _ & Hw').
      destruct (seen_sep _ _ _ _ _ _ _ _ _ y HI Hs Hs') as (Ew & _ & _); [lia|lia|].
      destruct trk; [|destruct H2; rewrite Ew; by apply Hw']. cbn in *. assert (p' = p) by lia. subst p'. assert (n' = n) by lia. subst n'.
      rewrite (He He') in *. destruct Hy2. by apply Hd. }
  split.
  - intros p n Ev. destruct (vl_back _ _ _ _ _ _ Hh HE Ev) as [[Ev0 Hne]|HB]; [|by eapply born_ok].
    intros i Hi. destruct (HG1 _ _ Ev0 i Hi) as [G1 G2].
    assert (0 < n). { by destruct (live_region _ _ _ HI Ev0) as (? & ? & ? & ? & ?). }
    rewrite !(Hguard p n) by (done || lia). done.
  - intros p n Hp. destruct (pend_back _ _ _ _ _ Hh HE Hp) as [[Hp0 Hnd]|(Hd & Ev & He)].
    + destruct (HG2 _ _ Hp0) as [G1 G2]. apply HP in Hp0. pose proof (dead_seen _ _ s (mkr p n) HI Hp0) as Hs. cbn [ru rn] in Hs.
      assert (Hn : 16 < n + 16). { destruct Hs as [Ho _]. by eapply (i_size _ _ _ _ HI); [exact Ho|]. }
      assert (Hsame : forall y, p - 8 <= y < p + n + 8 -> mem s' y = mem s y).
      { intros y Hy. destruct (eff_frame _ _ _ _ _ _ _ _ y HI HE Hs) as [?|[(c & Eh & _)|[(p' & n' & trk & Ev' & He' & Eb & El & Hw & _ & Hd)|(i & r & _ & Hr & Eh & _ & Eb & El & _)]]]; [lia|done| |done|].
        - destruct (HC _ _ Eh) as (p' & n' & trk & Ev' & Hx). destruct (live_seen _ _ _ _ _ _ HI Ev') as (w' & Hs' & Hw' & _).
          destruct (seen_sep _ _ _ _ _ _ _ _ _ y HI Hs Hs') as (Ew & _ & _); [lia|unfold lbase, llen; destruct trk; lia|]. congruence.
        - exfalso. apply (Hnd (rn r)). rewrite Eh. apply elem_of_list_fmap. exists r. split; [|done]. f_equal. lia. }
      split.
      * intros i Hi. destruct (G1 i Hi). rewrite !Hsame by lia. done.
      * intros i Hi. rewrite Hsame by lia. by apply G2.
    + assert (0 < n). { by destruct (live_region _ _ _ HI Ev) as (? & ? & ? & ? & ?). } split.
      * intros i Hi. destruct (HG1 _ _ Ev i Hi) as [G1 G2]. rewrite !(Hguard p n) by (done || lia). done.
      * intros i Hi. eapply eff_ended; try done. lia.
Qed.
(** when it aborts *)
Lemma libc_realloc_ok s t p n a junk : I s (V s) -> vl (V s) p <> None -> (forall m, vl (V s) p <> Some (m, true)) -> do_libc_realloc s t p n a junk <> Crash.
Proof.
  intros HI Hl Hg. unfold do_libc_realloc. destruct (vl (V s) p) as [[m trk]|] eqn:Ev; [|done]. destruct trk; [by destruct (Hg m)|].
  pose proof (live_own _ _ _ _ _ _ _ HI Ev) as [Ho Hm]. pose proof (ho_own _ _ _ (i_heap _ _ _ _ HI) _ _ _ Ho) as Eb. rewrite Eb.
  destruct (can_place s a n) eqn:Ec; [|done]. unfold libc_free. case_decide; [done|]. unfold libc_alloc. cbn [blk set_mb]. unfold upd. case_decide; [done|]. by rewrite Eb.
Qed.
Lemma free_crash s p : I s (V s) -> (p = 0 \/ usable delay s p) -> do_free delay hash s p = Crash -> exists n, vl (V s) p = Some (n, true) /\ ~ guards_ok (mem s) p n.
Proof.
  intros HI Hd. unfold do_free. destruct Hd as [->|Hu].
  - rewrite (find_null _ _ _ _ HI). unfold libc_free. by rewrite decide_True by done.
  - pose proof Hu as [Hl Hh]. destruct (vl (V s) p) as [[n trk]|] eqn:Ev; [|done]. pose proof (find_live _ _ _ _ _ _ _ HI Ev Hh) as Hf. destruct trk.
    + rewrite Hf. destruct (check_ptr _ _) eqn:Ec; [done|]. intros _. exists n. split; [done|]. intros H. apply (check_ptr_spec _ (mkr p n)) in H. congruence.
    + rewrite Hf. by rewrite (libc_free_inv _ _ _ _ _ _ HI Ev).
Qed.
Lemma unguarded_off s p : I s (V s) -> started s = false -> (dmp s <> DOff -> ~ is_guarded delay s p) -> forall m, vl (V s) p <> Some (m, true).
Proof.
  intros HI Es Hg m E. destruct (dmp s) eqn:Ed; [|apply Hg; [done|by exists m]]. destruct (i_st _ _ _ _ HI Es Ed) as [Hq1 Hq2].
  apply (i_live _ _ _ _ HI) in E as [E|(t' & z & E)]; [destruct (Hq1 (hash p)) as [E2 _]; rewrite E2 in E; by apply elem_of_nil in E|by rewrite Hq2 in E].
Qed.
Lemma crash_cases s e : J s -> duty delay s e -> step s e = Crash ->
  (exists p n, freeing s e p /\ vl (V s) p = Some (n, true) /\ ~ guards_ok (mem s) p n) \/
  (exists i p n, e = ESweep i /\ mkr p n ∈ d1 s i /\ ~ (guards_ok (mem s) p n /\ marked (mem s) p n)).
Proof.
  intros [HI HP] HD HS. destruct e; cbn [step DbgAllocModel.step duty] in HS, HD.
  - by destruct (dmp s).
  - case_decide; [|done]. unfold do_malloc in HS. destruct (thr s t); try done. destruct (started s); cbn [negb] in HS; [|by destruct (can_place _ _ _)].
    case_decide; [done|]. case_decide; [|done]. by destruct (can_place _ _ _).
  - case_decide; [|done]. unfold do_malloc in HS. destruct (thr s t); try done. destruct (started s); cbn [negb] in HS; [|by destruct (can_place _ _ _)].
    case_decide; [done|]. case_decide; [|done]. by destruct (can_place _ _ _).
  - destruct (thr s t) eqn:Et; try done. case_decide as Hp; [done|]. destruct HD as (Hn & Hu & Hg). case_decide as Hz.
    + destruct (started s) eqn:Es.
      * apply free_crash in HS as (m & H1 & H2); [|done|by right]. left. exists p, m. split_and!; done.
      * pose proof (unguarded_off _ _ HI Es Hg) as Hng. pose proof Hu as [Hl Hh]. destruct (vl (V s) p) as [[m trk]|] eqn:Ev; [|done]. destruct trk; [by destruct (Hng m)|].
        by rewrite (libc_free_inv _ _ _ _ _ _ HI Ev) in HS.
    + destruct (started s) eqn:Es; cbn [negb] in HS.
      * case_decide; [|done]. by destruct (can_place _ _ _).
      * destruct (libc_realloc_ok s t p n a junk HI); [by destruct Hu|by apply unguarded_off|done].
  - destruct (thr s t) as [|p r|] eqn:Et; try done. destruct (i_copy _ _ _ _ HI _ _ _ Et) as (Hp & Hl & Hheld & Hoff).
    destruct (lookup_rec (tab s (hash p)) p) as [[u n]|] eqn:Ef.
    + destruct (check_ptr _ _) eqn:Ec; [done|]. apply lookup_rec_Some in Ef as [Hin E]. cbn in E. subst u.
      left. exists p, n. split_and!; [by exists r|apply (i_live _ _ _ _ HI); by left|]. intros H. apply (check_ptr_spec _ (mkr p n)) in H. congruence.
    + pose proof (I_release delay hash s (V s) t p r HI Et) as HI1. set (s1 := set_thr (upd (thr s) t TIdle) (release s r)) in *.
      destruct (libc_realloc_ok s1 t p (rn r) a junk HI1); [done| |done]. intros m E. change (V s1) with (V s) in E. apply (i_live _ _ _ _ HI) in E as [E|(t' & z & E)].
      * by eapply lookup_rec_None in E.
      * assert (t' = t) by (apply Hheld; rewrite E; done). congruence.
  - by destruct (thr s t).
  - destruct (thr s t); try done. apply free_crash in HS as (m & H1 & H2); [|done|destruct HD as [?|[? _]]; auto]. left. exists p, m. split_and!; done.
  - destruct (mem s x) eqn:Em; [done|]. exfalso. destruct (vm (view_of delay (hist s)) x) eqn:E2; [|done]. rewrite (i_agree _ _ _ _ HI) in Em; [unfold DbgAllocProof3.V in Em; congruence|].
    intros t r H Hy. destruct (i_hid _ _ _ _ HI _ _ _ H Hy) as [E3 _]. unfold DbgAllocProof3.V in E3. congruence.
  - destruct (delay && _); [|done]. destruct (forallb _ _) eqn:Ef; [done|]. right. apply not_true_iff_false in Ef. rewrite forallb_forall in Ef.
    destruct (decide (Forall (λ r, check_ptr (mem s) r && all_ee (mem s) r = true) (d1 s i))) as [H|H].
    { destruct Ef. intros x Hx. rewrite Forall_forall in H. apply H. by apply elem_of_list_In. }
    apply not_Forall_Exists in H; [|intros ?; apply _]. apply Exists_exists in H as ([p n] & H1 & H2). exists i, p, n. split_and!; [done..|].
    intros [H3 H4]. apply H2. apply andb_true_iff. by rewrite check_ptr_spec, all_ee_spec.
  - by destruct (dmp s).
  - destruct (dmp s) as [|i [p|] c sv] eqn:Ed; [done| |by case_decide].
    destruct (list_find _ (tab s i)) as [[k r]|] eqn:El; [done|]. destruct (i_dmp _ _ _ _ HI _ _ _ _ Ed) as (r & H1 & H2).
    apply list_find_None in El. rewrite Forall_forall in El. by destruct (El r H1).
Qed.
End M.
