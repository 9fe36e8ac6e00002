(** Property C65: the debugging allocator (malloc, calloc, realloc, free of MALLOCDEBUG builds).  Model: DbgAllocModel.v, specification: DbgAllocSpec.v *)
From Verif Require Import DbgAllocModel DbgAllocSpec DbgAllocHeap DbgAllocProof DbgAllocProof2 DbgAllocProof3 DbgAllocEff DbgAllocProof4 DbgAllocProof5.
Local Open Scope Z_scope.

Section props.
(** with or without ENABLE_FREE_MEMORY_CHECK, any table size and hash function *)
Context (delay : bool) (nb : nat) (hash : Z -> nat).
Notation step := (step delay nb hash).
Notation V s := (view_of delay (hist s)).
Notation P s := (pend_of delay (hist s)).
Notation keeps D := (keeps delay nb hash D).
Notation duty := (duty delay).
Notation clean_duty := (clean_duty delay).
Notation reach := (reach delay nb hash duty).
Notation J := (J delay hash).

Lemma J_run es : forall s s' os, J s -> keeps duty s es -> run step s es = Ok s' os -> J s'.
Proof.
  induction es as [|e es IH]; intros s s' os HJ; cbn; [by intros _ [= <- _]|]. intros [HD HK].
  destruct (step s e) as [| |s1 o] eqn:E1; try done. destruct (run step s1 es) as [| |s2 os2] eqn:E2; try done. intros [= -> _].
  eapply IH; [|exact HK|exact E2]. by eapply J_step.
Qed.
Lemma reach_J s : reach s -> J s.
Proof. intros (es & os & HK & HR). eapply J_run; [|done|done]. apply J_init. Qed.

(** the program's blocks hold exactly what was put there: the bytes of every block are those computed from the calls and writes so far *)
Theorem C65_memory s p n trk y : reach s -> vl (V s) p = Some (n, trk) -> p <= y < p + n -> mem s y = vm (V s) y /\ mem s y <> None.
Proof.
  intros HR Ev Hy. destruct (reach_J s HR) as [HI _]. destruct (live_seen _ _ _ _ _ _ HI Ev) as (w & Hs & _).
  assert (Hy2 : lbase p trk <= y < lbase p trk + llen n trk) by (unfold lbase, llen; destruct trk; lia).
  split; [by eapply seen_view|by eapply seen_mapped].
Qed.
(** blocks with their guards, live or awaiting release, do not overlap *)
Theorem C65_disjoint s p n trk q m trk' : reach s -> vl (V s) p = Some (n, trk) -> vl (V s) q = Some (m, trk') -> p <> q ->
  lbase p trk + llen n trk <= lbase q trk' \/ lbase q trk' + llen m trk' <= lbase p trk.
Proof.
  intros HR E1 E2 Hne. destruct (reach_J s HR) as [HI _]. destruct (live_seen _ _ _ _ _ _ HI E1) as (w & [Hs _] & _ & Hw). destruct (live_seen _ _ _ _ _ _ HI E2) as (w' & [Hs' _] & _ & Hw').
  eapply (ho_disj _ _ _ (i_heap _ _ _ _ HI)); [by eapply (ho_own _ _ _ (i_heap _ _ _ _ HI))..|]. intros E. rewrite E in Hs.
  destruct (own_role _ _ _ _ _ _ _ _ _ HI Hs Hs') as [Ew El]. subst w'. assert (trk = trk'). { destruct trk, trk'; try done; [destruct (proj2 Hw' eq_refl)|destruct (proj2 Hw eq_refl)]; naive_solver. }
  subst trk'. unfold lbase in E. destruct trk; lia.
Qed.
Theorem C65_delayed_disjoint s p n q m trk : reach s -> P s p = Some n -> vl (V s) q = Some (m, trk) ->
  p - 8 + (n + 16) <= lbase q trk \/ lbase q trk + llen m trk <= p - 8.
Proof.
  intros HR E1 E2. destruct (reach_J s HR) as [HI HP]. apply HP in E1. destruct (dead_seen _ _ s (mkr p n) HI E1) as [Hs _]. cbn [ru rn] in Hs.
  destruct (live_seen _ _ _ _ _ _ HI E2) as (w' & [Hs' _] & Hw & _).
  eapply (ho_disj _ _ _ (i_heap _ _ _ _ HI)); [by eapply (ho_own _ _ _ (i_heap _ _ _ _ HI))..|]. intros E. rewrite E in Hs.
  destruct (own_role _ _ _ _ _ _ _ _ _ HI Hs Hs') as [Ew El]. congruence.
Qed.

Lemma step_J s e s' o : reach s -> duty s e -> step s e = Ok s' o -> J s /\ J s'.
Proof. intros HR HD HS. pose proof (reach_J s HR) as HJ. split; [done|]. by eapply J_step. Qed.
(** calloc gives zeros, malloc of a guarded block 0xcc *)
Theorem C65_fresh s e s' o t n z q trk junk : reach s -> duty s e -> step s e = Ok s' o -> hist s' = hist s ++ [HMalloc t n z q trk junk] ->
  vl (V s') q = Some (n, trk) /\ forall i, 0 <= i < n -> mem s' (q + i) = Some (if z then 0 else if trk then 0xcc else junk i).
Proof.
  intros HR HD HS Hh. destruct (step_J _ _ _ _ HR HD HS) as [[HI _] [HI' _]].
  assert (Ev : vl (V s') q = Some (n, trk)). { rewrite Hh, view_snoc. destruct trk; cbn; unfold upd; by rewrite decide_True. }
  destruct (live_seen _ _ _ _ _ _ HI' Ev) as (w & Hs & _). split; [done|]. intros i Hi.
  rewrite (seen_view _ _ _ _ _ _ _ HI' Hs) by (unfold lbase, llen; destruct trk; lia). unfold DbgAllocProof3.V. rewrite Hh, view_snoc. destruct trk; cbn [vstep vm].
  - unfold guarded, put. rewrite !decide_False by lia. rewrite decide_True by lia. done.
  - unfold put. rewrite decide_True by lia. replace (q + i - q) with i by lia. rewrite bool_decide_true by lia. by rewrite andb_true_r.
Qed.
Lemma born_fresh s s' h p q n trk : DbgAllocProof.I delay hash s (V s) -> eff delay hash s s' h -> vl (V s) p <> None -> born h q n trk -> p <> q.
Proof.
  intros HI HE Hl HB ->. destruct (vl (V s) q) as [[m trk0]|] eqn:Ev; [|done]. destruct (live_seen _ _ _ _ _ _ HI Ev) as (w & Hs & _).
  assert (Hq : lbase q trk0 <= q < lbase q trk0 + llen m trk0). { pose proof (live_own _ _ _ _ _ _ _ HI Ev) as H. unfold lbase, llen. destruct trk0; [destruct H|]; lia. }
  assert (Hpr : forall t r, hid (thr s t) = Some r -> ru r <> q).
  { intros t r H E. eapply (seen_hid _ _ _ _ _ _ q t r HI Hs); [done|done|]. pose proof (own_priv hash s (V s) t r (prv_hid _ _ H)) as Ho.
    assert (16 < rn r + 16) by (by eapply (i_size _ _ _ _ HI); [exact Ho|]). unfold inr. lia. }
  destruct HB as [(t & z & junk & Eh)|(t & p0 & junk & Eh)];
    destruct HE as [Hm _|a n0 g Hn Hf Hm _|t1 n0 z1 q1 Ht Hm _|t1 n0 z1 q1 junk1 Hn Hf Hm _|t1 p1 m1 n0 q1 Ht Ev1 Hg Hm _|t1 p1 m1 n0 q1 junk1 M Ev1 Hn HM Hf Hm _
    |p1 n0 Hu Ev1 Hg Hm _|p1 n0 Ev1 Hm _|x c Hm _|i Hd Hg Hm _ _]; try done; try (by destruct (d1 s i) as [|? [|? ?]]).
  - injection Eh; intros; subst. eapply (Hpr _ _); [by rewrite Ht|done].
  - injection Eh; intros; subst. eapply (seen_mapped _ _ _ _ _ _ q HI Hs); [done|]. apply Hf. lia.
  - injection Eh; intros; subst. eapply (Hpr _ _); [by rewrite Ht|done].
  - injection Eh; intros; subst. assert (E : M q = None) by (apply Hf; lia). destruct (HM q) as [E1|(t' & r & H1 & H2)].
    + eapply (seen_mapped _ _ _ _ _ _ q HI Hs); [done|]. congruence.
    + by eapply (seen_hid _ _ _ _ _ _ q t' r HI Hs).
Qed.
(** realloc keeps the bytes up to the shorter length; the old block is gone *)
Theorem C65_realloc s e s' o t p n q trk junk : reach s -> duty s e -> step s e = Ok s' o -> hist s' = hist s ++ [HRealloc t p n q trk junk] ->
  exists m, vl (V s) p = Some (m, trk) /\ vl (V s') q = Some (n, trk) /\ vl (V s') p = None /\ forall i, 0 <= i < Z.min m n -> mem s' (q + i) = mem s (p + i).
Proof.
  intros HR HD HS Hh. destruct (step_J _ _ _ _ HR HD HS) as [[HI _] [HI' _]].
  destruct (eff_step _ _ _ _ _ _ _ HI HD HS) as (h & Hh2 & HE). rewrite Hh in Hh2. apply app_inv_head in Hh2. subst h.
  assert (Hm : exists m, vl (V s) p = Some (m, trk) /\ p <> q).
  { assert (Ev : exists m, vl (V s) p = Some (m, trk)).
    { pose proof HE as HE2. inversion HE2 as [| | | |? ? m ? ? Ht Ev Hg Hm Hdl|? ? m ? ? ? M Ev Hn HM Hf Hm Hdl| | | |i ? ? ? ? ? Eq]; subst; [eauto..|]. by destruct (d1 s i) as [|? [|? ?]]. }
    destruct Ev as [m Ev]. exists m. split; [done|]. eapply born_fresh; [exact HI|exact HE|by rewrite Ev|]. right. by eexists _, _, _. }
  destruct Hm as (m & Ev & Hne). exists m. split; [done|].
  assert (Ev' : vl (V s') q = Some (n, trk)). { rewrite Hh, view_snoc. cbn. unfold upd; by rewrite decide_True. }
  destruct (live_seen _ _ _ _ _ _ HI' Ev') as (w & Hs & _). destruct (live_seen _ _ _ _ _ _ HI Ev) as (w0 & Hs0 & _). split_and!; [done| |].
  - rewrite Hh, view_snoc. cbn [vstep vl]. rewrite upd_ne by done. rewrite kill_vl_eq, decide_True by done. by rewrite Ev.
  - intros i Hi. rewrite (seen_view _ _ _ _ _ _ _ HI' Hs) by (unfold lbase, llen; destruct trk; lia). rewrite (seen_view _ _ _ _ _ _ _ HI Hs0) by (unfold lbase, llen; destruct trk; lia).
    unfold DbgAllocProof3.V. rewrite Hh, view_snoc. cbn [vstep vm]. rewrite Ev. destruct trk.
    + unfold guarded, put. rewrite !decide_False by lia. rewrite decide_True by lia. rewrite decide_True by lia. f_equal. lia.
    + unfold put. rewrite decide_True by lia. rewrite decide_True by lia. f_equal. lia.
Qed.
(** nothing else touches a live block: its bytes change only by a write of the program *)
Theorem C65_frame s e s' o p n trk y : reach s -> duty s e -> step s e = Ok s' o -> vl (V s) p = Some (n, trk) -> vl (V s') p <> None ->
  p <= y < p + n -> (forall b, hist s' <> hist s ++ [HPoke y b]) -> vl (V s') p = Some (n, trk) /\ mem s' y = mem s y.
Proof.
  intros HR HD HS Ev Ev' Hy Hp. destruct (step_J _ _ _ _ HR HD HS) as [[HI _] [HI' _]].
  destruct (eff_step _ _ _ _ _ _ _ HI HD HS) as (h & Hh & HE). destruct (live_seen _ _ _ _ _ _ HI Ev) as (w & Hs & Hw & Hwt).
  assert (Hy2 : lbase p trk <= y < lbase p trk + llen n trk) by (unfold lbase, llen; destruct trk; lia).
  destruct (vl (V s') p) as [[n' trk']|] eqn:E'; [|done].
  destruct (vl_back _ _ _ _ _ _ _ _ Hh HE E') as [[E2 Hne]|HB].
  2: { exfalso. eapply born_fresh; [exact HI|exact HE| |exact HB|done]. by rewrite Ev. }
  fold (V s) in E2. split; [unfold DbgAllocProof3.V in E2; congruence|].
  destruct (eff_frame _ _ _ _ _ _ _ _ y HI HE Hs Hy2) as [?|[(c & Eh & _)|[(p' & n2 & trk2 & Ev2 & He2 & Eb & El & _ & _ & _)|(i & r & _ & _ & _ & -> & _)]]]; [done| | |done].
  - destruct (Hp c). by rewrite Hh, Eh.
  - exfalso. apply Hne. destruct (live_seen _ _ _ _ _ _ HI Ev2) as (w' & [Hs' _] & _ & Hw'). destruct Hs as [Hs _]. rewrite <-Eb, <-El in Hs'.
    destruct (own_role _ _ _ _ _ _ _ _ _ HI Hs Hs') as [<- _]. assert (trk = trk2). { destruct trk, trk2; try done; [destruct (proj2 Hw' eq_refl)|destruct (proj2 Hwt eq_refl)]; naive_solver. }
    subst trk2. unfold lbase in Eb. assert (p' = p) by (destruct trk; lia). by subst.
Qed.

Lemma app_self {A} (l k : list A) : l = l ++ k -> k = [].
Proof. intros H. rewrite <-(app_nil_r l) in H at 1. by apply app_inv_head in H. Qed.
(** a write in the history is a write of the program *)
Lemma poke_ev s e s' o x c : step s e = Ok s' o -> hist s' = hist s ++ [HPoke x c] -> e = EPoke x c.
Proof.
  assert (Hfree : forall p s' o, do_free delay hash s p = Ok s' o -> hist s' <> hist s ++ [HPoke x c]).
  { intros p s1 o1. unfold do_free. destruct (lookup_rec _ _).
    - destruct (check_ptr _ _); [|done]. intros [= <- _] Hh. unfold retire in Hh. destruct delay; cbn in Hh; apply app_inv_head in Hh; done.
    - unfold libc_free. case_decide; [intros [= <- _] Hh|destruct (blk s p); [|done]; intros [= <- _] Hh]; cbn in Hh; apply app_inv_head in Hh; try done; by case_decide. }
  assert (Hre : forall s0 t p n a junk s' o, do_libc_realloc s0 t p n a junk = Ok s' o -> hist s0 = hist s -> hist s' <> hist s ++ [HPoke x c]).
  { intros s0 t p n a junk s1 o1. unfold do_libc_realloc. destruct (blk s0 p); [|done]. destruct (can_place _ _ _); [|done]. unfold libc_free. case_decide; [intros [= <- _] <- Hh|].
    - cbn in Hh. apply app_inv_head in Hh. done.
    - destruct (blk _ p); [|done]. intros [= <- _] <- Hh. cbn in Hh. apply app_inv_head in Hh. done. }
  assert (Hml : forall t n a z junk s' o, do_malloc s t n a z junk = Ok s' o -> hist s' <> hist s ++ [HPoke x c]).
  { intros t n a z junk s1 o1. unfold do_malloc. destruct (thr s t); try done. destruct (negb _); [destruct (can_place _ _ _); [|done]; intros [= <- _] Hh; cbn in Hh; apply app_inv_head in Hh; done|].
    case_decide; [intros [= <- _] Hh; by apply app_self in Hh|]. case_decide; [|done]. destruct (can_place _ _ _); [|done]. intros [= <- _] Hh. cbn in Hh. by apply app_self in Hh. }
  intros HS Hh. destruct e; cbn in HS.
  - destruct (dmp s); [|done]. injection HS as <- _. by apply app_self in Hh.
  - case_decide; [|done]. by eapply Hml in HS.
  - case_decide; [|done]. by eapply Hml in HS.
  - destruct (thr s t); try done. case_decide; [done|]. case_decide.
    + destruct (started s); [by eapply Hfree in HS|]. unfold libc_free in HS. case_decide; [injection HS as <- _|destruct (blk s p); [|done]; injection HS as <- _]; cbn in Hh; by apply app_inv_head in Hh.
    + destruct (negb _); [by eapply Hre in HS|]. case_decide; [|done]. destruct (can_place _ _ _); [|done]. injection HS as <- _. by apply app_self in Hh.
  - destruct (thr s t); try done. destruct (lookup_rec _ _).
    + destruct (check_ptr _ _); [|done]. injection HS as <- _. unfold retire in Hh. destruct delay; cbn in Hh; by apply app_inv_head in Hh.
    + by eapply Hre in HS.
  - destruct (thr s t); try done. injection HS as <- _. destruct re, z; cbn in Hh; first [by apply app_self in Hh|by apply app_inv_head in Hh].
  - destruct (thr s t); try done. by eapply Hfree in HS.
  - destruct (mem s x0); [|done]. injection HS as <- _. cbn in Hh. apply app_inv_head in Hh. by injection Hh as -> ->.
  - destruct (delay && _); [|done]. destruct (forallb _ _); [|done]. injection HS as <- _. cbn in Hh. apply app_inv_head in Hh. by destruct (d1 s i) as [|? [|? ?]].
  - destruct (dmp s); [|done]. injection HS as <- _. by apply app_self in Hh.
  - destruct (dmp s) as [|i [p|] c0 sv]; [done| |case_decide; injection HS as <- _; by apply app_self in Hh].
    destruct (list_find _ _) as [[k r]|]; [|done]. injection HS as <- _. by apply app_self in Hh.
Qed.
(** ** Damage is found *)
(** free and realloc of a guarded block abort exactly if one of its sixteen guard bytes is not what it was *)
Theorem C65_free_detects s t p n : reach s -> thr s t = TIdle -> usable delay s p -> vl (V s) p = Some (n, true) ->
  (step s (EFree t p) = Crash <-> ~ guards_ok (mem s) p n) /\ (guards_ok (mem s) p n -> exists s', step s (EFree t p) = Ok s' (Some 0) /\ vl (V s') p = None).
Proof.
  intros HR Ht Hu Ev. destruct (reach_J s HR) as [HI _]. cbn. rewrite Ht. unfold do_free. destruct Hu as [_ Hh].
  rewrite (find_live _ _ _ _ _ _ _ HI Ev Hh). destruct (check_ptr (mem s) (mkr p n)) eqn:Ec.
  - pose proof Ec as Ec2. apply check_ptr_spec in Ec. cbn [ru rn] in Ec. split; [split; [done|by intros []]|]. intros _. eexists. split; [done|].
    assert (E : hist (log [HFree p] (retire delay (set_tab (upd (tab s) (hash p) (unlink (tab s (hash p)) p)) s) (hash p) (mkr p n))) = hist s ++ [HFree p]) by (unfold retire; by destruct delay).
    rewrite E, view_snoc. cbn [vstep]. rewrite kill_vl_eq, decide_True by done. by rewrite Ev.
  - assert (~ guards_ok (mem s) p n). { intros H. apply (check_ptr_spec _ (mkr p n)) in H. congruence. } split; [split; done|done].
Qed.
Theorem C65_realloc_detects s t p n r a junk : reach s -> thr s t = TCopy p r -> vl (V s) p = Some (n, true) ->
  (step s (ECopy t a junk) = Crash <-> ~ guards_ok (mem s) p n) /\ (guards_ok (mem s) p n -> exists s', step s (ECopy t a junk) = Ok s' None).
Proof.
  intros HR Ht Ev. destruct (reach_J s HR) as [HI _]. cbn. rewrite Ht. destruct (i_copy _ _ _ _ HI _ _ _ Ht) as (_ & _ & Hheld & _).
  assert (Ef : lookup_rec (tab s (hash p)) p = Some (mkr p n)).
  { apply (i_live _ _ _ _ HI) in Ev as [H|(t' & z & H)]; [|assert (t' = t) by (apply Hheld; by rewrite H); congruence]. apply (lookup_rec_nodup _ (mkr p n)); [by eapply i_nt|done]. }
  rewrite Ef. destruct (check_ptr (mem s) (mkr p n)) eqn:Ec.
  - apply check_ptr_spec in Ec. cbn [ru rn] in Ec. split; [split; [done|by intros []]|]. eauto.
  - assert (~ guards_ok (mem s) p n). { intros H. apply (check_ptr_spec _ (mkr p n)) in H. congruence. } split; [split; done|done].
Qed.
(** it aborts only then: when a damaged guarded block is given up, or when a freed block was damaged or written to *)
Theorem C65_no_false_alarm s e : reach s -> duty s e -> step s e = Crash ->
  (exists p n, freeing s e p /\ vl (V s) p = Some (n, true) /\ ~ guards_ok (mem s) p n) \/
  (exists i p n, e = ESweep i /\ P s p = Some n /\ ~ (guards_ok (mem s) p n /\ marked (mem s) p n)).
Proof.
  intros HR HD HS. pose proof (reach_J s HR) as HJ. destruct (crash_cases _ _ _ _ _ HJ HD HS) as [H|(i & p & n & -> & Hin & H)]; [by left|].
  right. exists i, p, n. split_and!; try done. destruct HJ as [HI HP]. apply HP. assert (Hin2 : mkr p n ∈ dl s i) by (apply elem_of_app; by left).
  pose proof (i_hd _ _ _ _ HI _ _ Hin2) as Eh. cbn [ru] in Eh. by rewrite Eh.
Qed.
(** a program that stays inside its blocks never meets an abort or undefined behaviour *)
Theorem C65_safe_partial es : keeps clean_duty init es -> run step init es <> Crash.
Proof.
  assert (H : forall es s, J s -> G delay s -> keeps clean_duty s es -> run step s es <> Crash); [|intros HK; apply H; [apply J_init|apply G_init|done]].
  clear es. induction es as [|e es IH]; intros s HJ HG; [done|]. cbn. intros [[HD HC] HK]. destruct (step s e) as [| |s1 o] eqn:E1; [done| |].
  - exfalso. destruct (crash_cases _ _ _ _ _ HJ HD E1) as [(p & n & _ & Ev & Hn)|(i & p & n & _ & Hin & Hn)].
    + apply Hn. destruct HG as [HG _]. by apply HG.
    + apply Hn. destruct HG as [_ HG]. apply HG. destruct HJ as [HI HP]. apply HP. assert (Hin2 : mkr p n ∈ dl s i) by (apply elem_of_app; by left). pose proof (i_hd _ _ _ _ HI _ _ Hin2) as Eh. cbn [ru] in Eh. by rewrite Eh.
  - assert (HJ1 : J s1) by (by eapply J_step). pose proof HJ as [HI HP]. destruct (eff_step _ _ _ _ _ _ _ HI HD E1) as (h & Hh & HE).
    assert (HG1 : G delay s1). { eapply G_step; [exact HJ|apply HJ1|exact Hh|exact HE| |exact HG].
      intros x c ->. pose proof (poke_ev _ _ _ _ _ _ E1 Hh) as ->. exact HC. }
    specialize (IH s1 HJ1 HG1 HK). by destruct (run step s1 es).
Qed.

(** ** Blocks of the C library *)
(** nothing is lost or kept twice: with no thread inside a call, the blocks held from the C library are exactly the program's blocks and the
    freed blocks awaiting release *)
Theorem C65_noleak s b l : reach s -> (forall t, thr s t = TIdle) ->
  (blk s b = Some l <-> (exists n, vl (V s) b = Some (n, false) /\ l = Z.max 1 n) \/ vl (V s) (b + 8) = Some (l - 16, true) \/ P s (b + 8) = Some (l - 16)).
Proof.
  intros HR Hid. destruct (reach_J s HR) as [HI HP]. split.
  - intros Eb. destruct (ho_blk _ _ _ (i_heap _ _ _ _ HI) _ _ Eb) as [[| |t|] Ho]; cbn in Ho.
    + right. left. apply (i_live _ _ _ _ HI). by left.
    + right. right. by apply HP.
    + by rewrite Hid in Ho.
    + destruct Ho as (n & H1 & H2 & _). left. eauto.
  - intros [(n & Ev & ->)|[Ev|Ev]].
    + destruct (live_own _ _ _ _ _ _ _ HI Ev) as [Ho _]. by eapply (ho_own _ _ _ (i_heap _ _ _ _ HI)).
    + destruct (live_own _ _ _ _ _ _ _ HI Ev) as (_ & w & Ho & _). replace (b + 8 - 8) with b in Ho by lia. replace (l - 16 + 16) with l in Ho by lia. by eapply (ho_own _ _ _ (i_heap _ _ _ _ HI)).
    + apply HP in Ev. pose proof (own_dead hash s (DbgAllocProof3.V delay s) _ Ev) as Ho. cbn [ru rn] in Ho. replace (b + 8 - 8) with b in Ho by lia. replace (l - 16 + 16) with l in Ho by lia.
      by eapply (ho_own _ _ _ (i_heap _ _ _ _ HI)).
Qed.
(** without the check of freed memory nothing is ever delayed *)
Theorem C65_nodelay s p : reach s -> delay = false -> P s p = None.
Proof.
  intros HR Hd. destruct (reach_J s HR) as [HI HP]. destruct (P s p) as [n|] eqn:E; [|done]. apply HP in E. unfold dl in E.
  destruct (i_nodelay _ _ _ _ HI Hd (hash p)) as [E1 E2]. rewrite E1, E2 in E. by apply elem_of_nil in E.
Qed.

(** ** Freed blocks: kept for at least one full round of the sweeper, released at the latest by the second, and only if untouched *)
Fixpoint sweeps (i : nat) (es : list ev) : nat :=
  match es with [] => 0 | ESweep j :: es => (if decide (j = i) then 1 else 0) + sweeps i es | _ :: es => sweeps i es end.
(** is this a sweep of bucket [i] *)
Definition isw (i : nat) (e : ev) : bool := match e with ESweep j => bool_decide (j = i) | _ => false end.
Lemma isw_true i e : isw i e = true <-> e = ESweep i.
Proof. destruct e; cbn; split; try done; [intros H; apply bool_decide_eq_true in H; by subst|intros [= ->]; by apply bool_decide_eq_true]. Qed.
Lemma sweeps_cons i e es : sweeps i (e :: es) = ((match e with ESweep j => if decide (j = i) then 1 else 0 | _ => 0 end) + sweeps i es)%nat.
Proof. by destruct e. Qed.
Lemma retire_d s h r : d1 (retire delay s h r) = d1 s /\ forall i x, x ∈ d2 s i -> x ∈ d2 (retire delay s h r) i.
Proof.
  unfold retire. destruct delay; cbn; [|done]. split; [done|]. intros i x H. unfold upd. case_decide; [subst; by apply elem_of_list_further|done].
Qed.
Lemma d_keep s e s' o : step s e = Ok s' o -> (forall i, e <> ESweep i) -> e <> EStart -> d1 s' = d1 s /\ forall i x, x ∈ d2 s i -> x ∈ d2 s' i.
Proof.
  assert (Hfree : forall p s' o, do_free delay hash s p = Ok s' o -> d1 s' = d1 s /\ forall i x, x ∈ d2 s i -> x ∈ d2 s' i).
  { intros p s1 o1. unfold do_free. destruct (lookup_rec _ _) as [r|].
    - destruct (check_ptr _ _); [|done]. intros [= <- _]. apply (retire_d (set_tab (upd (tab s) (hash p) (unlink (tab s (hash p)) p)) s) (hash p) r).
    - unfold libc_free. case_decide; [by intros [= <- _]|destruct (blk s p); [|done]; by intros [= <- _]]. }
  assert (Hre : forall s0 t p n a junk s' o, do_libc_realloc s0 t p n a junk = Ok s' o -> d1 s0 = d1 s -> d2 s0 = d2 s -> d1 s' = d1 s /\ forall i x, x ∈ d2 s i -> x ∈ d2 s' i).
  { intros s0 t p n a junk s1 o1. unfold do_libc_realloc. destruct (blk s0 p); [|done]. destruct (can_place _ _ _); [|done]. unfold libc_free. case_decide; [by intros [= <- _] <- <-|].
    destruct (blk _ p); [|done]. by intros [= <- _] <- <-. }
  assert (Hml : forall t n a z junk s' o, do_malloc s t n a z junk = Ok s' o -> d1 s' = d1 s /\ forall i x, x ∈ d2 s i -> x ∈ d2 s' i).
  { intros t n a z junk s1 o1. unfold do_malloc. destruct (thr s t); try done. destruct (negb _); [destruct (can_place _ _ _); [|done]; by intros [= <- _]|].
    case_decide; [by intros [= <- _]|]. case_decide; [|done]. destruct (can_place _ _ _); [|done]. by intros [= <- _]. }
  intros HS Hns Hst. destruct e; cbn in HS; [done| | | | | | | | | |].
  - case_decide; [|done]. by eapply Hml in HS.
  - case_decide; [|done]. by eapply Hml in HS.
  - destruct (thr s t); try done. case_decide; [done|]. case_decide.
    + destruct (started s); [by eapply Hfree in HS|]. unfold libc_free in HS. case_decide; [injection HS as <- _|destruct (blk s p); [|done]; injection HS as <- _]; done.
    + destruct (negb _); [by eapply Hre in HS|]. case_decide; [|done]. destruct (can_place _ _ _); [|done]. by injection HS as <- _.
  - destruct (thr s t) as [|p r|]; try done. destruct (lookup_rec _ _) as [r0|].
    + destruct (check_ptr _ _); [|done]. injection HS as <- _. match goal with |- context [retire delay ?x ?y ?z] => exact (retire_d x y z) end.
    + by eapply Hre in HS.
  - destruct (thr s t); try done. injection HS as <- _. by destruct re, z.
  - destruct (thr s t); try done. by eapply Hfree in HS.
  - destruct (mem s x); [|done]. by injection HS as <- _.
  - by destruct (Hns i).
  - destruct (dmp s); [|done]. by injection HS as <- _.
  - destruct (dmp s) as [|i [p|] c0 sv]; [done| |case_decide; by injection HS as <- _].
    destruct (list_find _ _) as [[k r]|]; [|done]. by injection HS as <- _.
Qed.
Lemma sweep_step s i s' o : step s (ESweep i) = Ok s' o ->
  d1 s' = upd (d1 s) i (d2 s i) /\ d2 s' = upd (d2 s) i [] /\ hist s' = hist s ++ ((λ r, HDrop (ru r) (rn r)) <$> d1 s i) /\
  forall r, r ∈ d1 s i -> guards_ok (mem s) (ru r) (rn r) /\ marked (mem s) (ru r) (rn r).
Proof.
  cbn. destruct (delay && _); [|done]. destruct (forallb _ _) eqn:Ef; [|done]. intros [= <- _]. split_and!; try done. intros r Hr. rewrite forallb_forall in Ef.
  apply elem_of_list_In, Ef, andb_true_iff in Hr as [H1 H2]. by rewrite <-check_ptr_spec, <-all_ee_spec.
Qed.
(** one step of a delayed block: [in1] = it is in the older generation *)
Definition in1 (s : sys) (p n : Z) : Prop := mkr p n ∈ d1 s (hash p).
Definition in2 (s : sys) (p n : Z) : Prop := mkr p n ∈ d2 s (hash p).
Lemma dead_next s e s' o p n : J s -> duty s e -> step s e = Ok s' o ->
  if isw (hash p) e then (in1 s p n -> HDrop p n ∈ drop (length (hist s)) (hist s') /\ guards_ok (mem s) p n /\ marked (mem s) p n) /\ (in2 s p n -> in1 s' p n)
  else (in1 s p n -> in1 s' p n) /\ (in2 s p n -> in2 s' p n).
Proof.
  intros [HI HP] HD HS. unfold in1, in2. assert (Hdec : (exists i, e = ESweep i) \/ e = EStart \/ (forall i, e <> ESweep i) /\ e <> EStart).
  { destruct e; try (right; right; split; [by intros ?|done]); [by right; left|left; eauto]. }
  destruct Hdec as [[i ->]|[->|[Hns Hst]]].
  - destruct (sweep_step _ _ _ _ HS) as (H1 & H2 & H3 & H4). rewrite H1, H2, H3. cbn [isw]. case_bool_decide as E.
    + subst i. rewrite !upd_eq. split; [|done]. intros Hin. split; [|by apply (H4 (mkr p n))]. rewrite drop_app. apply elem_of_list_fmap. by exists (mkr p n).
    + by rewrite !upd_ne by done.
  - cbn [isw]. cbn in HD, HS. destruct (dmp s) eqn:Ed; [|done]. destruct (i_st _ _ _ _ HI HD Ed) as [Hq _]. destruct (Hq (hash p)) as (_ & -> & ->).
    split; intros H; by apply elem_of_nil in H.
  - assert (Ei : isw (hash p) e = false) by (destruct e; try done; by destruct (Hns i)). rewrite Ei. destruct (d_keep _ _ _ _ HS Hns Hst) as [-> H2]. auto.
Qed.
Lemma hist_grows s e s' o : J s -> duty s e -> step s e = Ok s' o -> exists h, hist s' = hist s ++ h.
Proof. intros [HI _] HD HS. destruct (eff_step _ _ _ _ _ _ _ HI HD HS) as (h & Hh & _). eauto. Qed.
Lemma run_grows es : forall s s' os, J s -> keeps duty s es -> run step s es = Ok s' os -> exists h, hist s' = hist s ++ h.
Proof.
  induction es as [|e es IH]; intros s s' os HJ; cbn; [intros _ [= <- _]; exists []; by rewrite app_nil_r|]. intros [HD HK].
  destruct (step s e) as [| |s1 o] eqn:E1; try done. destruct (run step s1 es) as [| |s2 os2] eqn:E2; try done. intros [= -> _].
  destruct (hist_grows _ _ _ _ HJ HD E1) as [h1 H1]. destruct (IH s1 _ _ (J_step _ _ _ _ _ _ _ HJ HD E1) HK E2) as [h2 H2]. exists (h1 ++ h2). by rewrite H2, H1, app_assoc.
Qed.
Lemma sweeps_step e i es : sweeps i (e :: es) = ((if isw i e then 1 else 0) + sweeps i es)%nat.
Proof. rewrite sweeps_cons. destruct e; try done. cbn. by rewrite decide_bool_decide. Qed.
Lemma in_dl s p n : J s -> P s p = Some n -> in1 s p n \/ in2 s p n.
Proof. intros [_ HP] H. apply HP in H. by apply elem_of_app in H. Qed.
(** released at the latest by the second sweep of its bucket *)
Lemma released_run es : forall s s' os p n, J s -> keeps duty s es -> run step s es = Ok s' os ->
  (in1 s p n /\ (1 <= sweeps (hash p) es)%nat \/ in2 s p n /\ (2 <= sweeps (hash p) es)%nat) -> HDrop p n ∈ drop (length (hist s)) (hist s').
Proof.
  induction es as [|e es IH]; intros s s' os p n HJ; [cbn; intros _ _ [[_ H]|[_ H]]; lia|]. rewrite sweeps_step. cbn [DbgAllocSpec.keeps run]. intros [HD HK].
  destruct (step s e) as [| |s1 o] eqn:E1; try done. destruct (run step s1 es) as [| |s2 os2] eqn:E2; try done. intros [= -> _] Hin.
  pose proof (J_step _ _ _ _ _ _ _ HJ HD E1) as HJ1. pose proof (dead_next _ _ _ _ p n HJ HD E1) as HN. destruct (hist_grows _ _ _ _ HJ HD E1) as [h1 H1].
  destruct (run_grows _ _ _ _ HJ1 HK E2) as [h2 H2].
  assert (Hsub : forall x, x ∈ drop (length (hist s1)) (hist s') -> x ∈ drop (length (hist s)) (hist s')).
  { intros x. rewrite H2, H1, drop_app, <-app_assoc, drop_app. intros H. apply elem_of_app. by right. }
  destruct (isw (hash p) e).
  - destruct HN as [HN1 HN2]. destruct Hin as [[Hi _]|[Hi Hc]].
    + destruct (HN1 Hi) as [H3 _]. rewrite H1, drop_app in H3. rewrite H2, H1, <-app_assoc, drop_app. apply elem_of_app. by left.
    + apply Hsub. eapply IH; [done|exact HK|exact E2|]. left. split; [auto|lia].
  - destruct HN as [HN1 HN2]. apply Hsub. eapply IH; [done|exact HK|exact E2|]. destruct Hin as [[Hi Hc]|[Hi Hc]]; [left|right]; (split; [auto|lia]).
Qed.
Theorem C65_released s es s' os p n : reach s -> keeps duty s es -> run step s es = Ok s' os -> P s p = Some n -> (2 <= sweeps (hash p) es)%nat ->
  HDrop p n ∈ drop (length (hist s)) (hist s').
Proof.
  intros HR HK HRun Hp Hc. pose proof (reach_J s HR) as HJ. eapply released_run; [done|done|exact HRun|]. destruct (in_dl _ _ _ HJ Hp); [left|right]; (split; [done|lia]).
Qed.
(** whatever is released was awaiting release, with its guards and the mark of freed memory intact *)
Lemma drop_checked s e s' o p n : J s -> duty s e -> step s e = Ok s' o -> HDrop p n ∈ drop (length (hist s)) (hist s') ->
  P s p = Some n /\ guards_ok (mem s) p n /\ marked (mem s) p n.
Proof.
  intros [HI HP] HD HS Hin. destruct (eff_step _ _ _ _ _ _ _ HI HD HS) as (h & Hh & HE). rewrite Hh, drop_app in Hin.
  destruct HE as [Hm _|a n0 g Hn Hf Hm _|t1 n0 z1 q1 Ht Hm _|t1 n0 z1 q1 junk1 Hn Hf Hm _|t1 p1 m1 n0 q1 Ht Ev1 Hg Hm _|t1 p1 m1 n0 q1 junk1 M Ev1 Hn HM Hf Hm _
    |p1 n0 Hu Ev1 Hg Hm _|p1 n0 Ev1 Hm _|x c Hm _|i Hd Hg Hm _ _].
  1,2: by apply elem_of_nil in Hin.
  1-7: by apply elem_of_list_singleton in Hin.
  apply elem_of_list_fmap in Hin as (r & [= -> ->] & Hr). split; [|by apply Hg]. apply HP. assert (Hin2 : r ∈ dl s i) by (apply elem_of_app; by left).
  rewrite (i_hd _ _ _ _ HI _ _ Hin2). by destruct r.
Qed.
Theorem C65_drop_checked s e s' o p n : reach s -> duty s e -> step s e = Ok s' o -> HDrop p n ∈ drop (length (hist s)) (hist s') ->
  P s p = Some n /\ guards_ok (mem s) p n /\ marked (mem s) p n.
Proof. intros HR. by apply drop_checked, reach_J. Qed.
(** a freed block is not released (so not handed out again) before the bucket has been swept twice *)
Lemma kept_run es : forall s s' os p n, J s -> keeps duty s es -> run step s es = Ok s' os ->
  (in1 s p n /\ sweeps (hash p) es = 0%nat \/ in2 s p n /\ (sweeps (hash p) es <= 1)%nat) -> in1 s' p n \/ in2 s' p n.
Proof.
  induction es as [|e es IH]; intros s s' os p n HJ; [cbn; intros _ [= <- _] [[? _]|[? _]]; auto|]. rewrite sweeps_step. cbn [DbgAllocSpec.keeps run]. intros [HD HK].
  destruct (step s e) as [| |s1 o] eqn:E1; try done. destruct (run step s1 es) as [| |s2 os2] eqn:E2; try done. intros [= -> _] Hin.
  pose proof (J_step _ _ _ _ _ _ _ HJ HD E1) as HJ1. pose proof (dead_next _ _ _ _ p n HJ HD E1) as HN.
  destruct (isw (hash p) e); destruct HN as [HN1 HN2]; destruct Hin as [[Hi Hc]|[Hi Hc]]; try lia; (eapply IH; [done|exact HK|exact E2|]).
  - left. split; [auto|lia].
  - left. split; [auto|lia].
  - right. split; [auto|lia].
Qed.
Theorem C65_not_early s e s1 o es s' os p n : reach s -> duty s e -> step s e = Ok s1 o -> vl (V s) p = Some (n, true) -> vl (V s1) p = None ->
  delay = true -> keeps duty s1 es -> run step s1 es = Ok s' os -> (sweeps (hash p) es <= 1)%nat ->
  P s' p = Some n /\ forall y, p - 8 <= y < p + n + 8 -> mem s' y <> None.
Proof.
  intros HR HD HS Ev Ev1 Hd HK HRun Hc. destruct (step_J _ _ _ _ HR HD HS) as [HJ HJ1]. pose proof HJ as [HI HP].
  assert (Hin2 : in2 s1 p n).
  { destruct (eff_step _ _ _ _ _ _ _ HI HD HS) as (h & Hh & HE).
    assert (Hx : in1 s1 p n \/ in2 s1 p n).
    { apply in_dl; [done|]. unfold pend_of in *. rewrite Hh. change (pend_of delay (hist s ++ h) p = Some n). rewrite pend_app.
      destruct HE as [Hm _|a n0 g Hn Hf Hm _|t1 n0 z1 q1 Ht Hm _|t1 n0 z1 q1 junk1 Hn Hf Hm _|t1 p1 m1 n0 q1 Ht Ev2 Hg Hm _|t1 p1 m1 n0 q1 junk1 M Ev2 Hn HM Hf Hm _
        |p1 n0 Hu Ev2 Hg Hm _|p1 n0 Ev2 Hm _|x c Hm _|i _ Hg Hm _ _]; rewrite Hh in Ev1; unfold view_of in Ev1; rewrite fold_left_app in Ev1; cbn [fold_left] in Ev1; change (fold_left (vstep delay) (hist s) _) with (V s) in Ev1; cbn [vstep vl] in Ev1.
      - congruence.
      - congruence.
      - unfold upd in Ev1. case_decide; congruence.
      - unfold upd in Ev1. case_decide; congruence.
      - unfold upd in Ev1. case_decide; [congruence|]. rewrite kill_vl_eq in Ev1. case_decide; [|congruence]. subst p1. unfold pstep. cbn [fold_left fst snd]. rewrite Ev, Hd. by rewrite upd_eq.
      - unfold upd in Ev1. case_decide; [congruence|]. rewrite kill_vl_eq in Ev1. case_decide; [|congruence]. subst p1. unfold DbgAllocProof3.V in Ev2. congruence.
      - rewrite kill_vl_eq in Ev1. case_decide; [|congruence]. subst p1. unfold pstep. cbn [fold_left fst snd]. rewrite Ev, Hd. by rewrite upd_eq.
      - rewrite kill_vl_eq in Ev1. case_decide; [|congruence]. subst p1. unfold DbgAllocProof3.V in Ev2. congruence.
      - congruence.
      - rewrite drops_vl in Ev1. congruence. }
    destruct Hx as [Hx|Hx]; [|done]. exfalso.
    (* it was not in a delay list before, and a step never adds to the older generation from outside *)
    assert (Hnd : ~ mkr p n ∈ dl s (hash p)) by (eapply live_not_dl; [exact HI|exact Ev]).
    assert (Hdec : (exists i, e = ESweep i) \/ e = EStart \/ (forall i, e <> ESweep i) /\ e <> EStart).
    { destruct e; try (right; right; split; [by intros ?|done]); [by right; left|left; eauto]. }
    unfold in1 in Hx. apply Hnd. destruct Hdec as [[i ->]|[->|[Hns Hst]]].
    - destruct (sweep_step _ _ _ _ HS) as (H1 & _). rewrite H1 in Hx. unfold upd in Hx. apply elem_of_app. case_decide as E; [rewrite E; by right|by left].
    - cbn in HS. destruct (dmp s); [|done]. injection HS as <- _. cbn in Hx. by apply elem_of_nil in Hx.
    - destruct (d_keep _ _ _ _ HS Hns Hst) as [E _]. rewrite E in Hx. apply elem_of_app. by left. }
  pose proof (J_run _ _ _ _ HJ1 HK HRun) as [HI' HP']. assert (Hx : in1 s' p n \/ in2 s' p n) by (eapply kept_run; [exact HJ1|exact HK|exact HRun|]; by right).
  assert (Hdl : mkr p n ∈ dl s' (hash p)) by (by apply elem_of_app). split; [by apply HP'|]. intros y Hy.
  eapply seen_mapped; [exact HI'|exact (dead_seen _ _ s' (mkr p n) HI' Hdl)|]. cbn. lia.
Qed.
(** writing to freed memory is found: once a freed block (or its guards) has been altered, the sweeper aborts at the latest in its second round, unless
    the program writes to the block again *)
Theorem C65_uaf_detected s es s' os p n : reach s -> keeps duty s es -> P s p = Some n -> ~ (guards_ok (mem s) p n /\ marked (mem s) p n) ->
  (forall y b, EPoke y b ∈ es -> ~ (p - 8 <= y < p + n + 8)) -> (2 <= sweeps (hash p) es)%nat -> run step s es <> Ok s' os.
Proof.
  intros HR HK Hp Ha Hnp Hc HRun. pose proof (reach_J s HR) as HJ. clear HR. pose proof (in_dl _ _ _ HJ Hp) as Hin. clear Hp.
  assert (Hc' : in1 s p n /\ (1 <= sweeps (hash p) es)%nat \/ in2 s p n /\ (2 <= sweeps (hash p) es)%nat) by (destruct Hin; [left|right]; (split; [done|lia])). clear Hin Hc.
  revert s os HJ HK Ha Hc' HRun. induction es as [|e es IH]; intros s os HJ HK Ha Hc' HRun; [cbn in Hc'; lia|]. rewrite sweeps_step in Hc'. cbn [DbgAllocSpec.keeps run] in HK, HRun. destruct HK as [HD HK].
  destruct (step s e) as [| |s1 o] eqn:E1; try done. destruct (run step s1 es) as [| |s2 os2] eqn:E2; try done. injection HRun as -> _.
  pose proof (J_step _ _ _ _ _ _ _ HJ HD E1) as HJ1. pose proof (dead_next _ _ _ _ p n HJ HD E1) as HN. pose proof HJ as [HI HP].
  assert (Hdl : mkr p n ∈ dl s (hash p)) by (apply elem_of_app; destruct Hc' as [[? _]|[? _]]; auto).
  assert (Hgo : ~ (guards_ok (mem s1) p n /\ marked (mem s1) p n) -> (in1 s1 p n /\ (1 <= sweeps (hash p) es)%nat \/ in2 s1 p n /\ (2 <= sweeps (hash p) es)%nat) -> False).
  { intros H1 H2. eapply (IH ltac:(intros; eapply Hnp; by apply elem_of_list_further) s1); [done|done|done|done|exact E2]. }
  assert (Hx : in1 s p n /\ e = ESweep (hash p) \/ (in1 s1 p n /\ (1 <= sweeps (hash p) es)%nat \/ in2 s1 p n /\ (2 <= sweeps (hash p) es)%nat)).
  { destruct (isw (hash p) e) eqn:Ei; destruct HN as [HN1 HN2]; destruct Hc' as [[H1 H2]|[H1 H2]]; [left; split; [done|by apply isw_true]|right; left|right; left|right; right]; (split; [auto|lia]). }
  destruct Hx as [[H1 ->]|Hx].
  { rewrite (proj2 (isw_true _ _) eq_refl) in HN. destruct HN as [HN _]. by destruct (HN H1) as [_ ?]. }
  apply Hgo; [|done]. clear Hgo IH. pose proof (dead_seen _ _ s (mkr p n) HI Hdl) as Hs. cbn [ru rn] in Hs.
  assert (Hn : 0 < n). { destruct Hs as [Ho _]. assert (16 < n + 16) by (by eapply (i_size _ _ _ _ HI); [exact Ho|]). lia. }
  destruct (eff_step _ _ _ _ _ _ _ HI HD E1) as (h & Hh & HE).
  assert (Hsame : forall y, p - 8 <= y < p + n + 8 -> mem s1 y = mem s y).
  { intros y Hy. destruct (eff_frame _ _ _ _ _ _ _ _ y HI HE Hs) as [?|[(c & Eh & _)|[(p' & n' & trk & Ev' & He' & Eb & El & Hw & _ & Hd)|(i & r & Hd & Hr & Eh & _ & Eb & El & _)]]]; [lia|done| |done|].
    - rewrite Eh in Hh. pose proof (poke_ev _ _ _ _ _ _ E1 Hh) as ->. destruct (Hnp y c); [apply elem_of_list_here|done].
    - exfalso. apply Ha. eapply drop_checked; [exact HJ|exact HD|exact E1|]. rewrite Hh, drop_app, Eh. apply elem_of_list_fmap. exists r. split; [f_equal; lia|done]. }
  intros [H1 H2]. apply Ha. split; [intros i Hi; destruct (H1 i Hi); rewrite <-!Hsame by lia; done|]. intros i Hi. rewrite <-Hsame by lia. by apply H2.
Qed.

(** ** What the calls return *)
Definition tid (e : ev) : option nat :=
  match e with EMalloc t _ _ _ | ECalloc t _ _ _ _ | ERealloc t _ _ _ _ | ECopy t _ _ | EInsert t | EFree t _ => Some t | _ => None end.
Lemma retire_thr s h r : thr (retire delay s h r) = thr s.
Proof. unfold retire. by destruct delay. Qed.
Lemma thr_other s e s' o t : step s e = Ok s' o -> tid e <> Some t -> thr s' t = thr s t.
Proof.
  assert (Hfree : forall p s' o, do_free delay hash s p = Ok s' o -> thr s' = thr s).
  { intros p s1 o1. unfold do_free. destruct (lookup_rec _ _) as [r|].
    - destruct (check_ptr _ _); [|done]. intros [= <- _]. cbn. by rewrite retire_thr.
    - unfold libc_free. case_decide; [by intros [= <- _]|destruct (blk s p); [|done]; by intros [= <- _]]. }
  assert (Hre : forall s0 t0 p n a junk s' o, do_libc_realloc s0 t0 p n a junk = Ok s' o -> thr s' = thr s0).
  { intros s0 t0 p n a junk s1 o1. unfold do_libc_realloc. destruct (blk s0 p); [|done]. destruct (can_place _ _ _); [|done]. unfold libc_free. case_decide; [by intros [= <- _]|].
    destruct (blk _ p); [|done]. by intros [= <- _]. }
  assert (Hml : forall t0 n a z junk s' o, t0 <> t -> do_malloc s t0 n a z junk = Ok s' o -> thr s' t = thr s t).
  { intros t0 n a z junk s1 o1 Hne. unfold do_malloc. destruct (thr s t0); try done. destruct (negb _); [destruct (can_place _ _ _); [|done]; by intros [= <- _]|].
    case_decide; [by intros [= <- _]|]. case_decide; [|done]. destruct (can_place _ _ _); [|done]. intros [= <- _]. cbn. by rewrite upd_ne. }
  intros HS Ht. destruct e; cbn in HS, Ht; try (assert (Hne : t <> t0) by congruence).
  - destruct (dmp s); [|done]. by injection HS as <- _.
  - case_decide; [|done]. by eapply Hml in HS.
  - case_decide; [|done]. by eapply Hml in HS.
  - destruct (thr s t0); try done. case_decide; [done|]. case_decide.
    + destruct (started s); [eapply Hfree in HS; by rewrite HS|]. unfold libc_free in HS. case_decide; [injection HS as <- _|destruct (blk s p); [|done]; injection HS as <- _]; done.
    + destruct (negb _); [eapply Hre in HS; by rewrite HS|]. case_decide; [|done]. destruct (can_place _ _ _); [|done]. injection HS as <- _. cbn. by rewrite upd_ne.
  - destruct (thr s t0) as [|p r|]; try done. destruct (lookup_rec _ _) as [r0|].
    + destruct (check_ptr _ _); [|done]. injection HS as <- _. cbn. by rewrite upd_ne.
    + eapply Hre in HS. rewrite HS. cbn. by rewrite upd_ne.
  - destruct (thr s t0); try done. injection HS as <- _. destruct re, z; cbn; by rewrite upd_ne.
  - destruct (thr s t0); try done. eapply Hfree in HS. by rewrite HS.
  - destruct (mem s x); [|done]. by injection HS as <- _.
  - destruct (delay && _); [|done]. destruct (forallb _ _); [|done]. by injection HS as <- _.
  - destruct (dmp s); [|done]. by injection HS as <- _.
  - destruct (dmp s) as [|i [p|] c0 sv]; [done| |case_decide; by injection HS as <- _].
    destruct (list_find _ _) as [[k r]|]; [|done]. by injection HS as <- _.
Qed.
Lemma thr_run es : forall s s' os t, run step s es = Ok s' os -> Forall (λ e, tid e <> Some t) es -> thr s' t = thr s t.
Proof.
  induction es as [|e es IH]; intros s s' os t; cbn; [by intros [= <- _]|].
  destruct (step s e) as [| |s1 o] eqn:E1; try done. destruct (run step s1 es) as [| |s2 os2] eqn:E2; try done. intros [= -> _] HF. apply Forall_cons in HF as [H1 H2].
  rewrite (IH _ _ _ _ E2 H2). by eapply thr_other.
Qed.
Lemma keeps_app D es1 es2 : forall s, keeps D s (es1 ++ es2) -> keeps D s es1 /\ forall s' os, run step s es1 = Ok s' os -> keeps D s' es2.
Proof.
  induction es1 as [|e es IH]; intros s; cbn; [intros H; split; [done|]; by intros ? ? [= <- _]|]. intros [HD HK]. destruct (step s e) as [| |s1 o] eqn:E1; try done.
  destruct (IH _ HK) as [H1 H2]. split; [done|]. intros s' os. destruct (run step s1 es) as [| |s2 os2] eqn:E2; try done. intros [= -> _]. by eapply H2.
Qed.
Lemma reach_run s es s' os : reach s -> keeps duty s es -> run step s es = Ok s' os -> reach s'.
Proof.
  intros (es0 & os0 & HK0 & HR0) HK HR. exists (es0 ++ es), (os0 ++ os). split; [|by rewrite run_app, HR0, HR].
  assert (H : forall es0 s0 os0, keeps duty s0 es0 -> run step s0 es0 = Ok s os0 -> keeps duty s0 (es0 ++ es)); [|by eapply H].
  clear -HK. induction es0 as [|e es0 IH]; intros s0 os0; cbn; [by intros _ [= ->]|]. intros [HD HK0]. destruct (step s0 e) as [| |s1 o] eqn:E1; try done.
  destruct (run step s1 es0) as [| |s2 os2] eqn:E2; try done. intros [= -> _]. split; [done|]. by eapply IH.
Qed.
(** malloc and calloc, whatever other threads do meanwhile: NULL for zero bytes; else a new guarded block of the size asked for, filled with 0xcc or 0 *)
Theorem C65_malloc s t n c sz (z : bool) a junk es s' os o : reach s -> started s = true -> thr s t = TIdle -> 0 <= n < 2 ^ 64 ->
   let e0 := if z then ECalloc t c sz a junk else EMalloc t n a junk in
  (z = true -> 0 <= c < 2 ^ 64 /\ 0 <= sz < 2 ^ 64 /\ sz * c = n) ->
  (n = 0 -> step s e0 = Ok s (Some 0)) /\
  (n <> 0 -> Forall (λ e, tid e <> Some t) es -> keeps duty s (e0 :: es ++ [EInsert t]) -> run step s (e0 :: es ++ [EInsert t]) = Ok s' (os ++ [o]) ->
    exists q, o = Some q /\ q <> 0 /\ vl (V s') q = Some (n, true) /\ (forall i, 0 <= i < n -> mem s' (q + i) = Some (if z then 0 else 0xcc)) /\ thr s' t = TIdle).
Proof.
  intros HR Hst Ht Hn e0 Hz.
  assert (Hdo : step s e0 = do_malloc s t n a z junk).
  { unfold e0. destruct z; cbn.
    - destruct (Hz eq_refl) as (H1 & H2 & H3). rewrite decide_True by done. by rewrite H3, Z.mod_small by lia.
    - by rewrite decide_True by done. }
  split.
  - intros ->. rewrite Hdo. unfold do_malloc. by rewrite Ht, Hst.
  - intros Hnz HF [HD HK] HRun. cbn [run] in HRun. rewrite Hdo in HRun, HK. unfold do_malloc in HRun, HK. rewrite Ht, Hst in HRun, HK. cbn [negb] in HRun, HK.
    rewrite decide_False in HRun by done. rewrite decide_False in HK by done. case_decide as Hw; [|done]. destruct (can_place s a (n + 16)) eqn:Ec; [|done].
    set (s1 := set_thr _ _) in HRun, HK. rewrite run_app in HRun. destruct (run step s1 es) as [| |s2 os2] eqn:E2; try done.
    assert (Hs1 : step s e0 = Ok s1 None). { rewrite Hdo. unfold do_malloc. rewrite Ht, Hst. cbn [negb]. rewrite decide_False by done. rewrite decide_True by done. by rewrite Ec. }
    assert (HR1 : reach s1). { eapply (reach_run s [e0]); [done| |cbn [run]; by rewrite Hs1]. cbn [DbgAllocSpec.keeps]. rewrite Hs1. done. }
    destruct (keeps_app _ _ _ _ HK) as [HK1 HK2]. specialize (HK2 _ _ E2). pose proof (reach_run _ _ _ _ HR1 HK1 E2) as HR2.
    assert (Ht2 : thr s2 t = TIns (mkr (a + 8) n) z false). { rewrite (thr_run _ _ _ _ _ E2 HF). cbn. by rewrite upd_eq. }
    cbn [run] in HRun. destruct (step s2 (EInsert t)) as [| |s3 o3] eqn:E3; [done..|]. injection HRun as -> Hos.
    change (None :: (os2 ++ [o3])) with ((None :: os2) ++ [o3]) in Hos. apply app_inj_tail in Hos as [_ ->].
    assert (HD3 : duty s2 (EInsert t)) by done. assert (Hh : hist s' = hist s2 ++ [HMalloc t n z (a + 8) true (λ _, 0)] /\ o = Some (a + 8) /\ thr s' t = TIdle).
    { cbn in E3. rewrite Ht2 in E3. injection E3 as <- <-. destruct z; cbn; by rewrite upd_eq. }
    destruct Hh as (Hh & -> & Hti). exists (a + 8). destruct (C65_fresh _ _ _ _ _ _ _ _ _ _ HR2 HD3 E3 Hh) as [Hl Hb].
    apply can_place_spec in Ec as [Ha _]. split_and!; try done. lia.
Qed.
(** realloc returns the block that its copy step made *)
Theorem C65_realloc_returns s t p r a junk s1 o1 es s' os o : reach s -> thr s t = TCopy p r -> duty s (ECopy t a junk) -> step s (ECopy t a junk) = Ok s1 o1 ->
  exists q trk junk', hist s1 = hist s ++ [HRealloc t p (rn r) q trk junk'] /\
  if trk then Forall (λ e, tid e <> Some t) es -> run step s1 (es ++ [EInsert t]) = Ok s' (os ++ [o]) -> o = Some q /\ thr s' t = TIdle
  else o1 = Some q /\ thr s1 t = TIdle.
Proof.
  intros HR Ht HD HS. cbn in HS. rewrite Ht in HS. destruct (lookup_rec _ _) as [r0|].
  - destruct (check_ptr _ _); [|done]. injection HS as <- _. exists (ru r), true, (λ _, 0). split; [unfold retire; by destruct delay|]. intros HF HRun. rewrite run_app in HRun.
    destruct (run step _ es) as [| |s2 os2] eqn:E2; try done. assert (Ht2 : thr s2 t = TIns r false true). { rewrite (thr_run _ _ _ _ _ E2 HF). cbn. by rewrite upd_eq. }
    cbn [run] in HRun. destruct (step s2 (EInsert t)) as [| |s3 o3] eqn:E3; [done..|]. injection HRun as -> Hos. apply app_inj_tail in Hos as [_ ->].
    cbn in E3. rewrite Ht2 in E3. injection E3 as <- <-. cbn. by rewrite upd_eq.
  - unfold do_libc_realloc in HS. destruct (blk _ p); [|done]. destruct (can_place _ _ _); [|done]. unfold libc_free in HS. exists a, false, junk. case_decide; [injection HS as <- <-; cbn; by rewrite upd_eq|].
    destruct (blk _ p); [|done]. injection HS as <- <-. cbn. by rewrite upd_eq.
Qed.

(** ** The leak report *)
Definition recs (s : sys) (ks : list nat) : list rec := mjoin (tab s <$> ks).
Lemma recs_nodup s v ks : DbgAllocProof.I delay hash s v -> NoDup ks -> NoDup (ru <$> recs s ks).
Proof.
  intros HI. induction ks as [|k ks IH]; intros Hnd; [constructor|]. apply NoDup_cons in Hnd as [Hk Hnd]. unfold recs. cbn. rewrite fmap_app. apply NoDup_app. split_and!; [by eapply i_nt| |by apply IH].
  intros p H1 H2. apply elem_of_list_fmap in H1 as (r1 & -> & H1). apply elem_of_list_fmap in H2 as (r2 & E & H2). apply elem_of_list_join in H2 as (l & H2 & H3).
  apply elem_of_list_fmap in H3 as (k' & -> & H3). apply (i_ht _ _ _ _ HI) in H1, H2. rewrite E in H1. congruence.
Qed.
Definition suffix_at (l : list rec) (p : option Z) : nat :=
  match p with None => 0 | Some p => match list_find (λ r, ru r = p) l with Some (k, _) => length l - k | None => 0 end end.
Lemma list_find_head l : suffix_at l (ru <$> head l) = length l.
Proof. destruct l as [|r l]; cbn; [done|]. rewrite decide_True by done. done. Qed.
(** while the listing runs with no thread inside a call *)
Definition R (g : nat -> list rec) (s : sys) : Prop :=
  dmp s = DOff \/
  (started s = false /\ (forall t, thr s t = TIdle) /\ tab s = g /\
   exists i p c sv, dmp s = DAt i p c sv /\ (i < nb)%nat /\
     (c + suffix_at (g i) p + length (mjoin (g <$> seq (S i) (nb - S i))) = length (mjoin (g <$> seq 0 nb)))%nat).
Lemma retire_dmp s h r : dmp (retire delay s h r) = dmp s.
Proof. unfold retire. by destruct delay. Qed.
Lemma dmp_const s e s' o : step s e = Ok s' o -> e <> EDump -> e <> EDumpStep -> e <> EStart -> dmp s' = dmp s /\ started s' = started s.
Proof.
  assert (Hfree : forall p s' o, do_free delay hash s p = Ok s' o -> dmp s' = dmp s /\ started s' = started s).
  { intros p s1 o1. unfold do_free. destruct (lookup_rec _ _) as [r|].
    - destruct (check_ptr _ _); [|done]. intros [= <- _]. unfold retire. by destruct delay.
    - unfold libc_free. case_decide; [by intros [= <- _]|destruct (blk s p); [|done]; by intros [= <- _]]. }
  assert (Hre : forall s0 t0 p n a junk s' o, do_libc_realloc s0 t0 p n a junk = Ok s' o -> dmp s' = dmp s0 /\ started s' = started s0).
  { intros s0 t0 p n a junk s1 o1. unfold do_libc_realloc. destruct (blk s0 p); [|done]. destruct (can_place _ _ _); [|done]. unfold libc_free. case_decide; [by intros [= <- _]|].
    destruct (blk _ p); [|done]. by intros [= <- _]. }
  assert (Hml : forall t0 n a z junk s' o, do_malloc s t0 n a z junk = Ok s' o -> dmp s' = dmp s /\ started s' = started s).
  { intros t0 n a z junk s1 o1. unfold do_malloc. destruct (thr s t0); try done. destruct (negb _); [destruct (can_place _ _ _); [|done]; by intros [= <- _]|].
    case_decide; [by intros [= <- _]|]. case_decide; [|done]. destruct (can_place _ _ _); [|done]. by intros [= <- _]. }
  intros HS H1 H2 H3. destruct e; cbn in HS; try done.
  - case_decide; [|done]. by eapply Hml in HS.
  - case_decide; [|done]. by eapply Hml in HS.
  - destruct (thr s t); try done. case_decide; [done|]. case_decide.
    + destruct (started s) eqn:Es; [by eapply Hfree in HS|]. unfold libc_free in HS. case_decide; [injection HS as <- _|destruct (blk s p); [|done]; injection HS as <- _]; done.
    + destruct (negb _); [by eapply Hre in HS|]. case_decide; [|done]. destruct (can_place _ _ _); [|done]. by injection HS as <- _.
  - destruct (thr s t) as [|p r|]; try done. destruct (lookup_rec _ _) as [r0|].
    + destruct (check_ptr _ _); [|done]. injection HS as <- _. unfold retire. by destruct delay.
    + by eapply Hre in HS.
  - destruct (thr s t); try done. injection HS as <- _. by destruct re, z.
  - destruct (thr s t); try done. by eapply Hfree in HS.
  - destruct (mem s x); [|done]. by injection HS as <- _.
  - destruct (delay && _); [|done]. destruct (forallb _ _); [|done]. by injection HS as <- _.
Qed.
(** while the listing runs and no thread is inside a call, the table does not change *)
Lemma tab_const s e s' o : J s -> duty s e -> step s e = Ok s' o -> dmp s <> DOff -> (forall t, thr s t = TIdle) -> (forall t, thr s' t = TIdle) /\ tab s' = tab s.
Proof.
  intros [HI HP] HD HS Hon Hid. pose proof (i_off _ _ _ _ HI Hon) as Est.
  assert (Hre : forall t0 p n a junk s' o, do_libc_realloc s t0 p n a junk = Ok s' o -> thr s' = thr s /\ tab s' = tab s).
  { intros t0 p n a junk s1 o1. unfold do_libc_realloc. destruct (blk s p); [|done]. destruct (can_place _ _ _); [|done]. unfold libc_free. case_decide; [by intros [= <- _]|].
    destruct (blk _ p); [|done]. by intros [= <- _]. }
  destruct e; cbn [step DbgAllocModel.step] in HS.
  - by destruct (dmp s).
  - case_decide; [|done]. unfold do_malloc in HS. rewrite Hid, Est in HS. cbn [negb] in HS. destruct (can_place _ _ _); [|done]. by injection HS as <- _.
  - case_decide; [|done]. unfold do_malloc in HS. rewrite Hid, Est in HS. cbn [negb] in HS. destruct (can_place _ _ _); [|done]. by injection HS as <- _.
  - rewrite Hid, Est in HS. cbn [negb] in HS. case_decide; [done|]. case_decide.
    + unfold libc_free in HS. case_decide; [by injection HS as <- _|destruct (blk s p); [|done]; by injection HS as <- _].
    + eapply Hre in HS as [-> ->]. done.
  - by rewrite Hid in HS.
  - by rewrite Hid in HS.
  - rewrite Hid in HS. unfold do_free in HS.
    assert (Hnf : lookup_rec (tab s (hash p)) p = None).
    { destruct HD as [->|[[Hl Hh] Hg]]; [by eapply find_null|]. destruct (vl (V s) p) as [[n trk]|] eqn:Ev; [|done]. destruct trk; [destruct (Hg Hon); by exists n|].
      by apply (find_live _ _ _ _ _ _ _ HI Ev). }
    rewrite Hnf in HS. unfold libc_free in HS. case_decide; [by injection HS as <- _|destruct (blk s p); [|done]; by injection HS as <- _].
  - destruct (mem s x); [|done]. by injection HS as <- _.
  - destruct (delay && _); [|done]. destruct (forallb _ _); [|done]. by injection HS as <- _.
  - destruct (dmp s); [|done]. by injection HS as <- _.
  - destruct (dmp s) as [|i [p|] c0 sv]; [done| |case_decide; by injection HS as <- _].
    destruct (list_find _ _) as [[k r]|]; [|done]. by injection HS as <- _.
Qed.
Lemma R_step g s e s' o : J s -> R g s -> duty s e -> step s e = Ok s' o -> e <> EDump ->
  R g s' /\ (e = EDumpStep -> forall c, o = Some c -> c = Z.of_nat (length (mjoin (g <$> seq 0 nb)))).
Proof.
  intros HJ HRR HD HS Hnd. assert (Hdec : e = EDumpStep \/ e = EStart \/ e <> EDumpStep /\ e <> EStart) by (destruct e; auto).
  destruct HRR as [Hoff|(Est & Hid & Etab & i & p & c & sv & Ed & Hi & Hc)].
  - destruct Hdec as [->|[->|[H1 H2]]].
    + cbn in HS. by rewrite Hoff in HS.
    + cbn in HS. rewrite Hoff in HS. injection HS as <- _. split; [by left|done].
    + split; [|done]. left. destruct (dmp_const _ _ _ _ HS) as [-> _]; done.
  - assert (Hon : dmp s <> DOff) by (by rewrite Ed). destruct (tab_const _ _ _ _ HJ HD HS Hon Hid) as [Hid' Etab'].
    destruct Hdec as [->|[->|[H1 H2]]].
    + cbn in HS. rewrite Ed in HS. destruct p as [p|].
      * rewrite Etab in HS. destruct (list_find _ (g i)) as [[k r]|] eqn:El; [|done]. injection HS as <- <-. split; [|done]. right. split_and!; try done.
        exists i, (ru <$> g i !! S k), (S c), sv. split_and!; try done. cbn [suffix_at] in Hc. rewrite El in Hc.
        assert (Hk : (k < length (g i))%nat). { apply list_find_Some in El as (El & _). by eapply lookup_lt_Some. }
        enough (suffix_at (g i) (ru <$> g i !! S k) = (length (g i) - S k)%nat) by lia.
        destruct (g i !! S k) as [x|] eqn:Ex; cbn.
        -- assert (Hnd2 : NoDup (ru <$> g i)). { destruct HJ as [HI _]. rewrite <-Etab. by eapply i_nt. }
           assert (Ef : list_find (λ r0, ru r0 = ru x) (g i) = Some (S k, x)).
           { apply list_find_Some. split_and!; [done|done|]. intros j y Hj Hlt E.
             assert (j = S k); [|lia]. eapply NoDup_lookup; [exact Hnd2|rewrite list_lookup_fmap, Hj; cbn; by rewrite E|by rewrite list_lookup_fmap, Ex]. }
           rewrite Ef. done.
        -- apply lookup_ge_None in Ex. lia.
      * cbn [suffix_at] in Hc. case_decide as Hlt.
        -- injection HS as <- <-. split; [|done]. right. split_and!; try done. eexists (S i), _, c, sv. split_and!; try done. rewrite Etab, list_find_head.
           assert (Eseq : seq (S i) (nb - S i) = S i :: seq (S (S i)) (nb - S (S i))) by (replace (nb - S i)%nat with (S (nb - S (S i))) by lia; done).
           rewrite Eseq in Hc. change (mjoin (g <$> S i :: ?x)) with (g (S i) ++ mjoin (g <$> x)) in Hc. rewrite app_length in Hc. lia.
        -- injection HS as <- <-. split; [by left|]. intros _ c' [= <-]. assert (nb - S i = 0)%nat by lia. rewrite H in Hc. cbn in Hc. lia.
    + cbn in HS. by rewrite Ed in HS.
    + split; [|done]. right. destruct (dmp_const _ _ _ _ HS) as [E1 E2]; [done..|]. split_and!; [congruence|done|congruence|]. exists i, p, c, sv. by rewrite E1.
Qed.
(** listing the leaks while no thread is inside a call counts every guarded block that has not been freed, each once *)
Theorem C65_leak_report s es s' os c : reach s -> (forall t, thr s t = TIdle) -> (forall p, (hash p < nb)%nat) -> (0 < nb)%nat ->
  keeps duty s (EDump :: es ++ [EDumpStep]) -> EDump ∉ es -> run step s (EDump :: es ++ [EDumpStep]) = Ok s' (os ++ [Some c]) ->
  exists l, NoDup l /\ (forall p, p ∈ l <-> exists n, vl (V s) p = Some (n, true)) /\ c = Z.of_nat (length l).
Proof.
  intros HR Hid Hh Hnb HK Hnd HRun. pose proof (reach_J s HR) as HJ. pose proof HJ as [HI HP]. set (g := tab s).
  exists (ru <$> recs s (seq 0 nb)). split_and!.
  - eapply recs_nodup; [exact HI|]. apply NoDup_seq.
  - intros p. rewrite elem_of_list_fmap. split.
    + intros (r & -> & H). apply elem_of_list_join in H as (l & H1 & H2). apply elem_of_list_fmap in H2 as (k & -> & H2). exists (rn r). apply (i_live _ _ _ _ HI). left.
      rewrite (i_ht _ _ _ _ HI _ _ H1). by destruct r.
    + intros (n & Ev). apply (i_live _ _ _ _ HI) in Ev as [H|(t & z & H)]; [|by rewrite Hid in H]. exists (mkr p n). split; [done|]. apply elem_of_list_join. exists (tab s (hash p)). split; [done|].
      apply elem_of_list_fmap. exists (hash p). split; [done|]. apply elem_of_seq. specialize (Hh p). lia.
  - rewrite fmap_length. unfold recs. fold g. cbn [DbgAllocSpec.keeps run] in HK, HRun. destruct HK as [HD HK]. destruct (step s EDump) as [| |s1 o1] eqn:E1; [done..|].
    assert (HR1 : R g s1).
    { cbn in E1. destruct (dmp s); [|done]. injection E1 as <- _. right. split_and!; try done. eexists 0%nat, _, 0%nat, (started s). split_and!; try done. rewrite list_find_head.
      replace (seq 0 nb) with (0%nat :: seq 1 (nb - 1)) by (destruct nb; [lia|]; cbn; by rewrite Nat.sub_0_r). cbn. by rewrite app_length. }
    pose proof (J_step _ _ _ _ _ _ _ HJ HD E1) as HJ1. rewrite run_app in HRun. destruct (keeps_app _ _ _ _ HK) as [HK1 HK2]. destruct (run step s1 es) as [| |s2 os2] eqn:E2; try done.
    specialize (HK2 _ _ eq_refl). cbn in HK2. destruct HK2 as [HD2 _]. cbn [run] in HRun. destruct (step s2 EDumpStep) as [| |s3 o3] eqn:E3; [done..|]. injection HRun as -> Hos.
    change (o1 :: (os2 ++ [o3])) with ((o1 :: os2) ++ [o3]) in Hos. apply app_inj_tail in Hos as [_ ->].
    assert (H2 : J s2 /\ R g s2).
    { clear -HJ1 HR1 HK1 E2 Hnd. revert s1 os2 HJ1 HR1 HK1 E2. induction es as [|e es IH]; intros s1 os2 HJ1 HR1 HK1 E2; cbn in HK1, E2; [by injection E2 as <- _|].
      destruct HK1 as [HD HK]. destruct (step s1 e) as [| |s3 o] eqn:E1; try done. destruct (run step s3 es) as [| |s4 os4] eqn:E3; try done. injection E2 as -> _.
      apply not_elem_of_cons in Hnd as [Hne Hnd]. eapply (IH Hnd s3); [by eapply J_step| |done|exact E3]. eapply R_step; [exact HJ1|done|done|exact E1|done]. }
    destruct H2 as [HJ2 HR2]. eapply (proj2 (R_step g s2 EDumpStep s' (Some c) HJ2 HR2 HD2 E3 ltac:(done))); done.
Qed.
End props.

Lemma run_ex delay nb hash es (A : sys -> list (option Z) -> Prop) : match run (step delay nb hash) init es with Ok s os => A s os | _ => False end ->
  exists s os, run (step delay nb hash) init es = Ok s os /\ A s os.
Proof. destruct (run _ _ _) as [| |s os]; [done..|]. eauto. Qed.
(** * A concrete run, and what goes wrong outside the duties *)
(** duties as a check, for the threads [ts] *)
Definition heldb (c : tpc) (p : Z) : bool :=
  match c with TIdle => false | TCopy p' r => bool_decide (p' = p) || bool_decide (ru r = p) | TIns r _ _ => bool_decide (ru r = p) end.
Lemma heldb_false c p : heldb c p = false -> ~ held c p.
Proof. destruct c; cbn; [by intros _ []| |]; [rewrite orb_false_iff; intros [H1%bool_decide_eq_false H2%bool_decide_eq_false]; tauto|by intros H%bool_decide_eq_false]. Qed.
Definition usableb (ts : list nat) (delay : bool) (s : sys) (p : Z) : bool :=
  match vl (view_of delay (hist s)) p with Some _ => forallb (λ t, negb (heldb (thr s t) p)) ts | None => false end.
Definition ungb (delay : bool) (s : sys) (p : Z) : bool :=
  match dmp s with DOff => true | _ => match vl (view_of delay (hist s)) p with Some (_, true) => false | _ => true end end.
Definition mineb (ts : list nat) (e : ev) : bool := match tid e with Some t => bool_decide (t ∈ ts) | None => true end.
Definition dutyb (ts : list nat) (delay : bool) (s : sys) (e : ev) : bool :=
  mineb ts e &&
  match e with
  | EStart => negb (started s)
  | EMalloc _ n _ _ => bool_decide (n + 16 < 2 ^ 64)
  | ECalloc _ c sz _ _ => bool_decide ((sz * c) mod 2 ^ 64 + 16 < 2 ^ 64)
  | ERealloc _ p n _ _ => bool_decide (n + 16 < 2 ^ 64) && usableb ts delay s p && ungb delay s p
  | EFree _ p => bool_decide (p = 0) || usableb ts delay s p && ungb delay s p
  | EPoke x _ => match vm (view_of delay (hist s)) x with Some _ => true | None => false end
  | EDump => forallb (λ t, match thr s t with TCopy _ _ => false | _ => true end) ts
  | _ => true
  end.
Fixpoint keepsb (ts : list nat) (delay : bool) (nb : nat) (hash : Z -> nat) (s : sys) (es : list ev) : bool :=
  match es with [] => true | e :: es => dutyb ts delay s e && match step delay nb hash s e with Ok s' _ => keepsb ts delay nb hash s' es | _ => true end end.
Definition others_idle (ts : list nat) (s : sys) : Prop := forall t, t ∉ ts -> thr s t = TIdle.
Lemma usableb_ok ts delay s p : others_idle ts s -> usableb ts delay s p = true -> usable delay s p.
Proof.
  intros Ho. unfold usableb, usable. destruct (vl _ p); [|done]. intros H. split; [done|]. intros t. destruct (decide (t ∈ ts)) as [Ht|Ht].
  - rewrite forallb_forall in H. apply elem_of_list_In in Ht. apply H, negb_true_iff in Ht. by apply heldb_false.
  - rewrite (Ho t Ht). by intros [].
Qed.
Lemma ungb_ok delay s p : ungb delay s p = true -> dmp s <> DOff -> ~ is_guarded delay s p.
Proof. unfold ungb, is_guarded. destruct (dmp s); [done|]. intros H _ [n E]. by rewrite E in H. Qed.
Lemma dutyb_ok ts delay s e : others_idle ts s -> dutyb ts delay s e = true -> mineb ts e = true /\ duty delay s e.
Proof.
  intros Ho. unfold dutyb. rewrite andb_true_iff. intros [Hm H]. split; [done|]. clear Hm. destruct e; cbn in *; try done.
  - by destruct (started s).
  - by apply bool_decide_eq_true in H.
  - by apply bool_decide_eq_true in H.
  - rewrite !andb_true_iff in H. destruct H as [[H1 H2] H3]. apply bool_decide_eq_true in H1. split_and!; [done|by eapply usableb_ok|by apply ungb_ok].
  - rewrite orb_true_iff, andb_true_iff in H. destruct H as [H|[H1 H2]]; [left; by apply bool_decide_eq_true in H|right]. split; [by eapply usableb_ok|by apply ungb_ok].
  - by destruct (vm _ x).
  - intros t p r E. destruct (decide (t ∈ ts)) as [Ht|Ht]; [|by rewrite (Ho t Ht) in E]. rewrite forallb_forall in H. apply elem_of_list_In, H in Ht. by rewrite E in Ht.
Qed.
Lemma keepsb_ok ts delay nb hash es : forall s, others_idle ts s -> keepsb ts delay nb hash s es = true -> keeps delay nb hash (duty delay) s es.
Proof.
  induction es as [|e es IH]; intros s Ho; cbn; [done|]. rewrite andb_true_iff. intros [H1 H2]. destruct (dutyb_ok _ _ _ _ Ho H1) as [Hm HD]. split; [done|].
  destruct (step delay nb hash s e) as [| |s1 o] eqn:E1; try done. apply IH; [|done]. intros t Ht. rewrite (thr_other delay nb hash s e s1 o t E1); [by apply Ho|].
  intros E. unfold mineb in Hm. rewrite E in Hm. by apply bool_decide_eq_true in Hm.
Qed.
Definition dhash (p : Z) : nat := Z.to_nat ((p / 256) mod 4).
Definition z0 : Z -> Z := λ i, i + 1.
Definition demo_es : list ev :=
  [EMalloc 0 5 16 z0; EStart; EMalloc 0 3 256 z0; ECalloc 1 2 2 512 z0; EInsert 1; EInsert 0; EPoke 264 7; EPoke 522 9;
   ERealloc 0 264 6 1024 z0; EFree 1 520; ECopy 0 0 z0; EPoke 1037 8; EInsert 0; ERealloc 1 16 2 2048 z0; ECopy 1 64 z0; ESweep 0; ESweep 1; ESweep 2; EDump; EFree 1 64;
   EDumpStep; EDumpStep; EDumpStep; EDumpStep; EDumpStep; ESweep 1; EFree 0 1032].
(** two threads; a block from before the start, malloc, calloc, realloc of both kinds, free, sweeps, and a listing that finds the one block left *)
Example C65_demo : keeps true 4 dhash (duty true) init demo_es /\
  exists s os, run (step true 4 dhash) init demo_es = Ok s os /\
    os = [Some 16; None; None; None; Some 520; Some 264; None; None; None; Some 0; None; None; Some 1032; None; Some 64; None; None; None; None; Some 0; None; None; None; None; Some 1; None; Some 0] /\
    pend_of true (hist s) 520 = Some 4 /\ pend_of true (hist s) 264 = None /\ mem s 264 = None /\ mem s 1032 = Some 0xee /\ blk s 64 = None.
Proof.
  split; [apply (keepsb_ok [0; 1]%nat); [by intros t|]; by vm_compute|]. apply run_ex. by vm_compute.
Qed.
(** writing one byte past the end is found by free; writing to a freed block by the sweeper *)
Example C65_overrun_demo : let es := [EStart; EMalloc 0 3 256 z0; EInsert 0; EPoke 267 1; EFree 0 264] in
  keeps true 4 dhash (duty true) init es /\ run (step true 4 dhash) init es = Crash.
Proof. cbn zeta. split; [apply (keepsb_ok [0]%nat); [by intros t|]; by vm_compute|by vm_compute]. Qed.
Example C65_uaf_demo : let es := [EStart; EMalloc 0 3 256 z0; EInsert 0; EFree 0 264; EPoke 265 1; ESweep 1; ESweep 1] in
  keeps true 4 dhash (duty true) init es /\ run (step true 4 dhash) init es = Crash.
Proof. cbn zeta. split; [apply (keepsb_ok [0]%nat); [by intros t|]; by vm_compute|by vm_compute]. Qed.

(** realloc of a guarded block while the leaks are listed goes to the C library with a pointer it never gave out *)
Theorem C65_realloc_in_dump_refuted : run (step true 4 dhash) init [EStart; EMalloc 0 3 256 z0; EInsert 0; EDump; ERealloc 0 264 5 512 z0] = Crash.
Proof. by vm_compute. Qed.
(** free while the leaks are listed: the listing goes on from a record that is gone *)
Theorem C65_free_in_dump_refuted :
  run (step false 4 dhash) init [EStart; EMalloc 0 3 256 z0; EInsert 0; EDump; EDumpStep; EDumpStep] <> Crash /\
  run (step false 4 dhash) init [EStart; EMalloc 0 3 256 z0; EInsert 0; EDump; EDumpStep; EFree 1 264; EDumpStep] = Crash.
Proof. by vm_compute. Qed.
(** calloc does not check the product: 2 objects of 2^63 + 4 bytes give a block of 8 bytes *)
Theorem C65_calloc_overflow_refuted : exists s os, run (step false 4 dhash) init [EStart; ECalloc 0 2 (2 ^ 63 + 4) 256 z0; EInsert 0] = Ok s os /\
  last os = Some (Some 264) /\ vl (view_of false (hist s)) 264 = Some (8, true) /\ mem s 280 = None.
Proof. apply run_ex. by vm_compute. Qed.
(** a size within 16 of 2^64 wraps around *)
Theorem C65_huge_refuted : run (step false 4 dhash) init [EStart; EMalloc 0 (2 ^ 64 - 8) 256 z0] = Crash.
Proof. by vm_compute. Qed.
(** start_hook_alloc called twice forgets the blocks: freeing one is a free of the middle of a C library block *)
Theorem C65_restart_refuted : run (step false 4 dhash) init [EStart; EMalloc 0 3 256 z0; EInsert 0; EStart; EFree 0 264] = Crash.
Proof. by vm_compute. Qed.
