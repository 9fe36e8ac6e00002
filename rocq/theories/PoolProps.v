(** C35, C36, C37: the memory pool. *)
From Verif Require Import PoolSpec PoolProof PoolProof2 PoolProof3.
Local Open Scope Z_scope.

Section facts.
Context (psize : Z) (Hps : 64 <= psize < 2 ^ 63) (Hp8 : psize mod 8 = 0).
Context (sysm : nat -> list region -> Z -> Z -> option Z) (HS : sys_ok sysm).

Definition bhdrs (hs : list Z) (bs : list blk) : list region := zip_with (λ h b, (ba b, h)) hs bs.
Lemma bhdrs_in hs bs y : Forall2 (blk_ok psize) hs bs -> y ∈ bhdrs hs bs -> exists b, b ∈ bs /\ blk_ok psize y.2 b /\ y.1 = ba b /\ y.2 ∈ hs.
Proof.
  unfold bhdrs. intros HF. induction HF as [|h b hs bs HB HF IH]; cbn; [by intros ?%elem_of_nil|].
  intros [->|Hy]%elem_of_cons; [exists b; split_and!; [left|done|done|left]|]. destruct (IH Hy) as (b' & ? & ? & ? & ?). exists b'. split_and!; try done; by right.
Qed.
Lemma all_disj hs bs : Forall2 (blk_ok psize) hs bs -> Forall (λ h, 0 <= h) hs -> pdisj (breg <$> bs) -> pdisj (smalls bs ++ bhdrs hs bs).
Proof.
  intros HF. induction HF as [|h b hs bs HB HF IH]; [done|]. intros [Hh1 Hh2]%Forall_cons [HD1 HD2]. rewrite Forall_forall in HD1.
  assert (E : smalls (b :: bs) ++ bhdrs (h :: hs) (b :: bs) ≡ₚ ((ba b, h) :: blive b) ++ (smalls bs ++ bhdrs hs bs)).
  { unfold smalls, bhdrs. cbn. solve_Permutation. }
  rewrite E. apply pdisj_app. split_and!; [|by apply IH|].
  - destruct HB as [B1 B2 B3 B0 B4 B5 B6 B7]. split; [|done]. apply Forall_forall. intros r Hr. destruct (B7 r Hr). unfold disj. cbn. lia.
  - intros x y Hx Hy.
    assert (Hxi : 0 < x.2 -> inside x.1 x.2 (breg b)).
    { apply elem_of_cons in Hx as [->|Hx]; intros Hp; [destruct HB; unfold inside, breg; cbn; lia|]. by eapply blk_inside. }
    assert (Hyi : exists b', b' ∈ bs /\ (0 < y.2 -> inside y.1 y.2 (breg b'))).
    { apply elem_of_app in Hy as [Hy|Hy].
      - apply smalls_in in Hy as (b' & Hb' & Hy). exists b'. split; [done|]. intros Hp. apply elem_of_list_lookup in Hb' as [i Hi].
        destruct (Forall2_lookup_r _ _ _ _ _ HF Hi) as (h' & Hh' & HB'). eapply (blk_inside psize h'); try done.
        rewrite Forall_forall in Hh2. apply Hh2. by eapply elem_of_list_lookup_2.
      - apply bhdrs_in in Hy as (b' & Hb' & HB' & Hy1 & _); [|done]. exists b'. split; [done|]. intros Hp. destruct HB'. unfold inside, breg. cbn. lia. }
    destruct Hyi as (b' & Hb' & Hyi). eapply disj_inside; [|exact Hxi|exact Hyi]. apply HD1. apply elem_of_list_fmap. eauto.
Qed.
Lemma own_eq n p : Forall2 (blk_ok psize) (64 :: replicate n 32) (blocks p) -> own p = bhdrs (64 :: replicate n 32) (blocks p) ++ hdrs (large p) ++ recs (cleanup p).
Proof.
  intros HF. unfold own, bhdrs. destruct (blocks p) as [|b bs]; [inversion HF|]. inversion HF as [|? ? ? ? _ HF2]; subst. cbn. do 2 f_equal.
  clear HF. revert bs HF2. induction n as [|n IH]; intros bs HF2; inversion HF2; subst; cbn; [done|]. f_equal. by apply IH.
Qed.
Lemma own_disj U p : PI psize [] U p -> pdisj (U ++ own p).
Proof.
  intros HP. destruct (PI_hs _ _ _ _ HP) as [n Hf]. rewrite (own_eq n p Hf).
  assert (E : U ++ bhdrs (64 :: replicate n 32) (blocks p) ++ hdrs (large p) ++ recs (cleanup p) ≡ₚ (smalls (blocks p) ++ bhdrs (64 :: replicate n 32) (blocks p)) ++ larges (large p)).
  { transitivity ((U ++ hdrs (large p) ++ recs (cleanup p)) ++ bhdrs (64 :: replicate n 32) (blocks p)); [solve_Permutation|].
    rewrite <- (PI_part _ _ _ _ HP). unfold live. solve_Permutation. }
  rewrite E. pose proof (PI_sdj _ _ _ _ HP) as Hs. rewrite (PI_sys _ _ _ _ HP) in Hs. cbn in Hs. apply pdisj_app in Hs as (Hs1 & Hs2 & Hs3).
  apply pdisj_app. split_and!; [|done|].
  - apply all_disj; [done|apply hs_nonneg|done].
  - intros x y Hx Hy.
    assert (Hxi : exists b, b ∈ blocks p /\ (0 < x.2 -> inside x.1 x.2 (breg b))).
    { apply elem_of_app in Hx as [Hx|Hx].
      - apply smalls_in in Hx as (b & Hb & Hx). exists b. split; [done|]. destruct (hs_in _ _ _ _ Hf Hb) as (h & Hh & HB). intros. eapply (blk_inside psize h); try done. lia.
      - apply bhdrs_in in Hx as (b & Hb & HB & Hx1 & _); [|done]. exists b. split; [done|]. intros. destruct HB. unfold inside, breg. cbn. lia. }
    destruct Hxi as (b & Hb & Hxi). eapply (disj_inside x y (breg b) y); [|exact Hxi|unfold inside; lia]. apply Hs3; [|done]. apply elem_of_list_fmap. eauto.
Qed.
End facts.

(** C35.  For a pool size that is a multiple of the word size (and room for the header): at the end of every
    history the blocks the client holds, the storage of its arrays and the pool's own records are pairwise
    disjoint, and each lies inside one region obtained from the system. *)
Theorem C35_blocks_disjoint_partial : forall sysm size m l t s, sys_ok sysm -> 64 <= size < 2 ^ 63 -> size mod 8 = 0 ->
  history sysm size m l t s ->
  pdisj (user s ++ aregs (arrs s) ++ own (po s)) /\
  forall r, r ∈ user s ++ aregs (arrs s) -> 0 < r.2 -> exists q, q ∈ sysr (po s) /\ inside r.1 r.2 q.
Proof.
  intros sysm size m l t s HS Hps Hp8 HH. destruct (history_ok size Hps Hp8 sysm HS m l t s HH) as [[[G HP] HA] _]. split.
  - pose proof (own_disj size _ _ HP) as HD.
    assert (E : (user s ++ aregs (arrs s) ++ G) ++ own (po s) ≡ₚ (user s ++ aregs (arrs s) ++ own (po s)) ++ G) by solve_Permutation.
    rewrite E in HD. apply pdisj_app in HD. tauto.
  - intros r Hr Hp. apply (live_inside size [] _ (po s) r HP); [|done]. rewrite (PI_part _ _ _ _ HP), !elem_of_app. rewrite elem_of_app in Hr. tauto.
Qed.

(** C35, alignment: every block returned by kgl_palloc is word aligned, and kgl_pmemalign respects its argument *)
Theorem C35_alignment_partial : forall sysm size m l t s, sys_ok sysm -> 64 <= size < 2 ^ 63 -> size mod 8 = 0 ->
  history sysm size m l t s ->
  (forall n a, (Alloc n, OPtr (Some a)) ∈ t -> a mod 8 = 0) /\ (forall n al a, (Memalign n al, OPtr (Some a)) ∈ t -> a mod al = 0).
Proof.
  intros sysm size m l t s HS Hps Hp8 (s0 & H0 & H1).
  assert (HM : MI size s0).
  { destruct (history_ok size Hps Hp8 sysm HS m [] [] s0) as [HM _]; [|done]. by exists s0. }
  clear H0. revert s0 t HM H1. induction l as [|o l IH]; intros s0 t HM; cbn [exec]; [intros [= <- <-]; split; intros; by destruct (not_elem_of_nil (A := op * out) _ ltac:(eassumption))|].
  destruct (step sysm s0 o) as [[r s1]|] eqn:E; [|done]. destruct (step_ok size Hps Hp8 sysm HS _ _ _ _ HM E) as [HM1 _].
  destruct (exec sysm s1 l) as [[t1 s2]|] eqn:E1; [|done]. intros [= <- <-]. destruct (IH _ _ HM1 E1) as [I1 I2].
  destruct HM as [[G HP] _]. split.
  - intros n a [[= <- <-]|Hin]%elem_of_cons; [|eauto]. cbn in E. case_decide as Hz; [|done].
    destruct (palloc sysm (po s0) n) as [mm p'] eqn:EP. unfold give in E. injection E as -> <-. cbn in *.
    destruct (palloc_ok size Hps Hp8 sysm HS _ _ _ _ _ HP Hz EP) as (_ & _ & ?). done.
  - intros n al a [[= <- <-]|Hin]%elem_of_cons; [|eauto]. cbn in E. case_decide as Hz; [|done].
    destruct (pmemalign sysm (po s0) n al) as [mm p'] eqn:EP. unfold give in E. injection E as -> <-. cbn in *. destruct Hz as [Hz _].
    destruct (pmemalign_ok size Hps Hp8 sysm HS _ _ _ _ _ _ HP Hz EP) as (_ & _ & ?). done.
Qed.

(** C35, contents: a call changes no byte of a block the client held before it and holds after it, except a
    write of the client itself to that very byte *)
Theorem C35_contents_partial : forall sysm size m l t s, sys_ok sysm -> 64 <= size < 2 ^ 63 -> size mod 8 = 0 ->
  history sysm size m l t s ->
  forall o r s', step sysm s o = Some (r, s') ->
  forall q x, q ∈ user s -> q.1 <= x < q.1 + q.2 -> (forall v, o <> Write x v) -> mem s' x = mem s x.
Proof.
  intros sysm size m l t s HS Hps Hp8 HH o r s' E q x Hq Hx Hw. destruct (history_ok size Hps Hp8 sysm HS m l t s HH) as [HM _].
  destruct (HM) as [[G HP] HA].
  assert (Hpush : forall id a c bs n rr, arrs s !! id = Some a -> cont s !! id = Some c -> 0 <= n -> Z.of_nat (length bs) = n * esize a ->
    (forall U, PI size [] (areg a ++ U) (po s) -> push_post size U (po s) (mem s) a n rr) -> pushed s id c bs rr = Some (r, s') -> mem s' x = mem s x).
  { intros id a c bs n rr Ha Hc Hn Hbs Hr. destruct (HA _ _ Ha) as (c' & Hc' & HO).
    set (U := user s ++ aregs (delete id (arrs s)) ++ G).
    assert (HPU : PI size [] (areg a ++ U) (po s)). { eapply PI_perm; [exact HP|]. unfold U. rewrite (aregs_delete _ _ _ Ha). solve_Permutation. }
    specialize (Hr U HPU). destruct rr as [[[e p'] m'] a']. unfold pushed. cbn in Hr. destruct Hr as [Hcl Hr]. destruct e as [e|].
    - destruct Hr as ([G' HP'] & R1 & R2 & R3 & R4 & -> & R5 & R6). intros [= <- <-]. cbn.
      assert (HD : disj (elts a', esize a' * nalloc a') q).
      { pose proof (live_disj _ _ _ _ HP') as HD. rewrite (PI_part _ _ _ _ HP') in HD. destruct HD as [_ [HD _]].
        rewrite Forall_forall in HD. apply HD. rewrite !elem_of_app. left. right. unfold U. rewrite !elem_of_app. by left. }
      assert (Hdx : ~ (elts a' <= x < elts a' + esize a' * nalloc a')) by (unfold disj in HD; cbn in HD; lia).
      rewrite store_out; [by apply R6|]. destruct HO. nia.
    - destruct Hr as (HP' & -> & ->). by intros [= <- <-]. }
  destruct o; cbn [step] in E.
  - case_decide; [|done]. by injection E as <- <-.
  - case_decide; [|done]. by injection E as <- <-.
  - case_decide; [|done]. by injection E as <- <-.
  - case_decide; [|done]. destruct (pfree (po s) a). by injection E as <- <-.
  - destruct (cleanup_add sysm (po s) h d). by injection E as <- <-.
  - destruct (cleanup_insert sysm (po s) h). by injection E as <- <-.
  - case_decide; [|done]. by injection E as <- <-.
  - destruct (reset_pool (po s)) as [[? ?]|]; [|done]. by injection E as <- <-.
  - case_decide; [|done]. destruct (array_create sysm (po s) n sz) as [[?|] ?]; by injection E as <- <-.
  - destruct (arrs s !! id) as [a|] eqn:Ha; [|done]. destruct (cont s !! id) as [c|] eqn:Hc; [|done]. case_decide as Hg; [|done].
    destruct (HA _ _ Ha) as (c' & Hc' & HO).
    eapply (Hpush id a c bs 1); try done; [lia|]. intros U HU. eapply array_push_ok; try done.
  - destruct (arrs s !! id) as [a|] eqn:Ha; [|done]. destruct (cont s !! id) as [c|] eqn:Hc; [|done]. case_decide as Hg; [|done]. destruct Hg as [Hn Hg].
    destruct (HA _ _ Ha) as (c' & Hc' & HO).
    eapply (Hpush id a c bs n); try done. intros U HU. eapply array_push_n_ok; try done.
  - destruct (arrs s !! id) as [a|] eqn:Ha; [|done]. by injection E as <- <-.
  - case_decide; [|done]. injection E as <- <-. cbn. apply store_out. cbn. intros Hx2. apply (Hw v). f_equal. lia.
Qed.

(** C36.  kgl_destroy_pool after any history: it reads no freed memory, runs exactly the handlers that the calls
    registered (newest first, each once, with its current data), and gives back all memory exactly once. *)
Theorem C36_destroy : forall sysm size m l t s, sys_ok sysm -> 64 <= size < 2 ^ 63 -> size mod 8 = 0 ->
  history sysm size m l t s -> destroy_pool (po s) = Some (to_run (registered t []), []).
Proof.
  intros sysm size m l t s HS Hps Hp8 HH. destruct (history_ok size Hps Hp8 sysm HS m l t s HH) as [[[G HP] HA] HC].
  rewrite <- HC. by eapply (destroy_ok size).
Qed.
(** kgl_reset_pool runs the same handlers; afterwards none is registered and the client holds nothing *)
Theorem C36_reset : forall sysm size m l t s, sys_ok sysm -> 64 <= size < 2 ^ 63 -> size mod 8 = 0 ->
  history sysm size m l t s -> exists s', step sysm s Reset = Some (ORan (to_run (registered t [])), s') /\ cleanup (po s') = [] /\ user s' = [] /\
    (forall q, q ∈ sysr (po s') -> q ∈ sysr (po s)).
Proof.
  intros sysm size m l t s HS Hps Hp8 HH. destruct (history_ok size Hps Hp8 sysm HS m l t s HH) as [[[G HP] HA] HC].
  destruct (reset_ok size Hps _ _ HP) as (p' & E & HP' & Hc). cbn [step]. rewrite E, <- HC. eexists. split_and!; try done.
  cbn. intros q. rewrite (PI_sys _ _ _ _ HP'), (PI_sys _ _ _ _ HP). unfold reset_pool in E.
  destruct (run_cleanup (cleanup (po s)) (sysr (po s))); [|done]. destruct (free_large (large (po s)) (sysr (po s))); [|done]. injection E as _ <-. cbn.
  rewrite <- list_fmap_compose. intros Hq. apply elem_of_app. left. rewrite app_nil_r in Hq. exact Hq.
Qed.
(** the records have distinct addresses, so kgl_cleanup_set_data changes one registration only *)
Theorem C36_records_distinct : forall sysm size m l t s, sys_ok sysm -> 64 <= size < 2 ^ 63 -> size mod 8 = 0 ->
  history sysm size m l t s -> NoDup ((λ e, e.1.1) <$> registered t []).
Proof.
  intros sysm size m l t s HS Hps Hp8 HH. destruct (history_ok size Hps Hp8 sysm HS m l t s HH) as [[[G HP] HA] HC].
  rewrite <- HC. pose proof (own_disj size _ _ HP) as HD. apply pdisj_app in HD as (_ & HD & _). unfold own in HD.
  rewrite app_assoc in HD. apply pdisj_app in HD as (_ & HD & _). clear -HD. induction (cleanup (po s)) as [|e k IH]; cbn; [constructor|].
  destruct HD as [H1 H2]. constructor; [|by apply IH]. rewrite Forall_forall in H1. intros (e' & E & He')%elem_of_list_fmap.
  specialize (H1 (e'.1.1, SZ_CLEAN)). unfold disj, SZ_CLEAN in H1. cbn in H1. destruct H1; [|lia..]. apply elem_of_list_fmap. by exists e'.
Qed.
(** a handler that is only ever registered with kgl_cleanup_insert is registered at most once *)
Theorem C36_insert_once : forall t h, (forall d r, (CleanAdd h d, r) ∉ t) -> (length (filter (λ e, e.1.2 = h) (registered t [])) <= 1)%nat.
Proof.
  intros t h Hno. assert (G : forall acc, (length (filter (λ e : Z * Z * Z, e.1.2 = h) acc) <= 1)%nat -> (length (filter (λ e : Z * Z * Z, e.1.2 = h) (registered t acc)) <= 1)%nat);
    [|apply (G []); cbn; lia].
  induction t as [|[o r] t IH]; intros acc Ha; [done|]. rewrite registered_cons. apply IH; [intros d r' Hin; apply (Hno d r'); by right|].
  assert (Hset : forall c d, (length (filter (λ e : Z * Z * Z, e.1.2 = h) ((λ e : Z * Z * Z, if decide (e.1.1 = c) then (e.1.1, e.1.2, d) else e) <$> acc)) <= 1)%nat).
  { intros c d. assert (forall k : list (Z * Z * Z), length (filter (λ e : Z * Z * Z, e.1.2 = h) ((λ e : Z * Z * Z, if decide (e.1.1 = c) then (e.1.1, e.1.2, d) else e) <$> k)) =
      length (filter (λ e : Z * Z * Z, e.1.2 = h) k)) as ->; [|done]. clear. intros k. induction k as [|e k IH]; [done|]. rewrite fmap_cons.
    destruct (decide (e.1.2 = h)).
    - rewrite !filter_cons_True; [cbn; by rewrite IH|done|]. by case_decide.
    - rewrite !filter_cons_False; [done|done|]. by case_decide. }
  unfold reg1. destruct o; cbn [registered]; try done; try (by destruct r as [[?|]| | |]); [| |cbn; lia].
  - destruct r as [[c|]| | |]; cbn [registered]; try done. rewrite filter_cons_False; [done|]. cbn. intros ->. apply (Hno d (OPtr (Some c))). left.
  - destruct r as [[c|]| | |]; cbn [registered]; try done. case_decide as Hd; [done|]. destruct (decide (h0 = h)) as [->|Hne]; [|by rewrite filter_cons_False].
    rewrite filter_cons_True by done. cbn [length]. destruct (filter (λ e : Z * Z * Z, e.1.2 = h) acc) as [|e k] eqn:E; [cbn; lia|]. exfalso. apply Hd.
    assert (He : e ∈ filter (λ e : Z * Z * Z, e.1.2 = h) acc) by (rewrite E; left). apply elem_of_list_filter in He as [He1 He2]. apply elem_of_list_fmap. eauto.
Qed.

(** C37.  After any history every array (initial capacity at least 1) holds exactly the bytes pushed to it, inside
    its storage; that storage is disjoint from everything else by C35. *)
Theorem C37_array_contents_partial : forall sysm size m l t s, sys_ok sysm -> 64 <= size < 2 ^ 63 -> size mod 8 = 0 ->
  history sysm size m l t s -> forall id a, arrs s !! id = Some a ->
  exists c, cont s !! id = Some c /\ Z.of_nat (length c) = esize a * nelts a /\ nelts a <= nalloc a /\
    forall i, 0 <= i < Z.of_nat (length c) -> mem s (elts a + i) = nth (Z.to_nat i) c 0.
Proof.
  intros sysm size m l t s HS Hps Hp8 HH id a Ha. destruct (history_ok size Hps Hp8 sysm HS m l t s HH) as [[[G HP] HA] HC].
  destruct (HA _ _ Ha) as (c & Hc & [A1 A2 A3 A4 A5]). exists c. split_and!; try done. lia.
Qed.
(** the address a push returns: right after the old elements, with room for the new ones inside the storage *)
Definition push_of (o : op) (id : nat) (n : Z) : Prop := (exists bs, o = ArrPush id bs /\ n = 1) \/ (exists bs, o = ArrPushN id n bs).
Theorem C37_push_room_partial : forall sysm size m l t s, sys_ok sysm -> 64 <= size < 2 ^ 63 -> size mod 8 = 0 ->
  history sysm size m l t s -> forall o id n e s' a, push_of o id n -> step sysm s o = Some (OPtr (Some e), s') -> arrs s !! id = Some a ->
  exists a', arrs s' !! id = Some a' /\ nelts a' = nelts a + n /\ esize a' = esize a /\
    e = elts a' + esize a * nelts a /\ e + n * esize a <= elts a' + esize a' * nalloc a'.
Proof.
  intros sysm size m l t s HS Hps Hp8 HH o id n e s' a Ho E Ha. destruct (history_ok size Hps Hp8 sysm HS m l t s HH) as [[[G HP] HA] HC].
  destruct (HA _ _ Ha) as (c & Hc & HO).
  set (U := user s ++ aregs (delete id (arrs s)) ++ G).
  assert (HPU : PI size [] (areg a ++ U) (po s)). { eapply PI_perm; [exact HP|]. unfold U. rewrite (aregs_delete _ _ _ Ha). solve_Permutation. }
  assert (G1 : forall bs rr, push_post size U (po s) (mem s) a n rr -> pushed s id c bs rr = Some (OPtr (Some e), s') ->
    exists a', arrs s' !! id = Some a' /\ nelts a' = nelts a + n /\ esize a' = esize a /\ e = elts a' + esize a * nelts a /\ e + n * esize a <= elts a' + esize a' * nalloc a').
  { intros bs [[[[e'|] p'] m'] a'] HPP; cbn; [|by intros [=]]. intros [= -> <-]. cbn in HPP. destruct HPP as (_ & _ & R1 & R2 & R3 & R4 & -> & _). exists a'. cbn.
    rewrite lookup_insert. split_and!; try done. destruct HO. rewrite R4. nia. }
  destruct Ho as [(bs & -> & ->)|(bs & ->)]; cbn [step] in E; rewrite Ha, Hc in E; case_decide as Hg; try done.
  - eapply G1; [|exact E]. by eapply array_push_ok.
  - destruct Hg as [Hn Hg]. eapply G1; [|exact E]. by eapply array_push_n_ok.
Qed.
(** a push fails only when the system refuses memory *)
Lemma palloc_total sysm p size : (forall k R al sz, sysm k R al sz <> None) -> blocks p <> [] -> (palloc sysm p size).1 <> None.
Proof.
  intros HT Hb.
  assert (Hsm : forall q n, blocks q <> [] -> (palloc_small sysm q n true).1 <> None).
  { intros q n Hq. unfold palloc_small. destruct (try_small _ _ _) as [[? ?]|]; [done|]. unfold palloc_block. destruct (blocks q) as [|b bs]; [done|].
    destruct (sysm _ _ _ _) eqn:E; [|by destruct (HT _ _ _ _ E)]. by destruct (bump _ _ _). }
  unfold palloc. case_decide; [by apply Hsm|]. unfold palloc_large. destruct (sysm _ _ _ _) as [a|] eqn:E; [|by destruct (HT _ _ _ _ E)].
  destruct (reuse _ _ _); [done|]. unfold new_large. specialize (Hsm (set_sys p ((a, size) :: sysr p)) SZ_LARGE Hb). destruct (palloc_small _ _ _ _) as [[?|] ?]; done.
Qed.
Theorem C37_push_succeeds_partial : forall sysm size m l t s, sys_ok sysm -> (forall k R al sz, sysm k R al sz <> None) -> 64 <= size < 2 ^ 63 -> size mod 8 = 0 ->
  history sysm size m l t s -> forall o id n r s', push_of o id n -> step sysm s o = Some (r, s') -> exists e, r = OPtr (Some e).
Proof.
  intros sysm size m l t s HS HT Hps Hp8 HH o id n r s' Ho E. destruct (history_ok size Hps Hp8 sysm HS m l t s HH) as [[[G HP] HA] HC].
  assert (Hb : blocks (po s) <> []). { intros Hb. pose proof (PI_cur _ _ _ _ HP) as Hc. rewrite Hb in Hc. cbn in Hc. lia. }
  destruct Ho as [(bs & -> & ->)|(bs & ->)]; cbn [step] in E; destruct (arrs s !! id) as [a|]; try done; destruct (cont s !! id) as [c|]; try done; case_decide; try done.
  - unfold array_push in E. case_decide; [|injection E as <- <-; eauto]. case_decide; [injection E as <- <-; eauto|].
    pose proof (palloc_total sysm (po s) (2 * (esize a * nalloc a)) HT Hb). destruct (palloc _ _ _) as [[?|] ?]; [|done]. injection E as <- <-; eauto.
  - unfold array_push_n in E. case_decide; [|injection E as <- <-; eauto]. case_decide; [injection E as <- <-; eauto|].
    set (na := 2 * _) in E. pose proof (palloc_total sysm (po s) (na * esize a) HT Hb). destruct (palloc _ _ _) as [[?|] ?]; [|done]. injection E as <- <-; eauto.
Qed.

(** ** A concrete system allocator, concrete histories, and the refuted cases *)
Definition top (R : list region) : Z := foldr (λ q m, Z.max (q.1 + q.2) m) 0 R.
Definition sys1 (k : nat) (R : list region) (al sz : Z) : option Z := if decide (0 < al) then Some (al * (top R / al + 1)) else None.
Lemma top_ge R : 0 <= top R /\ forall q, q ∈ R -> q.1 + q.2 <= top R.
Proof.
  induction R as [|q R [IH1 IH2]]; [split; [done|by intros ? ?%elem_of_nil]|]. change (top (q :: R)) with (Z.max (q.1 + q.2) (top R)). split; [lia|]. intros r [->|Hr]%elem_of_cons; [lia|]. specialize (IH2 r Hr). lia. Qed.
Lemma sys1_ok : sys_ok sys1.
Proof.
  constructor; intros k R al sz a; unfold sys1; case_decide; try done; intros [= <-]; destruct (top_ge R) as [H1 H2].
  - pose proof (Z.div_pos (top R) al). nia.
  - rewrite Z.mul_comm. apply Z.mod_mul. lia.
  - apply Forall_forall. intros q Hq. specialize (H2 q Hq). pose proof (Z.mul_succ_div_gt (top R) al ltac:(lia)) as H3. rewrite <- Z.add_1_r in H3. unfold disj. cbn [fst snd]. lia.
Qed.
Definition demo_ops : list op := [Alloc 10; ArrCreate 0 2 4; CleanAdd 7 70; Nalloc 5; ArrPush 0 [1; 2; 3; 4]; ArrPushN 0 3 [5; 6; 7; 8; 9; 10; 11; 12; 13; 14; 15; 16];
  Alloc 5000; CleanInsert 9; CleanInsert 9; CleanAdd 7 71].
Definition demo_st : option (list (op * out) * st) := match init sys1 256 (λ _, 0) with Some s => exec sys1 s demo_ops | None => None end.
Example demo_history : exists t s, history sys1 256 (λ _, 0) demo_ops t s /\ length (user s) = 3%nat /\ to_run (registered t []) = [(7, 71); (9, 0); (7, 70)]
  /\ cont s !! 0%nat = Some [1; 2; 3; 4; 5; 6; 7; 8; 9; 10; 11; 12; 13; 14; 15; 16].
Proof.
  assert (HE : match demo_st with Some (t, s) => Some (length (user s), to_run (registered t []), cont s !! 0%nat) | None => None end =
    Some (3%nat, [(7, 71); (9, 0); (7, 70)], Some [1; 2; 3; 4; 5; 6; 7; 8; 9; 10; 11; 12; 13; 14; 15; 16])) by (vm_compute; reflexivity).
  destruct demo_st as [[t s]|] eqn:E; [|done]. injection HE as E1 E2 E3. exists t, s. unfold demo_st in E. destruct (init sys1 256 (λ _, 0)) as [s0|] eqn:E0; [|done].
  split_and!; try done. by exists s0.
Qed.

(** C35 fails for a pool size that is not a multiple of 8: with size 100, kgl_pnalloc(36) fills the first block
    and kgl_palloc(1) then returns an address behind the end of the pool's memory. *)
Theorem C35_unaligned_size_refuted : exists t s, history sys1 100 (λ _, 0) [Nalloc 36; Alloc 1] t s /\
  exists r, r ∈ user s /\ 0 < r.2 /\ forall q, q ∈ sysr (po s) -> q.1 + q.2 < r.1.
Proof.
  set (e := match init sys1 100 (λ _, 0) with Some s => exec sys1 s [Nalloc 36; Alloc 1] | None => None end).
  assert (HE : match e with Some (t, s) => Some (user s, sysr (po s)) | None => None end = Some ([(120, 1); (80, 36)], [(16, 100)])) by (vm_compute; reflexivity).
  destruct e as [[t s]|] eqn:E; [|done]. injection HE as Hu Hr. exists t, s. subst e. split.
  - destruct (init sys1 100 (λ _, 0)) as [s0|] eqn:E0; [|done]. by exists s0.
  - exists (120, 1). rewrite Hu, Hr. split_and!; [left|done|]. intros q ->%elem_of_list_singleton. done.
Qed.
(** C37 fails for initial capacity 0: once another block was allocated behind the empty storage, a push "doubles"
    the capacity to 0 and returns an address with no storage: the next allocation returns the same address. *)
Definition zero_cap : option (Z * Z * Z * Z) :=
  match create_pool sys1 256 with None => None | Some p =>
  match array_create sys1 p 0 8 with (None, _) => None | (Some a, p1) =>
  match array_push sys1 (palloc sys1 p1 8).2 (λ _, 0) a with (None, _, _, _) => None | (Some e, p3, _, a3) =>
  match palloc sys1 p3 8 with (None, _) => None | (Some u, _) => Some (nelts a3, nalloc a3, e, u) end end end end.
Theorem C37_zero_capacity_refuted : exists e, zero_cap = Some (1, 0, e, e).
Proof. eexists. vm_compute. reflexivity. Qed.
