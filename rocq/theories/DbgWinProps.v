(** C86: allocation tracking and the symbol path on Windows.  Model: DbgWinModel.v *)
From Verif Require Import DbgWinModel.
From Coq Require Import Lia.
Local Open Scope Z_scope.

(** ** Specification: the C runtime *)

(** The blocks which live, and the request numbers used so far. *)
Record world := W { live : gmap Z (buse * rec); seen : gset Z }.
(** What the runtime does; [ok]: the memory was there. *)
Inductive crt :=
| CAlloc (u : buse) (n size now : Z) (ok : bool)
| CFree (n : Z)
| CRealloc (n n' size now : Z) (ok : bool).
Definition crt_ok (c : crt) : bool :=
  match c with CAlloc _ _ _ _ ok | CRealloc _ _ _ _ ok => ok | CFree _ => true end.

(** A step of the runtime: the hook is called, then the thing is done.
    Numbers are not used twice; only live blocks are freed or reallocated. *)
Inductive crt_step (w : world) : crt -> hcall -> world -> Prop :=
| crt_alloc u n size now ok : n ∉ seen w -> 
    crt_step w (CAlloc u n size now ok) (HAlloc u n size now)
      (W (if ok : bool then <[n := (u, Rec size now)]> (live w) else live w) ({[n]} ∪ seen w))
| crt_free u n r : live w !! n = Some (u, r) ->
    crt_step w (CFree n) (HFree u n) (W (delete n (live w)) (seen w))
| crt_realloc u n r n' size now ok : live w !! n = Some (u, r) -> n' ∉ seen w ->
    crt_step w (CRealloc n n' size now ok) (HRealloc u n n' size now)
      (W (if ok : bool then <[n' := (u, Rec size now)]> (delete n (live w)) else live w) ({[n']} ∪ seen w)).
Inductive crt_run : world -> list crt -> list hcall -> world -> Prop :=
| run_nil w : crt_run w [] [] w
| run_cons w c h w1 cs hs w2 : crt_step w c h w1 -> crt_run w1 cs hs w2 -> crt_run w (c :: cs) (h :: hs) w2.

(** The blocks a report should know: live, not the runtime's own, and
    allocated after the start. *)
Definition tracked (w0 w : world) (n : Z) (r : rec) : Prop :=
  live w !! n = Some (NormalBlock, r) /\ n ∉ seen w0.

(** ** Table *)
Lemma upd_same t b m : upd t b m b = m.
Proof. unfold upd. by rewrite decide_True. Qed.
Lemma upd_other t b m x : x <> b -> upd t b m x = t x.
Proof. intros H. unfold upd. by rewrite decide_False. Qed.

Record Rep (w0 w : world) (t : tbl) : Prop := {
  rp_b : forall b n r, t b !! n = Some r -> b = bucket n;
  rp_iff : forall n r, t (bucket n) !! n = Some r <-> tracked w0 w n r;
  rp_seen : forall n x, live w !! n = Some x -> n ∈ seen w;
  rp_mono : seen w0 ⊆ seen w
}.

Lemma free_hook_lookup t n b k :
  free_hook t n b !! k = if decide (b = bucket n /\ k = n) then None else t b !! k.
Proof.
  unfold free_hook. destruct (decide (b = bucket n)) as [->|Hb].
  - rewrite upd_same. destruct (decide (k = n)) as [->|Hk].
    + rewrite decide_True by done. apply lookup_delete.
    + rewrite decide_False by tauto. by rewrite lookup_delete_ne.
  - rewrite upd_other by done. by rewrite decide_False by tauto.
Qed.
Lemma malloc_hook_some t n size now : t (bucket n) !! n = None ->
  exists t', malloc_hook t n size now = Some t' /\
    forall b k, t' b !! k = if decide (b = bucket n /\ k = n) then Some (Rec size now) else t b !! k.
Proof.
  intros H. unfold malloc_hook. rewrite H. eexists. split; [reflexivity|]. intros b k.
  destruct (decide (b = bucket n)) as [->|Hb].
  - rewrite upd_same. destruct (decide (k = n)) as [->|Hk].
    + rewrite decide_True by done. apply lookup_insert.
    + rewrite decide_False by tauto. by rewrite lookup_insert_ne.
  - rewrite upd_other by done. by rewrite decide_False by tauto.
Qed.

Lemma rep_step w0 w t c h w1 : Rep w0 w t -> crt_step w c h w1 -> crt_ok c = true ->
  exists t', hook t h = Some t' /\ Rep w0 w1 t'.
Proof.
  intros R S Hok. destruct S as [u n size now ok Hn|u n r Hl|u n r n' size now ok Hl Hn]; cbn [crt_ok] in Hok; subst.
  - assert (Hlive : live w !! n = None).
    { destruct (live w !! n) eqn:E; [|done]. by apply (rp_seen _ _ _ R) in E. }
    assert (Hn0 : n ∉ seen w0) by (intros H; apply Hn, (rp_mono _ _ _ R), H).
    destruct u; cbn [hook].
    + exists t. split; [done|]. split; cbn [live seen].
      * apply R.
      * intros k q. rewrite (rp_iff _ _ _ R). unfold tracked. cbn [live]. destruct (decide (k = n)) as [->|Hk].
        { rewrite lookup_insert, Hlive. split; [by intros [? _]|by intros [[=] _]]. }
        { by rewrite lookup_insert_ne. }
      * intros k x. destruct (decide (k = n)) as [->|Hk]; [intros _; set_solver|]. rewrite lookup_insert_ne by done.
        intros Hx%(rp_seen _ _ _ R). set_solver.
      * pose proof (rp_mono _ _ _ R). set_solver.
    + assert (Ht : t (bucket n) !! n = None).
      { destruct (t (bucket n) !! n) eqn:E; [|done]. apply (rp_iff _ _ _ R) in E as [E _]. by rewrite Hlive in E. }
      destruct (malloc_hook_some t n size now Ht) as (t' & E & L). exists t'. split; [done|]. split; cbn [live seen].
      * intros b k q. rewrite L. destruct (decide (b = bucket n /\ k = n)) as [[-> ->]|_]; [done|]. apply R.
      * intros k q. rewrite L. unfold tracked. cbn [live]. destruct (decide (k = n)) as [->|Hk].
        { rewrite decide_True by done. rewrite lookup_insert. split; [by intros [= ->]|by intros [[= ->] _]]. }
        { rewrite decide_False by tauto. rewrite lookup_insert_ne by done. apply R. }
      * intros k x. destruct (decide (k = n)) as [->|Hk]; [intros _; set_solver|]. rewrite lookup_insert_ne by done.
        intros Hx%(rp_seen _ _ _ R). set_solver.
      * pose proof (rp_mono _ _ _ R). set_solver.
  - assert (Hrest : forall k x, delete n (live w) !! k = Some x -> k ∈ seen w).
    { intros k x [_ Hx]%lookup_delete_Some. by eapply R. }
    destruct u; cbn [hook].
    + exists t. split; [done|]. split; cbn [live seen]; [apply R| |exact Hrest|apply R].
      intros k q. rewrite (rp_iff _ _ _ R). unfold tracked. cbn [live]. destruct (decide (k = n)) as [->|Hk].
      * rewrite lookup_delete, Hl. split; [by intros [[=] _]|by intros [? _]].
      * by rewrite lookup_delete_ne.
    + eexists. split; [reflexivity|]. split; cbn [live seen]; [| |exact Hrest|apply R].
      * intros b k q. rewrite free_hook_lookup. destruct (decide _); [done|]. apply R.
      * intros k q. rewrite free_hook_lookup. unfold tracked. cbn [live]. destruct (decide (k = n)) as [->|Hk].
        { rewrite decide_True by done. rewrite lookup_delete. split; [done|by intros [? _]]. }
        { rewrite decide_False by tauto. rewrite lookup_delete_ne by done. apply R. }
  - assert (Hlive : live w !! n' = None).
    { destruct (live w !! n') eqn:E; [|done]. by apply (rp_seen _ _ _ R) in E. }
    assert (Hne : n <> n') by (intros ->; by rewrite Hl in Hlive).
    assert (Hn0 : n' ∉ seen w0) by (intros H; apply Hn, (rp_mono _ _ _ R), H).
    assert (Hseen : forall k x, <[n':=(u, Rec size now)]> (delete n (live w)) !! k = Some x -> k ∈ ({[n']} ∪ seen w : gset Z)).
    { intros k x. destruct (decide (k = n')) as [->|Hk]; [intros _; set_solver|]. rewrite lookup_insert_ne by done.
      intros [_ Hx%(rp_seen _ _ _ R)]%lookup_delete_Some. set_solver. }
    assert (Hm : seen w0 ⊆ {[n']} ∪ seen w) by (pose proof (rp_mono _ _ _ R); set_solver).
    destruct u; cbn [hook].
    + exists t. split; [done|]. split; cbn [live seen]; [apply R| |exact Hseen|exact Hm].
      intros k q. rewrite (rp_iff _ _ _ R). unfold tracked. cbn [live]. destruct (decide (k = n')) as [->|Hk].
      * rewrite lookup_insert, Hlive. split; [by intros [? _]|by intros [[=] _]].
      * rewrite lookup_insert_ne by done. destruct (decide (k = n)) as [->|Hk2].
        { rewrite lookup_delete, Hl. split; [by intros [[=] _]|by intros [? _]]. }
        { by rewrite lookup_delete_ne. }
    + assert (Ht : free_hook t n (bucket n') !! n' = None).
      { rewrite free_hook_lookup. destruct (decide _); [done|]. destruct (t (bucket n') !! n') eqn:E; [|done].
        apply (rp_iff _ _ _ R) in E as [E _]. by rewrite Hlive in E. }
      destruct (malloc_hook_some _ n' size now Ht) as (t' & E & L). exists t'. split; [done|].
      split; cbn [live seen]; [| |exact Hseen|exact Hm].
      * intros b k q. rewrite L. destruct (decide (b = bucket n' /\ k = n')) as [[-> ->]|_]; [done|].
        rewrite free_hook_lookup. destruct (decide _); [done|]. apply R.
      * intros k q. rewrite L. unfold tracked. cbn [live]. destruct (decide (k = n')) as [->|Hk].
        { rewrite decide_True by done. rewrite lookup_insert. split; [by intros [= ->]|by intros [[= ->] _]]. }
        { rewrite decide_False by tauto. rewrite lookup_insert_ne by done. rewrite free_hook_lookup.
          destruct (decide (k = n)) as [->|Hk2].
          - rewrite decide_True by done. rewrite lookup_delete. split; [done|by intros [? _]].
          - rewrite decide_False by tauto. rewrite lookup_delete_ne by done. apply R. }
Qed.

Lemma rep_start w0 : (forall n x, live w0 !! n = Some x -> n ∈ seen w0) -> Rep w0 w0 start_hook.
Proof.
  intros H. split; try done.
  intros n r. unfold start_hook, tracked. rewrite lookup_empty. split; [done|]. intros [H1 H2]. by apply H in H1.
Qed.

(** ** Theorems *)

(** Whatever is allocated, freed and reallocated after the start, with
    success: the hook never loops, and the table holds exactly the blocks
    which live, with size and time; nothing that was there before the start,
    nothing of the runtime itself. *)
Theorem C86_tracks w0 cs hs w :
  (forall n x, live w0 !! n = Some x -> n ∈ seen w0) ->
  crt_run w0 cs hs w -> Forall (fun c => crt_ok c = true) cs ->
  exists t, hooks start_hook hs = Some t
    /\ (forall b n r, t b !! n = Some r <-> b = bucket n /\ tracked w0 w n r).
Proof.
  intros H0 R F. assert (G : forall w t, Rep w0 w t -> forall w2, crt_run w cs hs w2 -> exists t2, hooks t hs = Some t2 /\ Rep w0 w2 t2).
  { clear R w H0. intros w t Rp w2 R. revert t Rp F. induction R as [w|w c h w1 cs hs w2 S R IH]; intros t Rp F.
    - exists t. done.
    - apply Forall_cons in F as [F1 F2]. destruct (rep_step _ _ _ _ _ _ Rp S F1) as (t1 & E & Rp1).
      destruct (IH t1 Rp1 F2) as (t2 & E2 & Rp2). exists t2. cbn [hooks]. by rewrite E. }
  destruct (G w0 start_hook (rep_start w0 H0) w R) as (t & E & Rp). exists t. split; [done|].
  intros b n r. split.
  - intros L. pose proof (rp_b _ _ _ Rp _ _ _ L) as ->. split; [done|]. by apply (rp_iff _ _ _ Rp).
  - intros [-> T]. by apply (rp_iff _ _ _ Rp).
Qed.

Lemma upto_in k x : 0 <= x < k -> x ∈ map Z.of_nat (seq 0 (Z.to_nat k)).
Proof.
  intros H. apply elem_of_list_fmap. exists (Z.to_nat x). split; [rewrite Z2Nat.id; lia|]. apply elem_of_seq. lia.
Qed.
Lemma upto_nodup k : NoDup (map Z.of_nat (seq 0 k)).
Proof. apply (NoDup_fmap_2 Z.of_nat). apply NoDup_seq. Qed.
Lemma bucket_range n : 0 <= bucket n < 16384.
Proof.
  unfold bucket, HASHMASK. change 16383 with (Z.ones 14). rewrite Z.land_ones by lia. apply Z.mod_pos_bound. lia.
Qed.
Lemma buckets_in n : bucket n ∈ buckets.
Proof. exact (upto_in 16384 (bucket n) (bucket_range n)). Qed.
Lemma buckets_nodup : NoDup buckets.
Proof. exact (upto_nodup (Z.to_nat 16384)). Qed.

Lemma elem_of_concat {A} (x : A) ll : x ∈ concat ll <-> exists k, x ∈ k /\ k ∈ ll.
Proof.
  rewrite elem_of_list_In, in_concat. split; intros (k & H1 & H2); exists k; by rewrite ?elem_of_list_In in *.
Qed.

(** The report: the live blocks with an age in the range, each once; the
    result is their number, the total the sum of the sizes (as 32 bits), and
    the file is kept unless there is none. *)
Theorem C86_report t w0 w minT maxT now :
  (forall b n r, t b !! n = Some r <-> b = bucket n /\ tracked w0 w n r) ->
  exists l total,
    dump t true minT maxT now = (Z.of_nat (length l), l, total, bool_decide (l <> []))
    /\ NoDup (map fst l)
    /\ (forall n r, (n, r) ∈ l <-> tracked w0 w n r /\ minT <= now - r_time r /\ (maxT < 0 \/ now - r_time r <= maxT))
    /\ total = foldr Z.add 0 (map (fun p => r_size p.2) l) mod 2 ^ 32.
Proof.
  intros T. unfold dump. cbv zeta. set (l := concat (map (shown t minT maxT now) buckets)).
  exists l, (foldr (fun p a => (r_size p.2 + a) mod 2 ^ 32) 0 l).
  assert (Hin : forall bs n r, (n, r) ∈ concat (map (shown t minT maxT now) bs) <->
     exists b, b ∈ bs /\ t b !! n = Some r /\ in_age minT maxT now r = true).
  { intros bs n r. rewrite elem_of_concat. split.
    - intros (k & H1 & H2). apply elem_of_list_fmap in H2 as (b & -> & Hb). exists b.
      unfold shown in H1. apply elem_of_list_filter in H1 as [H1 H2]. apply elem_of_map_to_list in H2. done.
    - intros (b & Hb & H1 & H2). exists (shown t minT maxT now b). split.
      + unfold shown. apply elem_of_list_filter. split; [done|]. by apply elem_of_map_to_list.
      + apply elem_of_list_fmap. eauto. }
  split; [|split; [|split]].
  - f_equal. clearbody l. destruct l as [|p l].
    + rewrite bool_decide_eq_true_2 by done. rewrite bool_decide_eq_false_2 by tauto. done.
    + rewrite bool_decide_eq_false_2 by done. rewrite bool_decide_eq_true_2 by done. done.
  - subst l. generalize buckets_nodup. generalize buckets. intros bs Hbs. induction bs as [|b bs IH]; [by apply NoDup_nil|].
    apply NoDup_cons in Hbs as [Hb Hbs]. specialize (IH Hbs). cbn [map concat]. rewrite map_app. apply NoDup_app. split; [|split; [|done]].
    + unfold shown. eapply (NoDup_fmap_fst (filter _ _)).
      * intros x y1 y2 [_ H1]%elem_of_list_filter [_ H2]%elem_of_list_filter.
        apply elem_of_map_to_list in H1, H2. rewrite H1 in H2. by injection H2.
      * apply NoDup_filter, NoDup_map_to_list.
    + intros n Hn1 Hn2. apply elem_of_list_fmap in Hn1 as ([n1 r1] & -> & Hn1).
      apply elem_of_list_fmap in Hn2 as ([n2 r2] & E & Hn2). cbn in E. subst n2.
      unfold shown in Hn1. apply elem_of_list_filter in Hn1 as [_ Hn1]. apply elem_of_map_to_list in Hn1.
      apply T in Hn1 as [-> _]. apply Hin in Hn2 as (b2 & Hb2 & Hl & _). apply T in Hl as [-> _]. done.
  - intros n r. unfold l. rewrite Hin.
    assert (HA : in_age minT maxT now r = true <-> minT <= now - r_time r /\ (maxT < 0 \/ now - r_time r <= maxT)).
    { unfold in_age. by rewrite andb_true_iff, orb_true_iff, Z.leb_le, Z.ltb_lt, Z.leb_le. }
    rewrite <- HA. split.
    + intros (b & _ & L & A). apply T in L as [_ L]. tauto.
    + intros [L A]. exists (bucket n). split; [|split; [by apply T|done]].
      apply buckets_in.
  - clearbody l. clear. induction l as [|[n r] l IH]; [done|]. cbn [foldr map snd]. rewrite IH.
    rewrite Zplus_mod_idemp_r. done.
Qed.
Theorem C86_no_file t minT maxT now : dump t false minT maxT now = (-1, [], 0, false).
Proof. done. Qed.

(** With allocations which fail it is false: the hook runs before. *)
Lemma rep_of w0 cs hs w :
  (forall n x, live w0 !! n = Some x -> n ∈ seen w0) ->
  crt_run w0 cs hs w -> Forall (fun c => crt_ok c = true) cs -> forall n x, live w !! n = Some x -> n ∈ seen w.
Proof.
  intros H R _. induction R as [w|w c h w1 cs hs w2 S R IH]; [done|]. apply IH.
  destruct S as [u k size now ok Hn|u k r Hl|u k r n' size now ok Hl Hn]; cbn [live seen]; intros n x.
  - destruct ok; [|intros Hx%H; set_solver]. destruct (decide (n = k)) as [->|Hk]; [intros _; set_solver|].
    rewrite lookup_insert_ne by done. intros Hx%H. set_solver.
  - intros [_ Hx]%lookup_delete_Some. by eapply H.
  - destruct ok; [|intros Hx%H; set_solver]. destruct (decide (n = n')) as [->|Hk]; [intros _; set_solver|].
    rewrite lookup_insert_ne by done. intros [_ Hx%H]%lookup_delete_Some. set_solver.
Qed.
(** A failed allocation is reported for ever. *)
Theorem C86_failed_alloc_refuted w0 cs hs w n size now :
  (forall n x, live w0 !! n = Some x -> n ∈ seen w0) ->
  crt_run w0 cs hs w -> Forall (fun c => crt_ok c = true) cs -> n ∉ seen w ->
  exists h w1 t, crt_step w (CAlloc NormalBlock n size now false) h w1 /\ hooks start_hook (hs ++ [h]) = Some t
    /\ t (bucket n) !! n = Some (Rec size now) /\ live w1 !! n = None.
Proof.
  intros H R F Hn. destruct (C86_tracks w0 cs hs w H R F) as (t & E & T).
  assert (Hl : live w !! n = None).
  { destruct (live w !! n) eqn:L; [|done]. by apply (rep_of _ _ _ _ H R F) in L. }
  assert (Ht : t (bucket n) !! n = None).
  { destruct (t (bucket n) !! n) eqn:L; [|done]. apply T in L as [_ [L _]]. by rewrite Hl in L. }
  destruct (malloc_hook_some t n size now Ht) as (t' & E' & L).
  exists (HAlloc NormalBlock n size now), (W (live w) ({[n]} ∪ seen w)), t'.
  split; [by apply (crt_alloc w NormalBlock n size now false)|]. split.
  { clear -E E'. revert E. generalize start_hook. induction hs as [|h hs IH]; intros t0 E; cbn [app hooks] in *.
    - injection E as ->. cbn [hook]. by rewrite E'.
    - destruct (hook t0 h); [|done]. by apply IH. }
  split; [|done]. rewrite L. by rewrite decide_True.
Qed.
(** After a failed realloc the block, which still lives, is in no report,
    and one that does not exist is. *)
Theorem C86_failed_realloc_refuted w0 cs hs w n r n' size now :
  (forall n x, live w0 !! n = Some x -> n ∈ seen w0) ->
  crt_run w0 cs hs w -> Forall (fun c => crt_ok c = true) cs -> tracked w0 w n r -> n' ∉ seen w ->
  exists h w1 t, crt_step w (CRealloc n n' size now false) h w1 /\ hooks start_hook (hs ++ [h]) = Some t
    /\ t (bucket n) !! n = None /\ live w1 !! n = Some (NormalBlock, r)
    /\ t (bucket n') !! n' = Some (Rec size now) /\ live w1 !! n' = None.
Proof.
  intros H R F [Tl Ts] Hn. destruct (C86_tracks w0 cs hs w H R F) as (t & E & T).
  assert (Hl : live w !! n' = None).
  { destruct (live w !! n') eqn:L; [|done]. by apply (rep_of _ _ _ _ H R F) in L. }
  assert (Hne : n <> n') by (intros ->; by rewrite Tl in Hl).
  assert (Ht : free_hook t n (bucket n') !! n' = None).
  { rewrite free_hook_lookup. destruct (decide _); [done|].
    destruct (t (bucket n') !! n') eqn:L; [|done]. apply T in L as [_ [L _]]. by rewrite Hl in L. }
  destruct (malloc_hook_some _ n' size now Ht) as (t' & E' & L).
  exists (HRealloc NormalBlock n n' size now), (W (live w) ({[n']} ∪ seen w)), t'.
  split; [by apply (crt_realloc w NormalBlock n r n' size now false)|]. split.
  { clear -E E'. revert E. generalize start_hook. induction hs as [|h hs IH]; intros t0 E; cbn [app hooks] in *.
    - injection E as ->. cbn [hook]. by rewrite E'.
    - destruct (hook t0 h); [|done]. by apply IH. }
  split; [|split; [done|split; [|done]]].
  - rewrite L, decide_False by tauto. rewrite free_hook_lookup. by rewrite decide_True.
  - rewrite L. by rewrite decide_True.
Qed.
(** If the runtime gives the number of a failed allocation to the next one,
    the hook loops for ever with the mutex of the table held (it aborts in a
    debug build). *)
Theorem C86_number_again_refuted t n size now size' now' :
  hooks t [HAlloc NormalBlock n size now; HAlloc NormalBlock n size' now'] = None.
Proof.
  cbn [hooks hook]. destruct (malloc_hook t n size now) as [t1|] eqn:E; [|done].
  unfold malloc_hook in E. destruct (t (bucket n) !! n); [done|]. injection E as <-.
  unfold malloc_hook. by rewrite upd_same, lookup_insert.
Qed.

(** ** The search path *)
Lemma cstrlen_app s b : Forall (fun c => c <> 0) s -> cstrlen (map Some s ++ b) = option_map (Nat.add (length s)) (cstrlen b).
Proof.
  induction s as [|c s IH]; intros F; cbn [map app cstrlen length].
  - destruct (cstrlen b); done.
  - apply Forall_cons in F as [F1 F2]. rewrite decide_False by done. rewrite IH by done. destruct (cstrlen b); done.
Qed.

(** Appending a string which is not empty: the new string is the old one
    and the other, in a buffer just large enough. *)
Theorem C86_append dest src :
  Forall (fun c => c <> 0) dest -> Forall (fun c => c <> 0) src -> src <> [] ->
  strapp dest src = Some (map Some (dest ++ src ++ [0])).
Proof.
  intros Fd Fs Hne. unfold strapp. cbv zeta. unfold strncpy, strncat.
  rewrite take_ge by (rewrite map_length; lia).
  assert (Hl : (length dest + length src - length dest = length src)%nat) by lia. rewrite Hl.
  rewrite <- app_assoc, cstrlen_app by done.
  destruct src as [|c src]; [done|]. cbn [length replicate app cstrlen]. rewrite decide_True by done. cbn [option_map].
  rewrite Nat.add_0_r. rewrite take_ge by (cbn; lia).
  rewrite bool_decide_eq_true_2.
  2:{ rewrite !app_length, !map_length. cbn [length]. rewrite app_length, replicate_length. cbn [length]. lia. }
  f_equal. rewrite take_app_alt by (by rewrite map_length). rewrite !map_app. f_equal.
  rewrite drop_ge.
  2:{ rewrite !app_length, !map_length. cbn [length]. rewrite app_length, replicate_length. cbn [length]. lia. }
  change (c :: src ++ [0]) with ((c :: src) ++ [0]). by rewrite app_nil_r, map_app.
Qed.
(** Appending an empty one (SYSTEMROOT or _NT_SYMBOL_PATH is set to nothing)
    reads memory that is not initialised, and whatever is behind it. *)
Theorem C86_append_empty_refuted dest :
  Forall (fun c => c <> 0) dest -> strapp dest [] = None.
Proof.
  intros Fd. unfold strapp. cbv zeta. unfold strncpy, strncat. change (length (@nil Z)) with 0%nat.
  rewrite Nat.add_0_r, take_ge by (rewrite map_length; lia). rewrite Nat.sub_diag. cbn [replicate]. rewrite app_nil_r.
  rewrite cstrlen_app by done. done.
Qed.

(** Removal of quotation marks. *)
Fixpoint no_two (s : list Z) : Prop :=
  match s with
  | c :: ((d :: _) as s') => ~ (c = quote /\ d = quote) /\ no_two s'
  | _ => True
  end.
Definition unq (s : list Z) : list Z := filter (fun c => c <> quote) s.

(** The loop from a position on. *)
Fixpoint rq (n : nat) (r : list Z) : list Z :=
  match n, r with
  | S n', c :: r' =>
      if decide (c = quote) then
        match r' ++ [0] with x :: r2 => x :: rq n' r2 | [] => [] end
      else c :: rq n' r'
  | _, _ => r
  end.
Lemma rmq_loop n : forall d r, length r = n -> foldl rmq (d ++ r) (seq (length d) n) = d ++ rq n r.
Proof.
  induction n as [|n IH]; intros d r Hl; [by destruct r|].
  destruct r as [|c r]; [done|]. injection Hl as Hl. cbn [seq foldl rq].
  assert (Hp : rmq (d ++ c :: r) (length d) = if decide (c = quote) then d ++ r ++ [0] else d ++ c :: r).
  { unfold rmq. rewrite (list_lookup_middle _ _ _ _ eq_refl). destruct (decide (c = quote)) as [->|Hc].
    - rewrite decide_True by done. rewrite take_app. f_equal. f_equal.
      change (S (length d)) with (length d + 1)%nat || replace (S (length d)) with (length d + 1)%nat by lia.
      replace (length d + 1)%nat with (S (length d)) by lia. rewrite <- (app_nil_l (quote :: r)) at 1.
      replace (d ++ [] ++ quote :: r) with ((d ++ [quote]) ++ r) by (by rewrite <- app_assoc).
      apply drop_app_alt. rewrite app_length. cbn. lia.
    - rewrite decide_False by congruence. done. }
  rewrite Hp. destruct (decide (c = quote)) as [->|Hc].
  - destruct (r ++ [0]) as [|x r2] eqn:E; [by destruct r|].
    replace (d ++ x :: r2) with ((d ++ [x]) ++ r2) by (by rewrite <- app_assoc).
    replace (S (length d)) with (length (d ++ [x])) by (rewrite app_length; cbn; lia).
    rewrite IH; [by rewrite <- app_assoc|]. assert (length (r ++ [0]) = S n) by (rewrite app_length; cbn; lia).
    rewrite E in H. cbn in H. lia.
  - replace (d ++ c :: r) with ((d ++ [c]) ++ r) by (by rewrite <- app_assoc).
    replace (S (length d)) with (length (d ++ [c])) by (rewrite app_length; cbn; lia).
    rewrite IH by done. by rewrite <- app_assoc.
Qed.
Lemma rq_zeros n k : rq n (replicate k 0) = replicate k 0.
Proof.
  revert k. induction n as [|n IH]; intros k; [by destruct k|]. destruct k as [|k]; [done|].
  cbn [replicate rq]. rewrite decide_False by done. by rewrite IH.
Qed.
Lemma cstr_zeros k : cstr (replicate k 0) = [].
Proof. destruct k; done. Qed.
Lemma rq_spec n : forall s k, (length s + k = n)%nat -> Forall (fun c => c <> 0) s -> no_two s ->
  cstr (rq n (s ++ replicate k 0)) = unq s.
Proof.
  induction n as [n IH] using lt_wf_ind. intros s k Hn F N.
  destruct s as [|c s].
  - cbn [app]. rewrite rq_zeros. apply cstr_zeros.
  - apply Forall_cons in F as [F1 F2]. cbn [length] in Hn. destruct n as [|n]; [lia|]. cbn [app rq].
    assert (Nt : no_two s) by (destruct s; [done|]; apply N).
    destruct (decide (c = quote)) as [->|Hc].
    + assert (Er : (s ++ replicate k 0) ++ [0] = s ++ replicate (S k) 0).
      { rewrite <- app_assoc. f_equal. clear. induction k as [|k IHk]; [done|]. cbn [replicate app]. by rewrite IHk. }
      rewrite Er. destruct s as [|d s].
      * cbn [app replicate]. cbn [cstr]. rewrite decide_True by done. done.
      * cbn [app]. apply Forall_cons in F2 as [F2 F3]. cbn [cstr]. rewrite decide_False by done.
        assert (Hd : d <> quote) by (intros ->; destruct N as [N _]; tauto).
        cbn [length] in Hn. rewrite IH; [| lia|lia|done|destruct s; [done|]; apply Nt].
        unfold unq. rewrite filter_cons_False by tauto. by rewrite filter_cons_True.
    + cbn [cstr]. rewrite decide_False by done. rewrite IH; [|lia|lia|done|done].
      unfold unq. by rewrite filter_cons_True.
Qed.
(** A path in which no two quotation marks are adjacent loses all of them
    and nothing else. *)
Theorem C86_quotes_partial s :
  Forall (fun c => c <> 0) s -> no_two s -> cstr (remove_quotes s) = unq s.
Proof.
  intros F N. unfold remove_quotes.
  pose proof (rmq_loop (length s) [] s eq_refl) as L. cbn [app length] in L. rewrite L. clear L.
  pose proof (rq_spec (length s) s 0) as L. cbn [replicate] in L. rewrite app_nil_r in L. apply L; [lia|done|done].
Qed.
(** Of two adjacent ones the second is skipped and stays. *)
Theorem C86_quotes_refuted a b :
  Forall (fun c => c <> 0) a -> quote ∉ a -> quote ∈ cstr (remove_quotes (a ++ quote :: quote :: b)).
Proof.
  intros F Hq. unfold remove_quotes. remember (a ++ quote :: quote :: b) as s eqn:Es.
  pose proof (rmq_loop (length s) [] s eq_refl) as L. cbn [app length] in L. rewrite L. clear L. subst s.
  assert (G : forall n, (length a + 2 <= n)%nat -> quote ∈ cstr (rq n (a ++ quote :: quote :: b))).
  { induction a as [|c a IH]; intros n Hn; cbn [length app] in *.
    - destruct n as [|n]; [lia|]. cbn [rq]. rewrite decide_True by done. cbn [app cstr].
      rewrite decide_False by done. apply elem_of_list_here.
    - destruct n as [|n]; [lia|]. apply Forall_cons in F as [F1 F2]. apply not_elem_of_cons in Hq as [Q1 Q2].
      cbn [rq]. rewrite decide_False by congruence. cbn [cstr]. rewrite decide_False by done.
      apply elem_of_list_further, IH; [done|done|lia]. }
  apply G. rewrite app_length. cbn. lia.
Qed.

(** ** Examples *)
(** Three allocations, the second of the runtime itself, one of the others
    reallocated: the hypotheses of C86_tracks are met. *)
Theorem C86_example :
  exists hs w, crt_run (W ∅ ∅)
    [CAlloc NormalBlock 5 100 1000 true; CAlloc CrtBlock 6 8 1001 true; CAlloc NormalBlock 16389 7 1002 true;
     CRealloc 5 8 200 1003 true; CFree 16389] hs w
  /\ hs = [HAlloc NormalBlock 5 100 1000; HAlloc CrtBlock 6 8 1001; HAlloc NormalBlock 16389 7 1002;
           HRealloc NormalBlock 5 8 200 1003; HFree NormalBlock 16389]
  /\ bucket 5 = bucket 16389
  /\ tracked (W ∅ ∅) w 8 (Rec 200 1003) /\ live w !! 5 = None /\ live w !! 6 = Some (CrtBlock, Rec 8 1001).
Proof.
  eexists _, _. split.
  { eapply run_cons; [apply (crt_alloc _ NormalBlock 5 100 1000 true); apply not_elem_of_empty|].
    eapply run_cons; [apply (crt_alloc _ CrtBlock 6 8 1001 true); cbn [seen]; set_solver|].
    eapply run_cons; [apply (crt_alloc _ NormalBlock 16389 7 1002 true); cbn [seen]; set_solver|].
    eapply run_cons; [eapply (crt_realloc _ NormalBlock 5 (Rec 100 1000) 8 200 1003 true); [reflexivity|cbn [seen]; set_solver]|].
    eapply run_cons; [eapply (crt_free _ NormalBlock 16389); reflexivity|]. apply run_nil. }
  split; [done|]. split; [done|]. unfold tracked. cbn [live seen]. split; [split; [done|set_solver]|]. done.
Qed.
Theorem C86_path_example :
  strapp [67; 58] [59; 46] = Some (map Some [67; 58; 59; 46; 0])
  /\ cstr (remove_quotes [34; 67; 34; 59; 34; 68]) = [67; 59; 68]
  /\ cstr (remove_quotes [34; 34; 67]) = [34; 67].
Proof. vm_compute. done. Qed.
