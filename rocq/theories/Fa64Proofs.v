(** Proofs about the context switch of fibers on arm64: symbolic execution of jump_fcontext and make_fcontext, and the invariant of all
    schedules. *)
From Coq Require Import ZArith Lia Bool List.
From Verif Require Import FctxModel FctxProofs Fa64Model.
Import ListNotations.
Local Open Scope Z_scope.

(** * Frames *)
Fixpoint stores (f off : Z) (vs : list Z) (m : Z -> Z) {struct vs} : Z -> Z :=
  match vs with [] => m | v :: vs => stores f (off + 8) vs (store 8 (f + off) v m) end.
Lemma stores_out f vs : forall off m x, 0 <= f + off -> f + off + 8 * Z.of_nat (length vs) <= W ->
  (x < f + off \/ f + off + 8 * Z.of_nat (length vs) <= x) -> stores f off vs m x = m x.
Proof.
  induction vs as [|v vs IH]; intros off m x H0 H1 H; [reflexivity|]. cbn [stores length] in *. rewrite Nat2Z.inj_succ in *.
  rewrite IH by lia. apply store_out; lia.
Qed.
Lemma stores_range f vs : forall off m, (forall x, 0 <= m x < 256) -> forall x, 0 <= stores f off vs m x < 256.
Proof. induction vs as [|v vs IH]; intros off m H x; [apply H|]. cbn [stores]. apply IH. apply store_range. exact H. Qed.
Lemma loads_stores f vs : forall off m, 0 <= f + off -> f + off + 8 * Z.of_nat (length vs) <= W -> (forall v, In v vs -> 0 <= v < W) ->
  loads f off (length vs) (stores f off vs m) = vs.
Proof.
  induction vs as [|v vs IH]; intros off m H0 H1 H; [reflexivity|]. cbn [stores loads length] in *. rewrite Nat2Z.inj_succ in *. f_equal.
  - rewrite (load_ext 8 (f + off) _ (store 8 (f + off) v m)); [|lia|lia|].
    + apply load_store8; [lia|lia|]. apply H. left. reflexivity.
    + intros x Hx. apply stores_out; lia.
  - apply IH; [lia|lia|]. intros w Hw. apply H. right. exact Hw.
Qed.
Lemma loads_ext f n : forall off m m', 0 <= f + off -> f + off + 8 * Z.of_nat n <= W ->
  (forall x, f + off <= x < f + off + 8 * Z.of_nat n -> m x = m' x) -> loads f off n m = loads f off n m'.
Proof.
  induction n as [|n IH]; intros off m m' H0 H1 H; [reflexivity|]. cbn [loads]. rewrite Nat2Z.inj_succ in *. f_equal.
  - apply load_ext; [lia|lia|]. intros x Hx. apply H. lia.
  - apply IH; [lia|lia|]. intros x Hx. apply H. lia.
Qed.
Lemma asnap_at_ext m m' a : 0 <= a -> a + 176 <= W -> (forall x, a <= x < a + 176 -> m x = m' x) -> asnap_at m a = asnap_at m' a.
Proof.
  intros H0 H1 H. unfold asnap_at. f_equal; [apply load_ext|apply loads_ext]; try lia; intros x Hx; apply H; lia.
Qed.

(** * Symbolic execution *)
Definition in_frame (f off n : Z) : Prop := 0 <= f + off /\ f + off + n <= W.
Lemma ax_stp im a b off c rg m fp f : rg SP = f -> f mod 16 = 0 -> 0 <= f + off -> f + off + 16 <= W ->
  aexec im (AStp a b SP off :: c) (mkacpu rg m fp) =
  aexec im c (mkacpu rg (store 8 (f + (off + 8)) (rg b) (store 8 (f + off) (rg a) m)) fp).
Proof.
  intros Hs Hal H0 H1. cbn [aexec misaligned aone aregs]. unfold aea, asetm. cbn [aregs amem fpcr]. rewrite Hs, Hal.
  rewrite !wrap_id by lia. reflexivity.
Qed.
Lemma ax_str im a off c rg m fp f : rg SP = f -> f mod 16 = 0 -> 0 <= f + off -> f + off + 8 <= W ->
  aexec im (AStr a SP off :: c) (mkacpu rg m fp) = aexec im c (mkacpu rg (store 8 (f + off) (rg a) m) fp).
Proof.
  intros Hs Hal H0 H1. cbn [aexec misaligned aone aregs]. unfold aea, asetm. cbn [aregs amem fpcr]. rewrite Hs, Hal.
  rewrite !wrap_id by lia. reflexivity.
Qed.
Definition pair_regs (a b : areg) (v w : Z) (rg : areg -> Z) : areg -> Z :=
  fun x => if areg_eqb x b then w else if areg_eqb x a then v else rg x.
Lemma ax_ldp im a b off c rg m fp f : rg SP = f -> f mod 16 = 0 -> 0 <= f + off -> f + off + 16 <= W ->
  aexec im (ALdp a b SP off :: c) (mkacpu rg m fp) =
  aexec im c (mkacpu (pair_regs a b (load 8 (f + off) m) (load 8 (f + (off + 8)) m) rg) m fp).
Proof.
  intros Hs Hal H0 H1. cbn [aexec misaligned aone aregs]. unfold aea, aset. cbn [aregs amem fpcr]. rewrite Hs, Hal.
  rewrite !wrap_id by lia. reflexivity.
Qed.
Lemma ax_ldr im a off c rg m fp f : rg SP = f -> f mod 16 = 0 -> 0 <= f + off -> f + off + 8 <= W ->
  aexec im (ALdr a SP off :: c) (mkacpu rg m fp) = aexec im c (aset a (load 8 (f + off) m) (mkacpu rg m fp)).
Proof.
  intros Hs Hal H0 H1. cbn [aexec misaligned aone aregs]. unfold aea. cbn [aregs amem fpcr]. rewrite Hs, Hal.
  rewrite !wrap_id by lia. reflexivity.
Qed.
Ltac asym := lazy beta iota zeta delta [aset asetm aregs amem fpcr areg_eqb Nat.eqb aea pair_regs].

(** the frame jump_fcontext writes *)
Definition asaved (f : Z) (rg : areg -> Z) (m : Z -> Z) : Z -> Z := store 8 (f + 160) (rg (X 30)) (stores f 0 (map rg frame_regs) m).
Lemma save_exec im c rg m fp f : f = rg SP - 176 -> 0 <= f -> f + 176 <= W -> f mod 16 = 0 ->
  aexec im (ajump_save ++ c) (mkacpu rg m fp) =
  aexec im c (mkacpu (fun x => if areg_eqb x SP then f else rg x) (asaved f rg m) fp).
Proof.
  intros Hf H0 H1 Hal. unfold ajump_save. cbn [app].
  assert (E0 : forall l : list ainstr, aexec im (ASubI SP SP 176 :: l) (mkacpu rg m fp) =
                         aexec im l (mkacpu (fun x => if areg_eqb x SP then f else rg x) m fp)).
  { intros l. cbn [aexec misaligned aone aregs]. unfold aset. cbn [aregs amem fpcr]. rewrite <- Hf, (wrap_id f) by lia. reflexivity. }
  rewrite E0. clear E0.
  do 10 (rewrite (ax_stp im _ _ _ _ _ _ _ f); [|reflexivity|exact Hal|lia|lia]).
  rewrite (ax_str im _ _ _ _ _ _ f); [|reflexivity|exact Hal|lia|lia]. f_equal.
Qed.
(** what the second half leaves *)
Lemma restore_exec im rg m fp t : rg (X 0) = t -> 0 <= t -> t + 176 < W -> t mod 16 = 0 ->
  exists c, aexec im ajump_restore (mkacpu rg m fp) = (AGoto (load 8 (t + 160) m), c) /\ amem c = m /\ fpcr c = fp /\
    map (aregs c) frame_regs = loads t 0 20 m /\ aregs c SP = t + 176 /\ aregs c (X 0) = rg SP /\ aregs c (X 4) = load 8 (t + 160) m /\
    (forall r, ~ In r frame_regs -> r <> SP -> r <> X 0 -> r <> X 4 -> aregs c r = rg r).
Proof.
  intros Ht H0 H1 Hal. unfold ajump_restore.
  change (aexec im (AMov (X 4) SP :: AMov SP (X 0) :: ?l) (mkacpu rg m fp)) with
    (aexec im l (mkacpu (fun x => if areg_eqb x SP then rg (X 0) else if areg_eqb x (X 4) then rg SP else rg x) m fp)).
  rewrite Ht.
  do 10 (rewrite (ax_ldp im _ _ _ _ _ _ _ t); [|reflexivity|exact Hal|lia|lia]).
  change (aexec im (AMov (X 0) (X 4) :: ?l) ?s) with (aexec im l (aset (X 0) (aregs s (X 4)) s)).
  unfold aset at 1. cbn [aregs amem fpcr]. rewrite (ax_ldr im _ _ _ _ _ _ t); [|reflexivity|exact Hal|lia|lia].
  eexists. split; [reflexivity|]. split; [reflexivity|]. split; [reflexivity|]. split; [reflexivity|].
  split; [asym; apply wrap_id; lia|]. split; [reflexivity|]. split; [reflexivity|].
  intros r Hin Hsp Hx0 Hx4.
  assert (Hne : forall x, r <> x -> areg_eqb r x = false).
  { intros x Hx. destruct r as [n|n|], x as [k|k|]; try reflexivity; try (cbn; apply Nat.eqb_neq; congruence). congruence. }
  unfold aone, aset, pair_regs. cbn [aregs amem fpcr].
  repeat (rewrite Hne; [|first [assumption | intros ->; apply Hin; cbn; tauto]]). reflexivity.
Qed.
Lemma areg_neqb a b : a <> b -> areg_eqb a b = false.
Proof. intros Hx. destruct a as [n|n|], b as [k|k|]; try reflexivity; try (cbn; apply Nat.eqb_neq; congruence). congruence. Qed.
Lemma areg_dec (a b : areg) : {a = b} + {a <> b}. Proof. decide equality; apply Nat.eq_dec. Qed.

(** a call of jump_fcontext: what the processor has after it *)
Record ajumped (c0 c : acpu) (from tgt ra : Z) : Prop := {
  aj_sp : aregs c SP = tgt + 176;
  aj_vals : map (aregs c) frame_regs = q_vals (asnap_at (amem c0) tgt);
  aj_ret : aregs c (X 0) = aregs c0 SP - 176 /\ aregs c (X 1) = from;
  aj_frame : asnap_at (amem c) (aregs c0 SP - 176) = asnap_of c0 ra;
  aj_mem : forall x, x < aregs c0 SP - 176 \/ aregs c0 SP <= x -> amem c x = amem c0 x;
  aj_fpcr : fpcr c = fpcr c0;
  aj_wf : awf c }.
Lemma loads_range f n : forall off m, (forall x, 0 <= m x < 256) -> forall v, In v (loads f off n m) -> 0 <= v < W.
Proof.
  induction n as [|n IH]; intros off m H v Hv; [destruct Hv|]. cbn [loads] in Hv. destruct Hv as [<- | Hv]; [|eapply IH; eassumption].
  apply (load_range 8). exact H.
Qed.
Lemma ajump_call im c0 from tgt ra : awf c0 -> 0 <= from < W -> 0 <= ra < W -> 176 <= aregs c0 SP -> aregs c0 SP mod 16 = 0 ->
  0 <= tgt -> tgt + 176 < W -> tgt mod 16 = 0 -> apart (aregs c0 SP - 176) (aregs c0 SP) tgt (tgt + 176) ->
  exists c, acall im ajump_fcontext tgt from (aregs c0 (X 2)) ra c0 = (AGoto (q_pc (asnap_at (amem c0) tgt)), c) /\ ajumped c0 c from tgt ra.
Proof.
  intros [Hr Hm] Hfr Hra Hsp Hal Ht0 Ht1 Htal Hap. unfold acall, ajump_fcontext.
  destruct c0 as [rg m fp]. cbn [aregs amem] in *. pose proof (Hr SP) as Hrsp.
  set (rg1 := fun x => if areg_eqb x (X 30) then ra else if areg_eqb x (X 0) then tgt else if areg_eqb x (X 1) then from
                       else if areg_eqb x (X 2) then rg (X 2) else rg x).
  change (aset (X 30) ra _) with (mkacpu rg1 m fp). set (f := rg SP - 176).
  assert (Hfal : f mod 16 = 0).
  { unfold f. replace (rg SP - 176) with (rg SP + (-11) * 16) by lia. rewrite Z.mod_add by lia. exact Hal. }
  rewrite (save_exec im ajump_restore rg1 m fp f); [|reflexivity|lia|lia|exact Hfal].
  destruct (restore_exec im (fun x => if areg_eqb x SP then f else rg1 x) (asaved f rg1 m) fp tgt)
    as (c & E & Em & Efp & Ev & Esp & E0 & E4 & Eo); [reflexivity|lia|lia|exact Htal|].
  assert (Hr1 : forall r, 0 <= rg1 r < W).
  { intros r. unfold rg1. repeat (destruct (areg_eqb r _); [lia || apply Hr|]). apply Hr. }
  assert (Hlen : length (map rg1 frame_regs) = 20%nat) by reflexivity.
  assert (Hout : forall x, x < f \/ f + 176 <= x -> asaved f rg1 m x = m x).
  { intros x Hx. unfold asaved. rewrite store_out by lia. apply stores_out; rewrite ?Hlen; lia. }
  assert (Ek : asnap_at (asaved f rg1 m) tgt = asnap_at m tgt).
  { apply asnap_at_ext; [lia|lia|]. intros x Hx. apply Hout. unfold apart in Hap. lia. }
  exists c. split.
  - rewrite E. do 2 f_equal. change (load 8 (tgt + 160) ?mm) with (q_pc (asnap_at mm tgt)). rewrite Ek. reflexivity.
  - assert (Hmc : forall x, 0 <= amem c x < 256).
    { intros x. rewrite Em. unfold asaved. apply store_range. apply stores_range. exact Hm. }
    constructor; cbn [aregs amem fpcr].
    + exact Esp.
    + rewrite <- Ek. exact Ev.
    + split; [exact E0|]. rewrite Eo; try congruence; [reflexivity|]. intros Hin.
      repeat (destruct Hin as [Hin | Hin]; [discriminate Hin|]). destruct Hin.
    + fold f. rewrite Em. unfold asnap_at, asnap_of, asaved. cbn [aregs]. f_equal.
      * unfold f. lia.
      * rewrite load_store8; [reflexivity|lia|lia|apply Hr1].
      * change 20%nat with (length (map rg1 frame_regs)). rewrite (loads_ext f _ 0 _ (stores f 0 (map rg1 frame_regs) m)).
        -- rewrite loads_stores; [reflexivity|lia|rewrite Hlen; lia|]. intros v Hv. apply in_map_iff in Hv as (r & <- & _). apply Hr1.
        -- lia.
        -- rewrite Hlen. lia.
        -- rewrite Hlen. intros x Hx. apply store_out; lia.
    + intros x Hx. rewrite Em. apply Hout. unfold f. lia.
    + exact Efp.
    + split; [|exact Hmc]. intros r. destruct (in_dec areg_dec r frame_regs) as [Hin | Hin].
      * apply (loads_range tgt 20 0 (asaved f rg1 m)); [rewrite <- Em; exact Hmc|]. rewrite <- Ev. apply in_map. exact Hin.
      * destruct (areg_dec r SP) as [-> | H1]; [lia|]. destruct (areg_dec r (X 0)) as [-> | H2]; [rewrite E0; change (0 <= f < W); lia|].
        destruct (areg_dec r (X 4)) as [-> | H3].
        { rewrite E4. apply (load_range 8). rewrite <- Em. exact Hmc. }
        rewrite Eo by assumption. rewrite areg_neqb by exact H1. apply Hr1.
Qed.

(** a call of make_fcontext *)
Lemma amake_call im c0 top size fn ra : awf c0 -> 0 <= ra < W -> 192 <= top < W -> 0 <= fn < W -> 0 <= size < W -> 0 <= a_finish im < W ->
  let f := top - top mod 16 - 176 in
  exists c, acall im amake_fcontext top size fn ra c0 = (AGoto ra, c) /\ aregs c (X 0) = f /\
    (forall r, r <> X 0 -> r <> X 1 -> r <> X 2 -> r <> X 30 -> aregs c r = aregs c0 r) /\ fpcr c = fpcr c0 /\ awf c /\
    (forall x, (x < f + 152 \/ f + 168 <= x) -> amem c x = amem c0 x) /\
    load 8 (f + 160) (amem c) = fn /\ load 8 (f + 152) (amem c) = a_finish im.
Proof.
  intros [Hr Hm] Hra Ht Hfn Hsz Hfi f. unfold acall. destruct c0 as [rg m fp]. cbn [aregs amem fpcr] in *.
  pose proof (Z.mod_pos_bound top 16 ltac:(lia)) as Hm16.
  assert (Hf : wrap (Z.land top (wrap (-16)) - 176) = f) by (rewrite land16 by lia; apply wrap_id; unfold f; lia).
  assert (E : exists c, aexec im amake_fcontext (aset (X 30) ra (aset (X 0) top (aset (X 1) size (aset (X 2) fn (mkacpu rg m fp))))) = (AGoto ra, c) /\
    aregs c (X 0) = f /\ aregs c (X 1) = a_finish im /\ aregs c (X 2) = fn /\ aregs c (X 30) = ra /\
    (forall r, r <> X 0 -> r <> X 1 -> r <> X 2 -> r <> X 30 -> aregs c r = rg r) /\ fpcr c = fp /\
    amem c = store 8 (f + 152) (a_finish im) (store 8 (f + 160) fn m)).
  { unfold amake_fcontext. cbn [aexec misaligned]. unfold aone, aset, asetm, aea. cbn [aregs amem fpcr areg_eqb Nat.eqb]. rewrite Hf. unfold f. wr. fold f.
    eexists. split; [reflexivity|]. cbn [aregs amem fpcr]. repeat split; try reflexivity.
    intros r H0 H1 H2 H3. pose proof (areg_neqb _ _ H0) as N0. pose proof (areg_neqb _ _ H1) as N1.
    pose proof (areg_neqb _ _ H2) as N2. pose proof (areg_neqb _ _ H3) as N3. unfold areg_eqb in *.
    destruct r as [n|n|]; try reflexivity. rewrite N0, N1, N2, N3. reflexivity. }
  destruct E as (c & E & E0 & E1 & E2 & E3 & Eo & Ef & Em). exists c. split; [exact E|]. split; [exact E0|]. split; [exact Eo|].
  split; [exact Ef|]. split; [|split; [|split]].
  - split.
    + intros r. destruct (areg_dec r (X 0)) as [-> | H0]; [unfold f in *; lia|]. destruct (areg_dec r (X 1)) as [-> | H1]; [lia|].
      destruct (areg_dec r (X 2)) as [-> | H2]; [lia|]. destruct (areg_dec r (X 30)) as [-> | H3]; [lia|]. rewrite Eo by assumption. apply Hr.
    + intros x. rewrite Em. do 2 apply store_range. exact Hm.
  - intros x Hx. rewrite Em. rewrite !store_out; [reflexivity|unfold f in *; lia..].
  - rewrite Em, load_over by (unfold f; lia). apply load_store8; unfold f; lia.
  - rewrite Em. apply load_store8; unfold f; lia.
Qed.

(** * The invariant *)
Definition aimg_ok (im : aimage) : Prop := 0 <= a_finish im < W /\ 0 <= a_start im < W.
Definition abuild_ok (b : build) : Prop := 0 < sizeof_fiber b /\ 0 <= redzone b.
(** a fiber that is not running: its frame is at its context and holds what it had *)
Record aasleep (s : asys) (g lo hi : Z) : Prop := {
  aa_ctx : actx s g = q_sp (akept s g) - 176;
  aa_in : lo + 176 <= q_sp (akept s g) <= hi;
  aa_al : q_sp (akept s g) mod 16 = 0;
  aa_frame : asnap_at (amem (acp s)) (actx s g) = akept s g }.
Record AInv (s : asys) : Prop := {
  av_wf : awf (acp s);
  av_room : aroom (astk s (aself s)) (acp s);
  av_in : forall g lo hi, astk s g = Some (lo, hi) -> 0 <= g < W /\ 0 < lo /\ hi < W;
  av_apart : forall g h lo hi lo' hi', astk s g = Some (lo, hi) -> astk s h = Some (lo', hi') -> g <> h -> apart lo hi lo' hi';
  av_sleep : forall g lo hi, astk s g = Some (lo, hi) -> g <> aself s -> aasleep s g lo hi }.
Lemma aroom_some s c : aroom s c -> exists lo hi, s = Some (lo, hi) /\ lo + 176 <= aregs c SP <= hi /\ aregs c SP mod 16 = 0.
Proof. destruct s as [[lo hi]|]; [|intros []]. intros H. exists lo, hi. split; [reflexivity|exact H]. Qed.

Lemma ainv_start m lo hi c a : awf c -> 0 <= m < W -> 0 < lo -> hi < W -> lo + 176 <= aregs c SP <= hi -> aregs c SP mod 16 = 0 ->
  AInv (astart_state m lo hi c a).
Proof.
  intros Hw Hm Hlo Hhi Hr Hal. constructor; cbn [astart_state acp astk aself].
  - exact Hw.
  - rewrite upd_eq. split; assumption.
  - intros g lo' hi' Hg. destruct (Z.eq_dec g m) as [-> | Hn]; [|rewrite upd_ne in Hg by exact Hn; discriminate].
    rewrite upd_eq in Hg. injection Hg as <- <-. repeat split; lia.
  - intros g h l1 h1 l2 h2 Hg Hh Hn.
    destruct (Z.eq_dec g m) as [-> | Hg']; [|rewrite upd_ne in Hg by exact Hg'; discriminate].
    rewrite upd_ne in Hh by congruence. discriminate.
  - intros g l h Hg Hn. rewrite upd_ne in Hg by exact Hn. discriminate.
Qed.

Lemma mod16_sub x k : x mod 16 = 0 -> (x - k * 16) mod 16 = 0.
Proof. intros H. replace (x - k * 16) with (x + (- k) * 16) by lia. rewrite Z.mod_add by lia. exact H. Qed.

(** what a switch to g does, from any state of the invariant *)
Record aswitched (s : asys) (g ra : Z) (s' : asys) : Prop := {
  aw_self : aself s' = g;
  aw_stk : astk s' = astk s;
  aw_ctx_from : actx s' (aself s) = aregs (acp s) SP - 176;
  aw_ctx : forall h, h <> aself s -> actx s' h = actx s h;
  aw_mem : forall x, (x < aregs (acp s) SP - 176 \/ aregs (acp s) SP <= x) -> amem (acp s') x = amem (acp s) x;
  aw_frame : asnap_at (amem (acp s')) (aregs (acp s) SP - 176) = asnap_of (acp s) ra;
  aw_vals : map (aregs (acp s')) frame_regs = q_vals (akept s g);
  aw_pc : apc s' = q_pc (akept s g);
  aw_sp : aregs (acp s') SP = q_sp (akept s g);
  aw_ret : aregs (acp s') (X 0) = actx s' (aself s) /\ aregs (acp s') (X 1) = aself s;
  aw_fpcr : fpcr (acp s') = fpcr (acp s);
  aw_wf : awf (acp s');
  aw_kept : akept s' = upd (akept s) (aself s) (asnap_of (acp s) ra) }.
Lemma aswitch_spec b im s g ra s' : AInv s -> astep b im s (ASwitch g ra) s' -> aswitched s g ra s'.
Proof.
  intros HI Hs. inversion Hs as [| |s0 g0 ra0 t c Hne Hst Hra Hc|]; subst.
  destruct (aroom_some _ _ (av_room _ HI)) as (lo & hi & Hlh & Hsp & Hal). destruct (astk s g) as [[lo' hi']|] eqn:Hg; [clear Hst|contradiction].
  destruct (av_in _ HI _ _ _ Hlh) as (Hself & Hlo & Hhi). destruct (av_in _ HI _ _ _ Hg) as (Hgr & Hlo' & Hhi').
  destruct (av_sleep _ HI _ _ _ Hg Hne) as [Actx Ain Aal Afr].
  pose proof (av_apart _ HI _ _ _ _ _ _ Hlh Hg ltac:(congruence)) as Hap.
  destruct (ajump_call im (acp s) (aself s) (actx s g) ra (av_wf _ HI) Hself Hra) as (c1 & E & [Jsp Jv Jret Jfr Jmem Jfp Jwf]).
  { lia. } { exact Hal. } { lia. } { lia. } { rewrite Actx. apply (mod16_sub _ 11). exact Aal. } { unfold apart in *. lia. }
  rewrite Afr in *. rewrite E in Hc. pairs Hc. subst t c. destruct Jret as [Q1 Q2].
  constructor; cbn [aself astk actx acp akept apc apc_of aarrive]; rewrite ?Q1, ?Q2; try reflexivity; try assumption.
  - apply upd_eq.
  - intros h Hh. apply upd_ne. exact Hh.
  - lia.
  - rewrite upd_eq. split; reflexivity.
Qed.

(** what kfiber_new does *)
Definition anew_ctx (b : build) (p size : Z) : Z := stk_top b p size - stk_top b p size mod 16 - 176.
Record acreated (b : build) (im : aimage) (s : asys) (p size ra : Z) (s' : asys) : Prop := {
  an_self : aself s' = aself s;
  an_pc : apc s' = ra;
  an_regs : forall r, r <> X 0 -> r <> X 1 -> r <> X 2 -> r <> X 30 -> aregs (acp s') r = aregs (acp s) r;
  an_fpcr : fpcr (acp s') = fpcr (acp s);
  an_stk : astk s' = upd (astk s) p (Some (stk_lo b p, stk_top b p size));
  an_ctx : actx s' = upd (actx s) p (anew_ctx b p size);
  an_kept : exists k, akept s' = upd (akept s) p k /\ asnap_at (amem (acp s')) (anew_ctx b p size) = k /\
     q_sp k = anew_ctx b p size + 176 /\ q_pc k = a_start im /\ nth 19 (q_vals k) 0 = a_finish im;
  an_mem : forall x, (x < stk_lo b p \/ stk_top b p size <= x) -> amem (acp s') x = amem (acp s) x;
  an_wf : awf (acp s');
  an_in : stk_lo b p + 176 <= anew_ctx b p size + 176 <= stk_top b p size /\ stk_top b p size - 15 <= anew_ctx b p size + 176 /\
     0 < stk_lo b p /\ stk_top b p size < W /\ 0 <= p < W /\ (anew_ctx b p size + 176) mod 16 = 0 }.
Lemma acreate_spec b im s p size ra s' : abuild_ok b -> aimg_ok im -> AInv s -> astep b im s (ACreate p size ra) s' ->
  acreated b im s p size ra s'.
Proof.
  intros Hb Him HI Hs. inversion Hs as [|s0 p0 size0 ra0 t c Hsz Hp0 Hend Hnone Hra Hap Hc| |]; subst.
  pose proof (stk_bytes_pos b size Hsz) as Hbp. destruct Hb as [Hsf Hrz]. destruct Him as (Hi1 & Hi2).
  pose proof (Z.mod_pos_bound (stk_top b p size) 16 ltac:(lia)) as Hm16.
  assert (Hin : stk_lo b p + 176 <= anew_ctx b p size + 176 <= stk_top b p size /\ stk_top b p size - 15 <= anew_ctx b p size + 176 /\
     0 < stk_lo b p /\ stk_top b p size < W /\ 0 <= p < W /\ (anew_ctx b p size + 176) mod 16 = 0).
  { repeat split; try (unfold anew_ctx; revert Hm16; unfold blk_end, stk_top, stk_lo in *; intros; lia).
    unfold anew_ctx. pose proof (Z.div_mod (stk_top b p size) 16 ltac:(lia)) as Hd.
    replace (stk_top b p size - stk_top b p size mod 16 - 176 + 176) with (0 + stk_top b p size / 16 * 16) by lia.
    rewrite Z.mod_add by lia. reflexivity. }
  destruct (amake_call im (acp s) (stk_top b p size) (stk_bytes b size) (a_start im) ra (av_wf _ HI) Hra)
    as (c1 & E & C1 & C2 & C3 & C4 & C5 & C6 & C7);
    [unfold stk_top, stk_lo, blk_end in *; lia|lia|unfold blk_end in *; lia|lia|].
  rewrite E in Hc. pairs Hc. subst t c. fold (anew_ctx b p size) in *.
  constructor; cbn [aself apc acp astk actx akept apc_of]; rewrite ?C1; try reflexivity; try assumption.
  - eexists. split; [reflexivity|]. split; [reflexivity|]. split; [reflexivity|]. split; [exact C6|exact C7].
  - intros x Hx. apply C5. unfold anew_ctx in *. lia.
Qed.
Lemma aswitch_pre b im s g ra s' : astep b im s (ASwitch g ra) s' -> g <> aself s /\ astk s g <> None /\ 0 <= ra < W.
Proof. intros Hs. inversion Hs; subst. repeat split; assumption || lia. Qed.
Lemma acreate_pre b im s p size ra s' : astep b im s (ACreate p size ra) s' ->
  astk s p = None /\ (forall g lo hi, astk s g = Some (lo, hi) -> apart (stk_lo b p) (blk_end b p size) lo hi).
Proof. intros Hs. inversion Hs; subst. split; assumption. Qed.

Lemma ainv_switch b im s g ra s' : AInv s -> astep b im s (ASwitch g ra) s' -> AInv s'.
Proof.
  intros HI Hs. destruct (aswitch_spec _ _ _ _ _ _ HI Hs) as [W1 W2 W3 W4 W5 W6 W7 W8 W9 W10 W11 W12 W13].
  destruct (aswitch_pre _ _ _ _ _ _ Hs) as (Hne & Hst & Hra).
  destruct (astk s g) as [[lo' hi']|] eqn:Hg; [clear Hst|contradiction].
  destruct (aroom_some _ _ (av_room _ HI)) as (lo & hi & Hlh & Hsp & Hal). destruct (av_in _ HI _ _ _ Hlh) as (Hself & Hlo & Hhi).
  destruct (av_sleep _ HI _ _ _ Hg Hne) as [Actx Ain Aal Afr].
  constructor.
  - exact W12.
  - rewrite W1, W2, Hg. cbn [aroom]. rewrite W9. split; assumption.
  - rewrite W2. apply (av_in _ HI).
  - rewrite W2. apply (av_apart _ HI).
  - rewrite W1, W2. intros h lh hh Hh Hhn. destruct (av_in _ HI _ _ _ Hh) as (_ & Hh1 & Hh2).
    destruct (Z.eq_dec h (aself s)) as [-> | Hhs].
    + rewrite Hlh in Hh. injection Hh as <- <-. constructor; rewrite W13, ?upd_eq; cbn [asnap_of q_sp].
      * exact W3.
      * lia.
      * exact Hal.
      * rewrite W3. exact W6.
    + destruct (av_sleep _ HI _ _ _ Hh Hhs) as [Bctx Bin Bal Bfr].
      pose proof (av_apart _ HI _ _ _ _ _ _ Hlh Hh ltac:(congruence)) as Hap1.
      constructor; rewrite W13, ?upd_ne by exact Hhs.
      * rewrite W4 by exact Hhs. exact Bctx.
      * exact Bin.
      * exact Bal.
      * rewrite W4 by exact Hhs. rewrite <- Bfr. apply asnap_at_ext; [lia|lia|]. intros y Hy. apply W5; unfold apart in *; lia.
Qed.
Lemma ainv_create b im s p size ra s' : abuild_ok b -> aimg_ok im -> AInv s -> astep b im s (ACreate p size ra) s' -> AInv s'.
Proof.
  intros Hb Him HI Hs. destruct (acreate_spec _ _ _ _ _ _ _ Hb Him HI Hs) as [N1 N2 N3 N4 N5 N6 N7 N8 N9 N10].
  destruct (acreate_pre _ _ _ _ _ _ _ Hs) as (Hnone & Hap).
  destruct (aroom_some _ _ (av_room _ HI)) as (lo & hi & Hlh & Hsp & Hal).
  assert (Hps : aself s <> p) by (intros Hx; rewrite Hx in Hlh; congruence). destruct Hb as (Hsf & Hrz).
  assert (Hap' : forall g lo hi, astk s g = Some (lo, hi) -> apart (stk_lo b p) (stk_top b p size) lo hi).
  { intros g l h Hg. specialize (Hap _ _ _ Hg). unfold apart, blk_end, stk_top, stk_lo in *. lia. }
  destruct N7 as (k & Kk & Kf & K1 & K2 & K3). destruct N10 as (I1 & I2 & I3 & I4 & I5 & I6).
  constructor.
  - exact N9.
  - rewrite N1, N5, upd_ne by exact Hps. rewrite Hlh. cbn [aroom]. rewrite N3 by congruence. split; assumption.
  - rewrite N5. intros g l h Hg. destruct (Z.eq_dec g p) as [-> | Hn].
    + rewrite upd_eq in Hg. injection Hg as <- <-. repeat split; lia.
    + rewrite upd_ne in Hg by exact Hn. apply (av_in _ HI _ _ _ Hg).
  - rewrite N5. intros g h l1 h1 l2 h2 Hg Hh Hn.
    destruct (Z.eq_dec g p) as [-> | Hgp].
    + rewrite upd_eq in Hg. injection Hg as <- <-. rewrite upd_ne in Hh by congruence. apply (Hap' _ _ _ Hh).
    + rewrite upd_ne in Hg by exact Hgp. destruct (Z.eq_dec h p) as [-> | Hhp].
      * rewrite upd_eq in Hh. injection Hh as <- <-. specialize (Hap' _ _ _ Hg). unfold apart in *. lia.
      * rewrite upd_ne in Hh by exact Hhp. apply (av_apart _ HI _ _ _ _ _ _ Hg Hh Hn).
  - rewrite N1, N5. intros g l h Hg Hn. destruct (Z.eq_dec g p) as [-> | Hgp].
    + rewrite upd_eq in Hg. injection Hg as <- <-. constructor; rewrite ?Kk, ?N6, ?upd_eq; [lia|lia| |exact Kf]. rewrite K1. exact I6.
    + rewrite upd_ne in Hg by exact Hgp. destruct (av_sleep _ HI _ _ _ Hg Hn) as [Bctx Bin Bal Bfr].
      destruct (av_in _ HI _ _ _ Hg) as (_ & Hh1 & Hh2).
      constructor; rewrite ?Kk, ?N6, ?upd_ne by exact Hgp; try assumption.
      rewrite <- Bfr. specialize (Hap' _ _ _ Hg). apply asnap_at_ext; [lia|lia|]. intros y Hy. apply N8; unfold apart in *; lia.
Qed.
Lemma ainv_step b im s e s' : abuild_ok b -> aimg_ok im -> AInv s -> astep b im s e s' -> AInv s'.
Proof.
  intros Hb Him HI Hs. destruct e as [c a|p size ra|g ra|g].
  - inversion Hs as [s0 c0 a0 Hw Hr Hm| | |]; subst. constructor; cbn [acp astk aself].
    + exact Hw.
    + exact Hr.
    + apply (av_in _ HI).
    + apply (av_apart _ HI).
    + intros g l h Hg Hn. destruct (av_sleep _ HI _ _ _ Hg Hn) as [Bctx Bin Bal Bfr]. destruct (av_in _ HI _ _ _ Hg) as (_ & Hh1 & Hh2).
      constructor; cbn [acp actx akept]; try assumption. rewrite <- Bfr. apply asnap_at_ext; [lia|lia|]. intros y Hy.
      apply (Hm g (l, h) Hg Hn). lia.
  - eapply ainv_create; eassumption.
  - eapply ainv_switch; eassumption.
  - inversion Hs as [| | |s0 g0 Hn]; subst. constructor; cbn [acp astk aself].
    + apply (av_wf _ HI).
    + rewrite upd_ne by congruence. apply (av_room _ HI).
    + intros h l hh Hh. destruct (Z.eq_dec h g) as [-> | Hx]; [rewrite upd_eq in Hh; discriminate|].
      rewrite upd_ne in Hh by exact Hx. apply (av_in _ HI _ _ _ Hh).
    + intros h1 h2 l1 hh1 l2 hh2 A B Hne. destruct (Z.eq_dec h1 g) as [-> | Hx]; [rewrite upd_eq in A; discriminate|].
      destruct (Z.eq_dec h2 g) as [-> | Hy]; [rewrite upd_eq in B; discriminate|].
      rewrite upd_ne in A, B by assumption. apply (av_apart _ HI _ _ _ _ _ _ A B Hne).
    + intros h l hh Hh Hne. destruct (Z.eq_dec h g) as [-> | Hx]; [rewrite upd_eq in Hh; discriminate|].
      rewrite upd_ne in Hh by exact Hx. destruct (av_sleep _ HI _ _ _ Hh Hne) as [Bctx Bin Bal Bfr].
      constructor; assumption.
Qed.
Lemma ainv_steps b im s l s' : abuild_ok b -> aimg_ok im -> AInv s -> asteps b im s l s' -> AInv s'.
Proof. intros Hp Him HI Hs. induction Hs as [s|s e s1 l s2 Hs Hss IH]; [exact HI|]. apply IH. eapply ainv_step; eassumption. Qed.

(** while nobody switches to a fiber or frees it, what it had stays recorded *)
Lemma akept_step b im s e s' f : abuild_ok b -> aimg_ok im -> AInv s -> astep b im s e s' -> aself s <> f -> astk s f <> None ->
  (forall ra, e <> ASwitch f ra) -> e <> AFree f -> akept s' f = akept s f /\ astk s' f = astk s f /\ aself s' <> f.
Proof.
  intros Hp Him HI Hs Hsf Hst He Hf. destruct e as [c a|p size ra|g ra|g].
  - inversion Hs; subst. repeat split; assumption.
  - destruct (acreate_spec _ _ _ _ _ _ _ Hp Him HI Hs) as [N1 N2 N3 N4 N5 N6 (k & Kk & _) N8 N9 N10].
    assert (f <> p). { inversion Hs; subst. congruence. }
    rewrite N1, N5, Kk, !upd_ne by assumption. repeat split; assumption.
  - destruct (aswitch_spec _ _ _ _ _ _ HI Hs) as [W1 W2 W3 W4 W5 W6 W7 W8 W9 W10 W11 W12 W13].
    rewrite W1, W2, W13, upd_ne by congruence. repeat split. intros ->. apply (He ra). reflexivity.
  - inversion Hs; subst. cbn. rewrite upd_ne by congruence. repeat split. assumption.
Qed.
Lemma akept_steps b im s l s' f : abuild_ok b -> aimg_ok im -> AInv s -> asteps b im s l s' -> aself s <> f -> astk s f <> None ->
  (forall ra, ~ In (ASwitch f ra) l) -> ~ In (AFree f) l -> akept s' f = akept s f /\ astk s' f = astk s f /\ aself s' <> f.
Proof.
  intros Hp Him HI Hs. induction Hs as [s|s e s1 l s2 Hs Hss IH]; intros Hsf Hst He Hf; [repeat split; assumption|].
  destruct (akept_step _ _ _ _ _ f Hp Him HI Hs Hsf Hst) as (A & B & C).
  { intros ra ->. apply (He ra). left. reflexivity. }
  { intros ->. apply Hf. left. reflexivity. }
  destruct IH as (A' & B' & C'); try assumption.
  - eapply ainv_step; eassumption.
  - congruence.
  - intros ra Hin. apply (He ra). right. exact Hin.
  - intros Hin. apply Hf. right. exact Hin.
  - repeat split; congruence.
Qed.
