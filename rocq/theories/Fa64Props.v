(** C78: on arm64 a fiber that is resumed finds itself as it left.  Theorems about every schedule of the model of Fa64Model.v.

    A program is any sequence of: user code (changes registers and memory at will, but writes nothing below the stack pointer of a fiber that
    is not running and keeps its own stack pointer aligned and inside its stack), kfiber_new, switches and the release of fibers. *)
From Coq Require Import ZArith Lia Bool List.
From Verif Require Import FctxModel FctxProofs Fa64Model Fa64Proofs.
Import ListNotations.
Local Open Scope Z_scope.

(** * Specification *)
(** the registers a C function must preserve (AAPCS64): x19-x28, the frame pointer x29, sp, d8-d15 *)
Definition acallee_saved : list areg :=
  [X 19; X 20; X 21; X 22; X 23; X 24; X 25; X 26; X 27; X 28; X 29; SP; D 8; D 9; D 10; D 11; D 12; D 13; D 14; D 15].
Definition asizes_ok (b : build) : Prop := 0 < sizeof_fiber b /\ 0 <= redzone b.
Definition alabels_ok (im : aimage) : Prop := 0 <= a_finish im < W /\ 0 <= a_start im < W.
(** a thread with its stack [lo, hi) *)
Definition athread_ok (m lo hi : Z) (c : acpu) : Prop :=
  awf c /\ 0 <= m < W /\ 0 < lo /\ hi < W /\ lo + 176 <= aregs c SP <= hi /\ aregs c SP mod 16 = 0.
Definition areachable (b : build) (im : aimage) (s : asys) : Prop :=
  exists m lo hi c a l, athread_ok m lo hi c /\ asteps b im (astart_state m lo hi c a) l s.
(** fiber f is neither switched to nor freed *)
Definition aleft_alone (f : Z) (l : list aevent) : Prop := (forall ra, ~ In (ASwitch f ra) l) /\ ~ In (AFree f) l.

Lemma areach_inv b im s : asizes_ok b -> alabels_ok im -> areachable b im s -> AInv s.
Proof.
  intros Hb Hi (m & lo & hi & c & a & l & (Hw & Hm & Hlo & Hhi & Hr & Hal) & Hs). eapply ainv_steps; try eassumption.
  apply ainv_start; assumption.
Qed.
Lemma map_eq_in {A B} (f g : A -> B) l : map f l = map g l -> forall x, In x l -> f x = g x.
Proof.
  induction l as [|y l IH]; intros H x Hx; [destruct Hx|]. cbn [map] in H. injection H as H1 H2.
  destruct Hx as [<- | Hx]; [exact H1|]. apply IH; assumption.
Qed.

(** * Resuming *)
(** a fiber f that switches away (to g, its call returning to ra) and is switched to again later by whatever fiber returns from its call: at
    ra, with its own callee-saved registers and stack pointer, and with the fiber that switched to it and that fiber's context as the result *)
Theorem C78_resume b im s1 g ra s2 l s3 ra' s4 : asizes_ok b -> alabels_ok im -> areachable b im s1 ->
  astep b im s1 (ASwitch g ra) s2 -> asteps b im s2 l s3 -> aleft_alone (aself s1) l -> astep b im s3 (ASwitch (aself s1) ra') s4 ->
  aself s4 = aself s1 /\ apc s4 = ra /\ (forall r, In r acallee_saved -> aregs (acp s4) r = aregs (acp s1) r) /\
  aregs (acp s4) (X 1) = aself s3 /\ aregs (acp s4) (X 0) = actx s4 (aself s3).
Proof.
  intros Hb Hi Hr H1 Hl [Hn1 Hn2] H4. pose proof (areach_inv _ _ _ Hb Hi Hr) as HI1.
  pose proof (ainv_step _ _ _ _ _ Hb Hi HI1 H1) as HI2. pose proof (ainv_steps _ _ _ _ _ Hb Hi HI2 Hl) as HI3.
  destruct (aswitch_pre _ _ _ _ _ _ H1) as (Hne & _ & _).
  pose proof (aswitch_spec _ _ _ _ _ _ HI1 H1) as S1. pose proof (aswitch_spec _ _ _ _ _ _ HI3 H4) as S4.
  destruct (akept_steps b im s2 l s3 (aself s1) Hb Hi HI2 Hl) as (K & _ & _); try assumption.
  { rewrite (aw_self _ _ _ _ S1). exact Hne. }
  { rewrite (aw_stk _ _ _ _ S1). destruct (aroom_some _ _ (av_room _ HI1)) as (lo & hi & -> & _). discriminate. }
  rewrite (aw_kept _ _ _ _ S1), upd_eq in K.
  split; [apply (aw_self _ _ _ _ S4)|]. split; [rewrite (aw_pc _ _ _ _ S4), K; reflexivity|]. split.
  { pose proof (aw_vals _ _ _ _ S4) as V. rewrite K in V. cbn [asnap_of q_vals] in V. pose proof (map_eq_in _ _ _ V) as V'.
    intros r Hin. destruct (areg_dec r SP) as [-> | Hsp]; [rewrite (aw_sp _ _ _ _ S4), K; reflexivity|].
    rewrite V'.
    - assert (Hx : r <> X 30) by (intros ->; repeat (destruct Hin as [Hin | Hin]; [discriminate Hin|]); destruct Hin).
      cbn [aset aregs]. rewrite areg_neqb by exact Hx. reflexivity.
    - clear - Hin Hsp. cbn [acallee_saved In] in Hin. cbn [frame_regs In]. intuition congruence. }
  destruct (aw_ret _ _ _ _ S4) as [Q1 Q2]. split; assumption.
Qed.

(** * Starting *)
(** a new fiber that is switched to for the first time enters fiber_start: with the fiber that switched to it and that fiber's context as its
    argument, a stack pointer that is a multiple of 16 at most 15 bytes below the top of its stack, and as its return address code that exits
    the process with status 0 *)
Theorem C78_start b im s1 p size ra s2 l s3 ra' s4 : asizes_ok b -> alabels_ok im -> areachable b im s1 ->
  astep b im s1 (ACreate p size ra) s2 -> asteps b im s2 l s3 -> aleft_alone p l -> astep b im s3 (ASwitch p ra') s4 ->
  aself s4 = p /\ apc s4 = a_start im /\ aregs (acp s4) (X 1) = aself s3 /\ aregs (acp s4) (X 0) = actx s4 (aself s3) /\
  aregs (acp s4) SP mod 16 = 0 /\ stk_top b p size - 15 <= aregs (acp s4) SP <= stk_top b p size /\ aregs (acp s4) (X 30) = a_finish im.
Proof.
  intros Hb Hi Hr H1 Hl [Hn1 Hn2] H4. pose proof (areach_inv _ _ _ Hb Hi Hr) as HI1.
  pose proof (ainv_step _ _ _ _ _ Hb Hi HI1 H1) as HI2. pose proof (ainv_steps _ _ _ _ _ Hb Hi HI2 Hl) as HI3.
  pose proof (acreate_spec _ _ _ _ _ _ _ Hb Hi HI1 H1) as N. pose proof (aswitch_spec _ _ _ _ _ _ HI3 H4) as S4.
  destruct (acreate_pre _ _ _ _ _ _ _ H1) as (Hnone & _).
  assert (Hsp : aself s1 <> p).
  { intros Hx. pose proof (av_room _ HI1) as Hroom. rewrite Hx, Hnone in Hroom. exact Hroom. }
  destruct (akept_steps b im s2 l s3 p Hb Hi HI2 Hl) as (K & _ & _); try assumption.
  { rewrite (an_self _ _ _ _ _ _ _ N). exact Hsp. }
  { rewrite (an_stk _ _ _ _ _ _ _ N), upd_eq. discriminate. }
  destruct (an_kept _ _ _ _ _ _ _ N) as (k & Kk & _ & K1 & K2 & K3). rewrite Kk, upd_eq in K.
  destruct (an_in _ _ _ _ _ _ _ N) as (I1 & I2 & I3 & I4 & I5 & I6). destruct (aw_ret _ _ _ _ S4) as [Q1 Q2].
  split; [apply (aw_self _ _ _ _ S4)|]. split; [rewrite (aw_pc _ _ _ _ S4), K; exact K2|]. split; [exact Q2|]. split; [exact Q1|].
  rewrite (aw_sp _ _ _ _ S4), K, K1. split; [exact I6|]. split; [lia|].
  rewrite <- K3, <- K, <- (aw_vals _ _ _ _ S4). reflexivity.
Qed.
(** the code at the return address of the context function *)
Theorem C78_return_exits im s : exists c, aexec im afinish s = (AExited 0, c).
Proof. eexists. reflexivity. Qed.
(** kfiber_new returns to its caller with the caller's registers *)
Theorem C78_create_returns b im s p size ra s' : asizes_ok b -> alabels_ok im -> areachable b im s -> astep b im s (ACreate p size ra) s' ->
  apc s' = ra /\ aself s' = aself s /\ (forall r, In r acallee_saved -> aregs (acp s') r = aregs (acp s) r) /\ fpcr (acp s') = fpcr (acp s).
Proof.
  intros Hb Hi Hr H. pose proof (acreate_spec _ _ _ _ _ _ _ Hb Hi (areach_inv _ _ _ Hb Hi Hr) H) as N.
  split; [apply (an_pc _ _ _ _ _ _ _ N)|]. split; [apply (an_self _ _ _ _ _ _ _ N)|]. split; [|apply (an_fpcr _ _ _ _ _ _ _ N)].
  intros r Hin. apply (an_regs _ _ _ _ _ _ _ N); intros ->; repeat (destruct Hin as [Hin | Hin]; [discriminate Hin|]); destruct Hin.
Qed.
(** no switch and no creation runs into the stack alignment check or off the end of the code: the fiber arrives at an address *)
Theorem C78_no_fault b im s g ra : asizes_ok b -> alabels_ok im -> areachable b im s -> g <> aself s -> astk s g <> None -> 0 <= ra < W ->
  exists s' a, astep b im s (ASwitch g ra) s' /\ apc s' = a /\ 0 <= a.
Proof.
  intros Hb Hi Hr Hne Hst Hra. pose proof (areach_inv _ _ _ Hb Hi Hr) as HI.
  destruct (acall im ajump_fcontext (actx s g) (aself s) (aregs (acp s) (X 2)) ra (acp s)) as [t c] eqn:E.
  pose proof (as_switch b im s g ra t c Hne Hst Hra E) as Hs. eexists _, _. split; [exact Hs|]. split; [reflexivity|].
  rewrite (aw_pc _ _ _ _ (aswitch_spec _ _ _ _ _ _ HI Hs)). destruct (astk s g) as [[lo hi]|] eqn:Hg; [|contradiction].
  destruct (av_sleep _ HI _ _ _ Hg Hne) as [Actx Ain Aal Afr]. rewrite <- Afr. cbn [asnap_at q_pc].
  apply (load_range 8). apply (proj2 (av_wf _ HI)).
Qed.

(** * Memory *)
(** in the memory of which fiber *)
Definition ainside (s : asys) (g x : Z) : Prop := exists lo hi, astk s g = Some (lo, hi) /\ lo <= x < hi.
(** switching writes only 176 bytes, in the stack of the fiber that switches away, below its stack pointer *)
Theorem C78_switch_memory b im s g ra s' : asizes_ok b -> alabels_ok im -> areachable b im s -> astep b im s (ASwitch g ra) s' ->
  forall x, amem (acp s') x <> amem (acp s) x -> ainside s (aself s) x /\ aregs (acp s) SP - 176 <= x < aregs (acp s) SP.
Proof.
  intros Hb Hi Hr H x Hx. pose proof (areach_inv _ _ _ Hb Hi Hr) as HI. pose proof (aswitch_spec _ _ _ _ _ _ HI H) as S.
  destruct (aroom_some _ _ (av_room _ HI)) as (lo & hi & Hlh & Hsp & Hal).
  assert (Hin : aregs (acp s) SP - 176 <= x < aregs (acp s) SP).
  { destruct (Z_lt_dec x (aregs (acp s) SP - 176)); [exfalso; apply Hx, (aw_mem _ _ _ _ S); lia|].
    destruct (Z_lt_dec x (aregs (acp s) SP)); [lia|exfalso; apply Hx, (aw_mem _ _ _ _ S); lia]. }
  split; [|exact Hin]. exists lo, hi. split; [exact Hlh|lia].
Qed.
(** kfiber_new writes only into the new block *)
Theorem C78_create_memory b im s p size ra s' : asizes_ok b -> alabels_ok im -> areachable b im s -> astep b im s (ACreate p size ra) s' ->
  forall x, amem (acp s') x <> amem (acp s) x -> stk_lo b p <= x < stk_top b p size.
Proof.
  intros Hb Hi Hr H x Hx. pose proof (acreate_spec _ _ _ _ _ _ _ Hb Hi (areach_inv _ _ _ Hb Hi Hr) H) as N.
  destruct (Z_lt_dec x (stk_lo b p)); [exfalso; apply Hx, (an_mem _ _ _ _ _ _ _ N); lia|].
  destruct (Z_lt_dec x (stk_top b p size)); [lia|exfalso; apply Hx, (an_mem _ _ _ _ _ _ _ N); lia].
Qed.
(** between a switch away from f and the next switch to f, a byte of f's stack at or above its stack pointer changes only in user code *)
Definition auser_changes (s : asys) (x : Z) (e : aevent) (s' : asys) : Prop :=
  (exists c a, e = AUser c a) /\ amem (acp s') x <> amem (acp s) x.
Inductive auntouched (b : build) (im : aimage) (x : Z) : asys -> list aevent -> asys -> Prop :=
| au_nil s : auntouched b im x s [] s
| au_cons s e s1 l s2 : astep b im s e s1 -> ~ auser_changes s x e s1 -> auntouched b im x s1 l s2 -> auntouched b im x s (e :: l) s2.
Lemma auntouched_steps b im x s l s' : auntouched b im x s l s' -> asteps b im s l s'.
Proof. induction 1; econstructor; eassumption. Qed.
Lemma astays b im s e s' f x lo hi : asizes_ok b -> alabels_ok im -> AInv s -> astep b im s e s' -> ~ auser_changes s x e s' ->
  aself s <> f -> astk s f = Some (lo, hi) -> lo <= x < hi -> amem (acp s') x = amem (acp s) x.
Proof.
  intros Hb Hi HI Hs Hu Hf Hst Hx. destruct (Z.eq_dec (amem (acp s') x) (amem (acp s) x)) as [E | E]; [exact E|exfalso].
  destruct (aroom_some _ _ (av_room _ HI)) as (l1 & h1 & Hl1 & Hr1 & _). pose proof (av_apart _ HI _ _ _ _ _ _ Hl1 Hst Hf) as Hap.
  destruct e as [c a|p size ra|g ra|g].
  - apply Hu. split; [eexists _, _; reflexivity|exact E].
  - destruct (acreate_pre _ _ _ _ _ _ _ Hs) as (_ & Hap'). pose proof (Hap' _ _ _ Hst) as Hap2.
    pose proof (acreate_spec _ _ _ _ _ _ _ Hb Hi HI Hs) as N. destruct Hb as (Hsf & Hrz).
    apply E, (an_mem _ _ _ _ _ _ _ N); unfold apart, blk_end, stk_top, stk_lo in *; lia.
  - apply E, (aw_mem _ _ _ _ (aswitch_spec _ _ _ _ _ _ HI Hs)); unfold apart in *; lia.
  - inversion Hs; subst. apply E. reflexivity.
Qed.
Theorem C78_stack_kept b im s1 g ra s2 l s3 ra' s4 x : asizes_ok b -> alabels_ok im -> areachable b im s1 ->
  astep b im s1 (ASwitch g ra) s2 -> auntouched b im x s2 l s3 -> aleft_alone (aself s1) l -> astep b im s3 (ASwitch (aself s1) ra') s4 ->
  ainside s1 (aself s1) x -> aregs (acp s1) SP <= x -> amem (acp s4) x = amem (acp s1) x.
Proof.
  intros Hb Hi Hr H1 Hu [Hn1 Hn2] H4 (lo & hi & Hlh & Hx) Hsp. pose proof (areach_inv _ _ _ Hb Hi Hr) as HI1.
  pose proof (ainv_step _ _ _ _ _ Hb Hi HI1 H1) as HI2. pose proof (ainv_steps _ _ _ _ _ Hb Hi HI2 (auntouched_steps _ _ _ _ _ _ Hu)) as HI3.
  destruct (aswitch_pre _ _ _ _ _ _ H1) as (Hne & Hst & _).
  pose proof (aswitch_spec _ _ _ _ _ _ HI1 H1) as S1. pose proof (aswitch_spec _ _ _ _ _ _ HI3 H4) as S4.
  assert (E2 : amem (acp s2) x = amem (acp s1) x) by (apply (aw_mem _ _ _ _ S1); lia).
  assert (H2f : aself s2 <> aself s1) by (rewrite (aw_self _ _ _ _ S1); exact Hne).
  assert (H2s : astk s2 (aself s1) = Some (lo, hi)) by (rewrite (aw_stk _ _ _ _ S1); exact Hlh).
  assert (E3 : amem (acp s3) x = amem (acp s2) x /\ astk s3 (aself s1) = Some (lo, hi) /\ aself s3 <> aself s1).
  { clear H4 S4 HI3 H1 S1 E2. revert Hn1 Hn2. induction Hu as [s|s e s' l s'' Hs Hnu Hu IH]; intros Hn1 Hn2; [repeat split; assumption|].
    assert (He : forall r, e <> ASwitch (aself s1) r) by (intros r ->; apply (Hn1 r); left; reflexivity).
    assert (Hf : e <> AFree (aself s1)) by (intros ->; apply Hn2; left; reflexivity).
    destruct (akept_step b im s e s' (aself s1) Hb Hi HI2 Hs H2f ltac:(congruence) He Hf) as (A & B & C).
    destruct IH as (P1 & P2 & P3); try assumption; try congruence.
    - eapply ainv_step; eassumption.
    - intros r Hin. apply (Hn1 r). right. exact Hin.
    - intros Hin. apply Hn2. right. exact Hin.
    - split; [|split; congruence]. rewrite P1. eapply astays; eassumption. }
  destruct E3 as (E3 & H3s & H3f). destruct (aroom_some _ _ (av_room _ HI3)) as (l3 & h3 & Hl3 & Hr3 & _).
  pose proof (av_apart _ HI3 _ _ _ _ _ _ Hl3 H3s H3f) as Hap.
  rewrite (aw_mem _ _ _ _ S4); [congruence|]. unfold apart in Hap. lia.
Qed.

(** * Floating point control *)
(** FPCR is not part of the frame: a resumed or new fiber runs with the FPCR of the fiber that switched to it *)
Theorem C78_fpcr_passed b im s g ra s' : asizes_ok b -> alabels_ok im -> areachable b im s -> astep b im s (ASwitch g ra) s' ->
  fpcr (acp s') = fpcr (acp s).
Proof. intros Hb Hi Hr H. apply (aw_fpcr _ _ _ _ (aswitch_spec _ _ _ _ _ _ (areach_inv _ _ _ Hb Hi Hr) H)). Qed.

(** * Examples *)
Definition ex_aimg : aimage := mkaimg 4112 8192.
Definition ex_abuild : build := mkbuild false false false 256 0 false.
(** a thread with its stack at [100000, 200000) *)
Definition ex_acpu : acpu := mkacpu (fun r => match r with SP => 199984 | X n => 100 + Z.of_nat n mod 40 | D n => 200 + Z.of_nat n mod 40 end) (fun _ => 0) 0.
Definition aex0 : asys := astart_state 50000 100000 200000 ex_acpu 9000.
(** successors of a state *)
Definition do_acreate (b : build) (im : aimage) (s : asys) (p size ra : Z) : asys :=
  match acall im amake_fcontext (stk_top b p size) (stk_bytes b size) (a_start im) ra (acp s) with
  | (t, c) => mkasys c (upd (actx s) p (aregs c (X 0))) (aself s) (apc_of t) (upd (astk s) p (Some (stk_lo b p, stk_top b p size)))
         (upd (akept s) p (asnap_at (amem c) (aregs c (X 0))))
  end.
Definition do_aswitch (im : aimage) (s : asys) (g ra : Z) : asys :=
  match acall im ajump_fcontext (actx s g) (aself s) (aregs (acp s) (X 2)) ra (acp s) with
  | (t, c) => mkasys c (aarrive t c (actx s)) g (apc_of t) (astk s) (upd (akept s) (aself s) (asnap_of (acp s) ra))
  end.
(** the fiber sets its rounding mode and its x19 *)
Definition do_auser (s : asys) : asys :=
  mkasys (mkacpu (aregs (aset (X 19) 5 (acp s))) (amem (acp s)) 4194304) (actx s) (aself s) 8200 (astk s) (akept s).
(** the main fiber makes a fiber at 300000 and switches to it; it sets its rounding mode and switches back *)
Definition aex1 : asys := do_acreate ex_abuild ex_aimg aex0 300000 8192 9001.
Definition aex2 : asys := do_aswitch ex_aimg aex1 300000 9002.
Definition aex3 : asys := do_auser aex2.
Definition aex4 : asys := do_aswitch ex_aimg aex3 50000 9003.
Lemma ex_athread : athread_ok 50000 100000 200000 ex_acpu.
Proof.
  split; [split; [|cbn; intros; lia]|repeat split; cbn; lia].
  intros r. unfold ex_acpu. cbn [aregs]. unfold W. destruct r as [n|n|]; try (pose proof (Z.mod_pos_bound (Z.of_nat n) 40 ltac:(lia))); lia.
Qed.
Lemma aex_create : astep ex_abuild ex_aimg aex0 (ACreate 300000 8192 9001) aex1.
Proof.
  unfold aex1, do_acreate. destruct (acall _ _ _ _ _ _ _) as [t c] eqn:E. apply as_create.
  - lia.
  - lia.
  - vm_compute. discriminate.
  - reflexivity.
  - unfold W. lia.
  - intros h lo hi. cbn [aex0 astart_state astk]. unfold upd. destruct (h =? 50000); [|discriminate]. intros [= <- <-].
    right. vm_compute. discriminate.
  - exact E.
Qed.
Lemma aex_switch1 : astep ex_abuild ex_aimg aex1 (ASwitch 300000 9002) aex2.
Proof.
  unfold aex2, do_aswitch. destruct (acall _ _ _ _ _ _ _) as [t c] eqn:E.
  apply as_switch; [vm_compute; discriminate|vm_compute; discriminate|unfold W; lia|exact E].
Qed.
Lemma aex_sizes : asizes_ok ex_abuild /\ alabels_ok ex_aimg.
Proof. split; split; cbn; unfold W; lia. Qed.
Lemma aex_reach1 : areachable ex_abuild ex_aimg aex1.
Proof. exists 50000, 100000, 200000, ex_acpu, 9000, [ACreate 300000 8192 9001]. split; [exact ex_athread|]. econstructor; [exact aex_create|constructor]. Qed.
Lemma aex_inv2 : AInv aex2.
Proof.
  destruct aex_sizes as [Hs Hl]. eapply ainv_step; [exact Hs|exact Hl| |exact aex_switch1].
  eapply areach_inv; [exact Hs|exact Hl|exact aex_reach1].
Qed.
Lemma auser_step s : AInv s -> astep ex_abuild ex_aimg s (AUser (acp (do_auser s)) 8200) (do_auser s).
Proof.
  intros HI. apply as_user.
  - destruct (av_wf _ HI) as [Hr Hm]. split; [|exact Hm]. intros r. cbn [do_auser acp aregs aset].
    destruct (areg_eqb r (X 19)); [unfold W; lia|apply Hr].
  - exact (av_room _ HI).
  - intros g r _ _ x _. reflexivity.
Qed.
Lemma aex_user : astep ex_abuild ex_aimg aex2 (AUser (acp aex3) 8200) aex3.
Proof. exact (auser_step aex2 aex_inv2). Qed.
Lemma aex_switch2 : astep ex_abuild ex_aimg aex3 (ASwitch 50000 9003) aex4.
Proof.
  unfold aex4, do_aswitch. destruct (acall _ _ _ _ _ _ _) as [t c] eqn:E.
  apply as_switch; [vm_compute; discriminate|vm_compute; discriminate|unfold W; lia|exact E].
Qed.
(** a complete case: the new fiber runs, changes registers, and the main fiber is resumed *)
Theorem C78_example : asizes_ok ex_abuild /\ alabels_ok ex_aimg /\ athread_ok 50000 100000 200000 ex_acpu /\
  astep ex_abuild ex_aimg aex0 (ACreate 300000 8192 9001) aex1 /\ astep ex_abuild ex_aimg aex1 (ASwitch 300000 9002) aex2 /\
  astep ex_abuild ex_aimg aex2 (AUser (acp aex3) 8200) aex3 /\ astep ex_abuild ex_aimg aex3 (ASwitch 50000 9003) aex4 /\
  apc aex2 = 8192 /\ aregs (acp aex2) SP = 308448 /\ aregs (acp aex2) (X 30) = 4112 /\ aregs (acp aex3) (X 19) = 5 /\
  apc aex4 = 9002 /\ aself aex4 = 50000 /\ map (aregs (acp aex4)) acallee_saved = map (aregs ex_acpu) acallee_saved.
Proof.
  destruct aex_sizes as [Hs Hl]. split; [exact Hs|]. split; [exact Hl|]. split; [exact ex_athread|]. split; [exact aex_create|].
  split; [exact aex_switch1|]. split; [exact aex_user|]. split; [exact aex_switch2|]. repeat split; vm_compute; reflexivity.
Qed.
(** "a resumed fiber has the floating point control it left" is wrong on arm64: the main fiber is resumed with the rounding mode that the other
    fiber set (x86-64 saves MXCSR and the x87 control word: C75_resume) *)
Theorem C78_fpcr_refuted : exists b im s1 g ra s2 l s3 ra' s4, asizes_ok b /\ alabels_ok im /\ areachable b im s1 /\
  astep b im s1 (ASwitch g ra) s2 /\ asteps b im s2 l s3 /\ aleft_alone (aself s1) l /\ astep b im s3 (ASwitch (aself s1) ra') s4 /\
  fpcr (acp s1) = 0 /\ fpcr (acp s4) = 2 ^ 22.
Proof.
  destruct aex_sizes as [Hs Hl].
  exists ex_abuild, ex_aimg, aex1, 300000, 9002, aex2, [AUser (acp aex3) 8200], aex3, 9003, aex4.
  split; [exact Hs|]. split; [exact Hl|]. split; [exact aex_reach1|]. split; [exact aex_switch1|].
  split; [econstructor; [exact aex_user|constructor]|]. split.
  { split; [intros ra [Hx | []]; discriminate Hx|intros [Hx | []]; discriminate Hx]. }
  split; [exact aex_switch2|]. split; vm_compute; reflexivity.
Qed.
