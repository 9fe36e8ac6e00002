(** Proofs about the context switch of fibers: memory lemmas, symbolic execution of jump_fcontext, make_fcontext and the trampoline, and the
    invariant of all schedules. *)
From Coq Require Import ZArith Lia Bool List.
From Verif Require Import FctxModel.
Import ListNotations.
Local Open Scope Z_scope.

Lemma W_pos : 0 < W. Proof. reflexivity. Qed.
Lemma wrap_id v : 0 <= v < W -> wrap v = v. Proof. apply Z.mod_small. Qed.
Lemma wrap_range v : 0 <= wrap v < W. Proof. apply Z.mod_pos_bound. reflexivity. Qed.

(** * Memory *)
Lemma store_out n : forall a v m x, 0 <= a -> a + Z.of_nat n <= W -> (x < a \/ a + Z.of_nat n <= x) -> store n a v m x = m x.
Proof.
  induction n as [|n IH]; intros a v m x H0 H1 H; [reflexivity|]. cbn [store].
  rewrite IH by lia. rewrite wrap_id by lia. destruct (Z.eqb_spec x a); [lia|reflexivity].
Qed.
Lemma load_ext n : forall a m m', 0 <= a -> a + Z.of_nat n <= W -> (forall x, a <= x < a + Z.of_nat n -> m x = m' x) -> load n a m = load n a m'.
Proof.
  induction n as [|n IH]; intros a m m' H0 H1 H; [reflexivity|]. cbn [load].
  rewrite wrap_id by lia. rewrite (H a) by lia. rewrite (IH (a + 1) m m'); [reflexivity|lia|lia|]. intros x Hx. apply H. lia.
Qed.
Lemma load_store n : forall a v m, 0 <= a -> a + Z.of_nat n <= W -> load n a (store n a v m) = v mod 256 ^ Z.of_nat n.
Proof.
  induction n as [|n IH]; intros a v m H0 H1.
  - cbn. rewrite Z.mod_1_r. reflexivity.
  - cbn [load store]. rewrite IH by lia. rewrite wrap_id by lia. rewrite store_out by lia. rewrite Z.eqb_refl.
    rewrite Nat2Z.inj_succ, Z.pow_succ_r by lia.
    rewrite (Z.rem_mul_r v 256 (256 ^ Z.of_nat n)) by (try apply Z.pow_pos_nonneg; lia). reflexivity.
Qed.
Lemma load_range n : forall a m, (forall x, 0 <= m x < 256) -> 0 <= load n a m < 256 ^ Z.of_nat n.
Proof.
  induction n as [|n IH]; intros a m H; [cbn; lia|]. cbn [load]. rewrite Nat2Z.inj_succ, Z.pow_succ_r by lia.
  specialize (IH (a + 1) m H). specialize (H (wrap a)). nia.
Qed.
Lemma store_range n : forall a v m, (forall x, 0 <= m x < 256) -> forall x, 0 <= store n a v m x < 256.
Proof.
  induction n as [|n IH]; intros a v m H x; [apply H|]. cbn [store]. apply IH. intros y.
  destruct (y =? wrap a); [apply Z.mod_pos_bound; lia|apply H].
Qed.
Lemma load_store8 a v m : 0 <= a -> a + 8 <= W -> 0 <= v < W -> load 8 a (store 8 a v m) = v.
Proof. intros. rewrite load_store by lia. apply Z.mod_small. exact H1. Qed.
Lemma load_store4 a v m : 0 <= a -> a + 4 <= W -> 0 <= v < 2 ^ 32 -> load 4 a (store 4 a v m) = v.
Proof. intros. rewrite load_store by lia. apply Z.mod_small. exact H1. Qed.
Lemma load_store2 a v m : 0 <= a -> a + 2 <= W -> 0 <= v < 2 ^ 16 -> load 2 a (store 2 a v m) = v.
Proof. intros. rewrite load_store by lia. apply Z.mod_small. exact H1. Qed.
Lemma load_over n k a a' v m : 0 <= a -> a + Z.of_nat n <= W -> 0 <= a' -> a' + Z.of_nat k <= W ->
  (a + Z.of_nat n <= a' \/ a' + Z.of_nat k <= a) -> load n a (store k a' v m) = load n a m.
Proof. intros. apply load_ext; [lia|lia|]. intros x Hx. apply store_out; lia. Qed.

Definition plain (b : build) : Prop := tsx b = false /\ tlsguard b = false /\ shstk b = false /\ 0 < sizeof_fiber b /\ 0 <= redzone b.

(** the frame jump_fcontext writes *)
Definition saved (f : Z) (s : cpu) (m : Z -> Z) : Z -> Z :=
  store 8 (f + 56) (regs s RBP) (store 8 (f + 48) (regs s RBX) (store 8 (f + 40) (regs s R15) (store 8 (f + 32) (regs s R14)
    (store 8 (f + 24) (regs s R13) (store 8 (f + 16) (regs s R12) (store 2 (f + 4) (fcw s) (store 4 f (mxcsr s) m))))))).
Lemma saved_out f s m x : 0 <= f -> f + 64 <= W -> (x < f \/ f + 64 <= x) -> saved f s m x = m x.
Proof. intros. unfold saved. rewrite !store_out by lia. reflexivity. Qed.

Ltac wr := repeat match goal with |- context [wrap ?e] => rewrite (wrap_id e) by lia end.

Ltac sym := lazy beta iota zeta delta [exec one setr setm regs mem mxcsr fcw guard ssp reg_eqb reg_no Nat.eqb ea push addr_of].
Lemma jump_exec b im s f t : plain b -> wf s -> f = regs s RSP - 64 -> 0 <= f -> f + 72 <= W -> t = regs s RDI -> 0 <= t -> t + 72 < W ->
  exists c, exec im (jump_fcontext b) s = (Goto (load 8 (t + 64) (saved f s (mem s))), c) /\
    mem c = saved f s (mem s) /\
    regs c RSP = t + 72 /\ regs c RAX = f /\ regs c RDI = f /\ regs c RDX = regs s RSI /\ regs c RSI = regs s RSI /\
    regs c RBX = load 8 (t + 48) (mem c) /\ regs c RBP = load 8 (t + 56) (mem c) /\ regs c R12 = load 8 (t + 16) (mem c) /\
    regs c R13 = load 8 (t + 24) (mem c) /\ regs c R14 = load 8 (t + 32) (mem c) /\ regs c R15 = load 8 (t + 40) (mem c) /\
    mxcsr c = load 4 t (mem c) /\ fcw c = load 2 (t + 4) (mem c) /\
    (forall r, In r [RCX; R9; R10; R11] -> regs c r = regs s r) /\ regs c R8 = load 8 (t + 64) (mem c).
Proof.
  intros (Ht & Hg & Hs & _) (Hr & _) Hf H0 H1 Htt H2 H3.
  unfold jump_fcontext, jump_save, jump_ssp, jump_restore. rewrite Ht, Hg, Hs. cbn [app].
  unfold saved. destruct s as [rg m mx cw g ss]. cbn [regs mem mxcsr fcw] in *.
  sym. replace (rg RSP + -64) with f by lia. rewrite <- Htt. rewrite !(wrap_id f) by lia.
  rewrite ?Z.add_0_r. rewrite !(wrap_id f), !(wrap_id t) by lia. wr.
  eexists. split; [reflexivity|]. sym.
  repeat split; try reflexivity.
  intros r Hin. repeat (destruct Hin as [<- | Hin]; [reflexivity|]). destruct Hin.
Qed.

Lemma land16 top : 0 <= top < W -> Z.land top (wrap (-16)) = top - top mod 16.
Proof.
  intros H. change (wrap (-16)) with (Z.shiftl (Z.ones 60) 4).
  replace (top - top mod 16) with (Z.shiftl (Z.shiftr top 4) 4).
  2:{ rewrite Z.shiftl_mul_pow2, Z.shiftr_div_pow2 by lia. change (2 ^ 4) with 16. pose proof (Z.div_mod top 16). lia. }
  apply Z.bits_inj'. intros i Hi. rewrite Z.land_spec, !Z.shiftl_spec by lia.
  destruct (Z.ltb_spec i 4).
  - rewrite !(Z.testbit_neg_r _ (i - 4)) by lia. apply andb_false_r.
  - rewrite Z.shiftr_spec by lia. replace (i - 4 + 4) with i by lia.
    rewrite Z.testbit_ones by lia. destruct (Z.ltb_spec (i - 4) 60).
    + destruct (Z.leb_spec 0 (i - 4)); [apply andb_true_r|lia].
    + rewrite andb_false_r, andb_false_r. symmetry. destruct (Z.eq_dec top 0) as [-> | Hn]; [apply Z.bits_0|].
      apply Z.bits_above_log2; [lia|]. assert (Z.log2 top < 64); [|lia]. apply Z.log2_lt_pow2; [lia|]. apply H.
Qed.

(** the frame make_fcontext writes *)
Definition made (im : image) (f fn : Z) (mx cw : Z) (m : Z -> Z) : Z -> Z :=
  store 8 (f + 56) (i_finish im) (store 8 (f + 64) (i_tramp im) (store 2 (f + 4) cw (store 4 f mx (store 8 (f + 48) fn m)))).
Lemma made_out im f fn mx cw m x : 0 <= f -> f + 72 <= W -> (x < f \/ f + 72 <= x) -> made im f fn mx cw m x = m x.
Proof. intros. unfold made. rewrite !store_out by lia. reflexivity. Qed.
Lemma make_exec b im s f : plain b -> wf s -> f = regs s RDI - regs s RDI mod 16 - 72 -> 0 <= f ->
  exists c, exec im (make_fcontext b) s = (Goto (load 8 (regs s RSP) (made im f (regs s RDX) (mxcsr s) (fcw s) (mem s))), c) /\
    mem c = made im f (regs s RDX) (mxcsr s) (fcw s) (mem s) /\ regs c RAX = f /\ regs c RSP = wrap (regs s RSP + 8) /\
    (forall r, In r [RBX; RBP; R12; R13; R14; R15; RDX; RSI; RDI; R8; R9; R10; R11] -> regs c r = regs s r) /\ regs c RCX = i_finish im /\
    mxcsr c = mxcsr s /\ fcw c = fcw s.
Proof.
  intros (Ht & Hg & Hs & _) (Hr & _) Hf H0. unfold make_fcontext. rewrite Hg, Hs. cbn [app]. unfold made.
  pose proof (Hr RDI) as Hdi. pose proof (Z.mod_pos_bound (regs s RDI) 16).
  pose proof (land16 _ Hdi) as Hl. destruct s as [rg m mx cw g ss]. cbn [regs mem mxcsr fcw] in *.
  sym. rewrite Hl. replace (rg RDI - rg RDI mod 16 + -72) with f by lia. rewrite !(wrap_id f) by lia.
  rewrite ?Z.add_0_r. rewrite !(wrap_id f) by lia. wr.
  eexists. split; [reflexivity|]. sym. repeat split; try reflexivity.
  intros r Hin. repeat (destruct Hin as [<- | Hin]; [reflexivity|]). destruct Hin.
Qed.
Lemma tramp_exec b im s : plain b ->
  exec im (trampoline b) s = (Goto (regs s RBX), push (regs s RBP) s).
Proof. intros (Ht & Hg & Hs & _). unfold trampoline. rewrite Hs. destruct s. reflexivity. Qed.
Lemma finish_exec im s : exists c, exec im finish s = (Exited 0, c).
Proof. destruct s. eexists. sym. cbn [exec finish one]. sym. rewrite Z.lxor_nilpotent. reflexivity. Qed.

Lemma snap_at_ext m m' a : 0 <= a -> a + 72 <= W -> (forall x, a <= x < a + 72 -> m x = m' x) -> snap_at m a = snap_at m' a.
Proof.
  intros H0 H1 H. unfold snap_at. f_equal; apply load_ext; try lia; intros x Hx; apply H; lia.
Qed.
Lemma saved_snap f s m ra : 0 <= f -> f + 72 <= W -> wf s ->
  snap_at (saved f s (store 8 (f + 64) ra m)) f =
  mksnap (f + 72) (ra mod W) (regs s RBX) (regs s RBP) (regs s R12) (regs s R13) (regs s R14) (regs s R15) (mxcsr s) (fcw s).
Proof.
  intros H0 H1 (Hr & _ & Hm & Hc). unfold snap_at, saved.
  f_equal; repeat (rewrite load_over by lia); try (apply load_store8; try lia; apply Hr); [ |apply load_store4; lia|apply load_store2; lia].
  rewrite load_store by lia. reflexivity.
Qed.
Lemma setr_range r v s : wf s -> 0 <= v < W -> wf (setr r v s).
Proof. intros (Hr & Hm & H) Hv. split; [|split; [exact Hm|exact H]]. intros x. cbn. destruct (reg_eqb x r); [exact Hv|apply Hr]. Qed.
Lemma push_wf v s : wf s -> wf (push v s).
Proof.
  intros (Hr & Hm & H). unfold push. apply setr_range; [|apply wrap_range]. split; [exact Hr|]. split; [|exact H].
  apply store_range. exact Hm.
Qed.

(** a call of jump_fcontext: what the processor has after it *)
Record jumped (c0 c : cpu) (from tgt ra : Z) : Prop := {
  j_sp : regs c RSP = tgt + 72;
  j_save : k_rbx (snap_at (mem c0) tgt) = regs c RBX /\ k_rbp (snap_at (mem c0) tgt) = regs c RBP /\
           k_r12 (snap_at (mem c0) tgt) = regs c R12 /\ k_r13 (snap_at (mem c0) tgt) = regs c R13 /\
           k_r14 (snap_at (mem c0) tgt) = regs c R14 /\ k_r15 (snap_at (mem c0) tgt) = regs c R15;
  j_ctl : k_mx (snap_at (mem c0) tgt) = mxcsr c /\ k_cw (snap_at (mem c0) tgt) = fcw c;
  j_ret : regs c RAX = regs c0 RSP - 72 /\ regs c RDX = from;
  j_arg : regs c RDI = regs c0 RSP - 72 /\ regs c RSI = from;
  j_frame : snap_at (mem c) (regs c0 RSP - 72) = snap_of c0 ra;
  j_mem : forall x, x < regs c0 RSP - 72 \/ regs c0 RSP <= x -> mem c x = mem c0 x;
  j_wf : wf c }.
Lemma jump_call b im c0 from tgt ra : plain b -> wf c0 -> 0 <= from < W -> 0 <= ra < W -> 72 <= regs c0 RSP -> 0 <= tgt -> tgt + 72 < W ->
  apart (regs c0 RSP - 72) (regs c0 RSP) tgt (tgt + 72) ->
  exists c, call im (jump_fcontext b) tgt from (regs c0 RDX) ra c0 = (Goto (k_ra (snap_at (mem c0) tgt)), c) /\ jumped c0 c from tgt ra.
Proof.
  intros Hp Hw Hfr Hra Hsp Ht0 Ht1 Hap. unfold call.
  set (s := push ra (setr RDI tgt (setr RSI from (setr RDX (regs c0 RDX) c0)))).
  assert (Hws : wf s).
  { apply push_wf. repeat apply setr_range; try lia; [exact Hw|]. apply Hw. }
  set (f := regs c0 RSP - 72). pose proof (proj1 Hw RSP) as Hr.
  assert (Es : regs s RSP = f + 64) by (unfold s; cbn; unfold f; rewrite wrap_id by lia; lia).
  destruct (jump_exec b im s f tgt Hp Hws) as (c & E & Em & R1 & R2 & R3 & R4 & R5 & R6 & R7 & R8' & R9' & R10' & R11' & R12' & R13' & R14' & R15');
    [lia|lia|lia|reflexivity|lia|lia|].
  assert (Ems : mem s = store 8 (f + 64) ra (mem c0)).
  { unfold s. cbn -[store]. replace (regs c0 RSP - 8) with (f + 64) by lia. rewrite wrap_id by lia. reflexivity. }
  assert (Hout : forall x, x < f \/ f + 72 <= x -> mem c x = mem c0 x).
  { intros x Hx. rewrite Em, saved_out by lia. rewrite Ems. apply store_out; lia. }
  assert (Ek : snap_at (mem c) tgt = snap_at (mem c0) tgt).
  { apply snap_at_ext; [lia|lia|]. intros x Hx. apply Hout. unfold apart in Hap. lia. }
  exists c. split.
  - rewrite E, <- Em. do 3 f_equal. change (load 8 (tgt + 64) (mem c)) with (k_ra (snap_at (mem c) tgt)). rewrite Ek. reflexivity.
  - constructor; try rewrite <- Ek.
    + exact R1.
    + cbn [snap_at k_rbx k_rbp k_r12 k_r13 k_r14 k_r15]. rewrite R6, R7, R8', R9', R10', R11'. repeat split.
    + cbn [snap_at k_mx k_cw]. rewrite R12', R13'. split; reflexivity.
    + split; [exact R2|]. rewrite R4. reflexivity.
    + split; [exact R3|]. rewrite R5. reflexivity.
    + rewrite Em, Ems, saved_snap by (try lia; exact Hws). unfold snap_of. rewrite Z.mod_small by exact Hra. unfold f. f_equal; try reflexivity. lia.
    + intros x Hx. apply Hout. unfold f. lia.
    + assert (Hm : forall a, 0 <= mem c a < 256).
      { intros a. rewrite Em. unfold saved. do 8 apply store_range. exact (proj1 (proj2 Hws)). }
      split; [|split; [exact Hm|]].
      * pose proof (fun a => load_range 8 a (mem c) Hm) as L8. change (256 ^ Z.of_nat 8) with W in L8.
        intros r. destruct r; rewrite ?R1, ?R2, ?R3, ?R4, ?R5, ?R6, ?R7, ?R8', ?R9', ?R10', ?R11', ?R15';
          try apply L8; try lia; try (rewrite R14' by (cbn; tauto); apply Hws).
        -- apply (proj1 Hws RSI).
        -- apply (proj1 Hws RSI).
      * rewrite R12', R13'. split; [apply (load_range 4); exact Hm|apply (load_range 2); exact Hm].
Qed.

(** a call of make_fcontext *)
Lemma make_call b im c0 top size fn ra : plain b -> wf c0 -> 0 <= ra < W -> 8 <= regs c0 RSP -> 88 <= top < W -> 0 <= fn < W -> 0 <= size < W ->
  0 <= i_finish im < W -> 0 <= i_tramp im < W ->
  apart (regs c0 RSP - 8) (regs c0 RSP) (top - top mod 16 - 72) (top - top mod 16) ->
  exists c, call im (make_fcontext b) top size fn ra c0 = (Goto ra, c) /\
    regs c RAX = top - top mod 16 - 72 /\ (forall r, In r [RBX; RBP; RSP; R12; R13; R14; R15] -> regs c r = regs c0 r) /\
    mxcsr c = mxcsr c0 /\ fcw c = fcw c0 /\ wf c /\
    (forall x, (x < regs c0 RSP - 8 \/ regs c0 RSP <= x) -> (x < top - top mod 16 - 72 \/ top - top mod 16 <= x) -> mem c x = mem c0 x) /\
    let k := snap_at (mem c) (top - top mod 16 - 72) in
    k_ra k = i_tramp im /\ k_rbx k = fn /\ k_rbp k = i_finish im /\ k_mx k = mxcsr c0 /\ k_cw k = fcw c0.
Proof.
  intros Hp Hw Hra Hsp Ht Hfn Hsz Hfi Htr Hap. unfold call.
  set (s := push ra (setr RDI top (setr RSI size (setr RDX fn c0)))).
  assert (Hws : wf s) by (apply push_wf; repeat apply setr_range; try lia; exact Hw).
  pose proof (Z.mod_pos_bound top 16 ltac:(lia)) as Hm16.
  set (f := top - top mod 16 - 72) in *. replace (top - top mod 16) with (f + 72) in * by lia.
  pose proof (proj1 Hw RSP) as Hr.
  destruct (make_exec b im s f Hp Hws) as (c & E & Em & R1 & R2 & R3 & R4 & R5 & R6); [unfold f, s; reflexivity|lia|].
  assert (Es : regs s RSP = regs c0 RSP - 8) by (unfold s; cbn; apply wrap_id; lia).
  assert (Ems : mem s = store 8 (regs c0 RSP - 8) ra (mem c0)).
  { unfold s. cbn -[store]. rewrite wrap_id by lia. reflexivity. }
  change (regs s RDX) with fn in *. change (mxcsr s) with (mxcsr c0) in *. change (fcw s) with (fcw c0) in *.
  exists c. split.
  - rewrite E. do 2 f_equal. rewrite Es, Ems. unfold made, apart in *. repeat (rewrite load_over by lia). apply load_store8; lia.
  - split; [exact R1|]. split.
    { intros r Hin. repeat (destruct Hin as [<- | Hin]; [try (apply R3; cbn; tauto)|]); [|destruct Hin].
      rewrite R2, Es. replace (regs c0 RSP - 8 + 8) with (regs c0 RSP) by lia. apply wrap_id, Hw. }
    split; [exact R5|]. split; [exact R6|]. split.
    { split; [|split].
      - intros r. destruct r; try (rewrite R3 by (cbn; tauto); apply Hws); [lia|lia|rewrite R2; apply wrap_range].
      - intros a. rewrite Em. unfold made. do 5 apply store_range. exact (proj1 (proj2 Hws)).
      - rewrite R5, R6. apply Hw. }
    split.
    { intros x Hx Hx'. rewrite Em, made_out by lia. rewrite Ems. apply store_out; lia. }
    cbv zeta. rewrite Em. unfold snap_at, made. cbn [k_ra k_rbx k_rbp k_mx k_cw].
    destruct Hw as (_ & _ & Hmx & Hcw).
    repeat split; repeat (rewrite load_over by lia);
      first [apply load_store8; lia | apply load_store4; lia | apply load_store2; lia].
Qed.

(** * The invariant *)
Definition img_ok (im : image) : Prop := 0 <= i_tramp im < W /\ 0 <= i_finish im < W /\ 0 <= i_start im < W.
(** a fiber that is not running: its frame is at its context and holds what it had; a new fiber will be entered through the trampoline *)
Record asleep (im : image) (s : sys) (g lo hi : Z) : Prop := {
  a_ctx : ctx s g = k_sp (kept s g) - 72;
  a_in : lo + 72 <= k_sp (kept s g) <= hi;
  a_frame : snap_at (mem (cp s)) (ctx s g) = kept s g;
  a_new : k_ra (kept s g) = i_tramp im -> k_rbx (kept s g) = i_start im /\ k_rbp (kept s g) = i_finish im /\ lo + 80 <= k_sp (kept s g) }.
Record Inv (im : image) (s : sys) : Prop := {
  v_wf : wf (cp s);
  v_room : room (stk s (self s)) (cp s);
  v_in : forall g lo hi, stk s g = Some (lo, hi) -> 0 <= g < W /\ 0 < lo /\ hi < W;
  v_apart : forall g h lo hi lo' hi', stk s g = Some (lo, hi) -> stk s h = Some (lo', hi') -> g <> h -> apart lo hi lo' hi';
  v_sleep : forall g lo hi, stk s g = Some (lo, hi) -> g <> self s -> asleep im s g lo hi }.

Lemma room_some s c : room s c -> exists lo hi, s = Some (lo, hi) /\ lo + 72 <= regs c RSP <= hi.
Proof. destruct s as [[lo hi]|]; [|intros []]. intros H. exists lo, hi. split; [reflexivity|exact H]. Qed.
Lemma upd_eq {A} (f : Z -> A) k v : upd f k v k = v. Proof. unfold upd. rewrite Z.eqb_refl. reflexivity. Qed.
Lemma upd_ne {A} (f : Z -> A) k v x : x <> k -> upd f k v x = f x.
Proof. intros H. unfold upd. destruct (Z.eqb_spec x k); [contradiction|reflexivity]. Qed.

Lemma inv_start im m lo hi c a : wf c -> 0 <= m < W -> 0 < lo -> hi < W -> lo + 72 <= regs c RSP <= hi -> Inv im (start_state m lo hi c a).
Proof.
  intros Hw Hm Hlo Hhi Hr. constructor; cbn [start_state cp stk self].
  - exact Hw.
  - rewrite upd_eq. exact Hr.
  - intros g lo' hi' Hg. destruct (Z.eq_dec g m) as [-> | Hn]; [|rewrite upd_ne in Hg by exact Hn; discriminate].
    rewrite upd_eq in Hg. injection Hg as <- <-. repeat split; lia.
  - intros g h l1 h1 l2 h2 Hg Hh Hn.
    destruct (Z.eq_dec g m) as [-> | Hg']; [|rewrite upd_ne in Hg by exact Hg'; discriminate].
    rewrite upd_ne in Hh by congruence. discriminate.
  - intros g l h Hg Hn. rewrite upd_ne in Hg by exact Hn. discriminate.
Qed.

Lemma stk_bytes_pos b size : 0 <= size -> 4096 <= stk_bytes b size.
Proof.
  intros H. unfold stk_bytes. pose proof (Z.quot_pos size 4096 H ltac:(lia)) as Hq.
  destruct (Z.eqb_spec (Z.quot size 4096 * 4096) 0); destruct (debug b); lia.
Qed.

Ltac pairs H := pose proof (f_equal fst H); pose proof (f_equal snd H); clear H; cbn [fst snd] in *.
Ltac pairs3 H := pose proof (f_equal (fun p => fst (fst p)) H); pose proof (f_equal (fun p => snd (fst p)) H); pose proof (f_equal snd H);
  clear H; cbn [fst snd] in *.
(** what a switch to g does, from any state of the invariant *)
Record switched (b : build) (im : image) (s : sys) (g ra : Z) (s' : sys) : Prop := {
  w_self : self s' = g;
  w_stk : stk s' = stk s;
  w_ctx_from : ctx s' (self s) = regs (cp s) RSP - 72;
  w_ctx : forall h, h <> self s -> ctx s' h = ctx s h;
  w_mem : forall x, (x < regs (cp s) RSP - 72 \/ regs (cp s) RSP <= x) ->
            (k_ra (kept s g) = i_tramp im -> x < k_sp (kept s g) - 8 \/ k_sp (kept s g) <= x) -> mem (cp s') x = mem (cp s) x;
  w_frame : snap_at (mem (cp s')) (regs (cp s) RSP - 72) = snap_of (cp s) ra;
  w_regs : regs (cp s') RBX = k_rbx (kept s g) /\ regs (cp s') RBP = k_rbp (kept s g) /\ regs (cp s') R12 = k_r12 (kept s g) /\
           regs (cp s') R13 = k_r13 (kept s g) /\ regs (cp s') R14 = k_r14 (kept s g) /\ regs (cp s') R15 = k_r15 (kept s g);
  w_ctl : mxcsr (cp s') = k_mx (kept s g) /\ fcw (cp s') = k_cw (kept s g);
  w_resume : k_ra (kept s g) <> i_tramp im ->
     pc s' = k_ra (kept s g) /\ regs (cp s') RSP = k_sp (kept s g) /\ regs (cp s') RAX = ctx s' (self s) /\ regs (cp s') RDX = self s;
  w_enter : k_ra (kept s g) = i_tramp im ->
     pc s' = i_start im /\ regs (cp s') RSP = k_sp (kept s g) - 8 /\ regs (cp s') RDI = ctx s' (self s) /\ regs (cp s') RSI = self s /\
     load 8 (regs (cp s') RSP) (mem (cp s')) = i_finish im;
  w_wf : wf (cp s');
  w_kept : kept s' = upd (kept s) (self s) (snap_of (cp s) ra) }.
Lemma switch_spec b im s g ra s' : plain b -> img_ok im -> Inv im s -> step b im s (Switch g ra) s' -> switched b im s g ra s'.
Proof.
  intros Hp Him HI Hs. inversion Hs as [| |s0 g0 ra0 t c t' c' x Hne Hst Hra Hra' Hroom Hc Ha|]; subst.
  destruct (room_some _ _ Hroom) as (lo & hi & Hlh & Hsp). destruct (stk s g) as [[lo' hi']|] eqn:Hg; [clear Hst|contradiction].
  destruct (v_in _ _ HI _ _ _ Hlh) as (Hself & Hlo & Hhi). destruct (v_in _ _ HI _ _ _ Hg) as (Hgr & Hlo' & Hhi').
  destruct (v_sleep _ _ HI _ _ _ Hg Hne) as [Actx Ain Afr Anew].
  pose proof (v_apart _ _ HI _ _ _ _ _ _ Hlh Hg ltac:(congruence)) as Hap.
  destruct (jump_call b im (cp s) (self s) (ctx s g) ra Hp (v_wf _ _ HI) Hself Hra) as (c1 & E & [Jsp Jsv Jctl Jret Jarg Jfr Jmem Jwf]);
    [lia|lia|lia|unfold apart in *; lia|].
  rewrite Afr in *. rewrite E in Hc. pairs Hc. subst t c. unfold arrive in Ha.
  replace (shstk b) with false in Ha by (symmetry; apply Hp). rewrite andb_false_l, orb_false_r in Ha.
  destruct Jsv as (S1 & S2 & S3 & S4 & S5 & S6). destruct Jctl as [T1 T2]. destruct Jret as [Q1 Q2]. destruct Jarg as [Q3 Q4].
  destruct (Z.eqb_spec (k_ra (kept s g)) (i_tramp im)) as [Et | Et].
  - destruct (Anew Et) as (N1 & N2 & N3). rewrite tramp_exec in Ha by exact Hp. rewrite <- S1, N1, Z.eqb_refl in Ha.
    pairs3 Ha. subst t' c' x. rewrite <- S2, N2.
    assert (Esp : wrap (regs c1 RSP - 8) = k_sp (kept s g) - 8) by (rewrite wrap_id by lia; lia).
    set (c2 := push (i_finish im) c1). assert (Hw2 : wf c2) by (apply push_wf; exact Jwf).
    assert (Em2 : mem c2 = store 8 (k_sp (kept s g) - 8) (i_finish im) (mem c1)).
    { unfold c2. cbn -[store]. rewrite Esp. reflexivity. }
    constructor; cbn [self stk ctx cp kept pc at_pc].
    + reflexivity.
    + reflexivity.
    + change (regs c2 RSI) with (regs c1 RSI). change (regs c2 RDI) with (regs c1 RDI). rewrite Q3, Q4. apply upd_eq.
    + intros h Hh. change (regs c2 RSI) with (regs c1 RSI). rewrite Q4. apply upd_ne. exact Hh.
    + intros y Hy Hy'. specialize (Hy' Et). rewrite Em2, store_out by lia. apply Jmem. exact Hy.
    + rewrite <- Jfr. apply snap_at_ext; [lia|lia|]. intros y Hy. rewrite Em2. apply store_out; unfold apart in *; lia.
    + repeat split; symmetry; assumption.
    + split; symmetry; assumption.
    + intros Hn. contradiction.
    + intros _. split; [reflexivity|]. split; [exact Esp|]. change (regs c2 RSI) with (regs c1 RSI). change (regs c2 RDI) with (regs c1 RDI).
      rewrite Q3, Q4, upd_eq. split; [reflexivity|]. split; [reflexivity|].
      change (regs c2 RSP) with (wrap (regs c1 RSP - 8)). rewrite Esp, Em2. apply load_store8; try lia. apply Him.
    + exact Hw2.
    + reflexivity.
  - pairs3 Ha. subst t' c' x. constructor; cbn [self stk ctx cp kept pc at_pc].
    + reflexivity.
    + reflexivity.
    + rewrite Q1, Q2. apply upd_eq.
    + intros h Hh. rewrite Q2. apply upd_ne. exact Hh.
    + intros y Hy _. apply Jmem. exact Hy.
    + exact Jfr.
    + repeat split; symmetry; assumption.
    + split; symmetry; assumption.
    + intros _. split; [reflexivity|]. split; [lia|]. rewrite Q1, Q2, upd_eq. split; [|reflexivity]. reflexivity.
    + intros Hn. contradiction.
    + exact Jwf.
    + reflexivity.
Qed.

(** what kfiber_new does *)
Definition new_ctx (b : build) (p size : Z) : Z := stk_top b p size - stk_top b p size mod 16 - 72.
Record created (b : build) (im : image) (s : sys) (p size ra : Z) (s' : sys) : Prop := {
  n_self : self s' = self s;
  n_pc : pc s' = ra;
  n_regs : forall r, In r [RBX; RBP; RSP; R12; R13; R14; R15] -> regs (cp s') r = regs (cp s) r;
  n_ctl : mxcsr (cp s') = mxcsr (cp s) /\ fcw (cp s') = fcw (cp s);
  n_stk : stk s' = upd (stk s) p (Some (stk_lo b p, stk_top b p size));
  n_ctx : ctx s' = upd (ctx s) p (new_ctx b p size);
  n_kept : exists k, kept s' = upd (kept s) p k /\ snap_at (mem (cp s')) (new_ctx b p size) = k /\
     k_sp k = new_ctx b p size + 72 /\ k_ra k = i_tramp im /\ k_rbx k = i_start im /\ k_rbp k = i_finish im /\
     k_mx k = mxcsr (cp s) /\ k_cw k = fcw (cp s);
  n_mem : forall x, (x < regs (cp s) RSP - 8 \/ regs (cp s) RSP <= x) -> (x < stk_lo b p \/ stk_top b p size <= x) ->
            mem (cp s') x = mem (cp s) x;
  n_wf : wf (cp s');
  n_in : stk_lo b p + 80 <= new_ctx b p size + 72 <= stk_top b p size /\ stk_lo b p + stk_bytes b size - 15 <= new_ctx b p size + 72 /\
     0 < stk_lo b p /\ stk_top b p size < W /\ 0 <= p < W }.
Lemma create_spec b im s p size ra s' : plain b -> img_ok im -> Inv im s -> step b im s (Create p size ra) s' -> created b im s p size ra s'.
Proof.
  intros Hp Him HI Hs. inversion Hs as [|s0 p0 size0 ra0 t c Hsz Hp0 Hend Hnone Hra Hap Hc| |]; subst.
  destruct (room_some _ _ (v_room _ _ HI)) as (lo & hi & Hlh & Hsp). destruct (v_in _ _ HI _ _ _ Hlh) as (Hself & Hlo & Hhi).
  pose proof (Hap _ _ _ Hlh) as Hap'. pose proof (stk_bytes_pos b size Hsz) as Hb. pose proof Hp as (_ & _ & _ & Hsf & Hrz).
  pose proof (Z.mod_pos_bound (stk_top b p size) 16 ltac:(lia)) as Hm16. destruct Him as (Hi1 & Hi2 & Hi3).
  assert (Hin : stk_lo b p + 80 <= new_ctx b p size + 72 <= stk_top b p size /\ stk_lo b p + stk_bytes b size - 15 <= new_ctx b p size + 72 /\
     0 < stk_lo b p /\ stk_top b p size < W /\ 0 <= p < W).
  { unfold new_ctx. revert Hm16. unfold blk_end, stk_top, stk_lo in *. intros. lia. }
  destruct (make_call b im (cp s) (stk_top b p size) (stk_bytes b size) (i_start im) ra Hp (v_wf _ _ HI) Hra)
    as (c1 & E & C1 & C2 & C3 & C4 & C5 & C6 & C7);
    [lia|unfold stk_top, stk_lo in *; lia|lia|unfold blk_end in *; lia|lia|lia| |].
  { unfold apart, new_ctx, stk_top, stk_lo, blk_end in *. lia. }
  rewrite E in Hc. pairs Hc. subst t c. fold (new_ctx b p size) in *. cbv zeta in C7.
  constructor; cbn [self pc cp stk ctx kept at_pc]; rewrite ?C1; try reflexivity; try assumption.
  - split; assumption.
  - eexists. split; [reflexivity|]. split; [reflexivity|]. destruct C7 as (D1 & D2 & D3 & D4 & D5). repeat split; assumption.
  - intros x Hx Hx'. apply C6; [exact Hx|]. unfold new_ctx in *. lia.
Qed.

Lemma switch_pre b im s g ra s' : step b im s (Switch g ra) s' ->
  g <> self s /\ stk s g <> None /\ 0 <= ra < W /\ ra <> i_tramp im /\ room (stk s (self s)) (cp s).
Proof. intros Hs. inversion Hs; subst. repeat split; assumption || lia. Qed.
Lemma create_pre b im s p size ra s' : step b im s (Create p size ra) s' ->
  stk s p = None /\ (forall g lo hi, stk s g = Some (lo, hi) -> apart (stk_lo b p) (blk_end b p size) lo hi).
Proof. intros Hs. inversion Hs; subst. split; assumption. Qed.
Lemma inv_switch b im s g ra s' : plain b -> img_ok im -> Inv im s -> step b im s (Switch g ra) s' -> Inv im s'.
Proof.
  intros Hp Him HI Hs. destruct (switch_spec _ _ _ _ _ _ Hp Him HI Hs) as [W1 W2 W3 W4 W5 W6 W7 W8 W9 W10 W11 W12].
  destruct (switch_pre _ _ _ _ _ _ Hs) as (Hne & Hst & Hra & Hra' & Hroom).
  destruct (stk s g) as [[lo' hi']|] eqn:Hg; [clear Hst|contradiction].
  destruct (room_some _ _ Hroom) as (lo & hi & Hlh & Hsp). destruct (v_in _ _ HI _ _ _ Hlh) as (Hself & Hlo & Hhi).
  destruct (v_sleep _ _ HI _ _ _ Hg Hne) as [Actx Ain Afr Anew]. destruct (v_in _ _ HI _ _ _ Hg) as (Hgr & Hlo' & Hhi').
  pose proof (v_apart _ _ HI _ _ _ _ _ _ Hlh Hg ltac:(congruence)) as Hap.
  constructor.
  - exact W11.
  - rewrite W1, W2, Hg. cbn [room]. destruct (Z.eq_dec (k_ra (kept s g)) (i_tramp im)) as [Et | Et].
    + destruct (W10 Et) as (_ & -> & _). destruct (Anew Et) as (_ & _ & ?). lia.
    + destruct (W9 Et) as (_ & -> & _). lia.
  - rewrite W2. apply (v_in _ _ HI).
  - rewrite W2. apply (v_apart _ _ HI).
  - rewrite W1, W2. intros h lh hh Hh Hhn. destruct (v_in _ _ HI _ _ _ Hh) as (_ & Hh1 & Hh2).
    destruct (Z.eq_dec h (self s)) as [-> | Hhs].
    + rewrite Hlh in Hh. injection Hh as <- <-. constructor; rewrite W12, upd_eq; cbn [snap_of k_sp k_ra].
      * exact W3.
      * lia.
      * rewrite W3. exact W6.
      * intros Hx. contradiction.
    + destruct (v_sleep _ _ HI _ _ _ Hh Hhs) as [Bctx Bin Bfr Bnew].
      pose proof (v_apart _ _ HI _ _ _ _ _ _ Hlh Hh ltac:(congruence)) as Hap1.
      pose proof (v_apart _ _ HI _ _ _ _ _ _ Hg Hh ltac:(congruence)) as Hap2.
      constructor; rewrite W12, upd_ne by exact Hhs.
      * rewrite W4 by exact Hhs. exact Bctx.
      * exact Bin.
      * rewrite W4 by exact Hhs. rewrite <- Bfr. apply snap_at_ext; [lia|lia|]. intros y Hy. apply W5; unfold apart in *; [lia|].
        intros _. lia.
      * exact Bnew.
Qed.
Lemma inv_create b im s p size ra s' : plain b -> img_ok im -> Inv im s -> step b im s (Create p size ra) s' -> Inv im s'.
Proof.
  intros Hp Him HI Hs. destruct (create_spec _ _ _ _ _ _ _ Hp Him HI Hs) as [N1 N2 N3 N4 N5 N6 N7 N8 N9 N10].
  destruct (create_pre _ _ _ _ _ _ _ Hs) as (Hnone & Hap).
  destruct (room_some _ _ (v_room _ _ HI)) as (lo & hi & Hlh & Hsp). destruct (v_in _ _ HI _ _ _ Hlh) as (Hself & Hlo & Hhi).
  assert (Hps : self s <> p) by (intros Hx; rewrite Hx in Hlh; congruence).
  pose proof Hp as (_ & _ & _ & Hsf & Hrz).
  assert (Hap' : forall g lo hi, stk s g = Some (lo, hi) -> apart (stk_lo b p) (stk_top b p size) lo hi).
  { intros g l h Hg. specialize (Hap _ _ _ Hg). unfold apart, blk_end, stk_top, stk_lo in *. lia. }
  pose proof (Hap' _ _ _ Hlh) as Hap0.
  destruct N7 as (k & Kk & Kf & K1 & K2 & K3 & K4 & _).
  constructor.
  - exact N9.
  - rewrite N1, N5, upd_ne by exact Hps. rewrite Hlh. cbn [room]. rewrite N3 by (cbn; tauto). exact Hsp.
  - rewrite N5. intros g l h Hg. destruct (Z.eq_dec g p) as [-> | Hn].
    + rewrite upd_eq in Hg. injection Hg as <- <-. repeat split; lia.
    + rewrite upd_ne in Hg by exact Hn. apply (v_in _ _ HI _ _ _ Hg).
  - rewrite N5. intros g h l1 h1 l2 h2 Hg Hh Hn.
    destruct (Z.eq_dec g p) as [-> | Hgp].
    + rewrite upd_eq in Hg. injection Hg as <- <-. rewrite upd_ne in Hh by congruence. apply (Hap' _ _ _ Hh).
    + rewrite upd_ne in Hg by exact Hgp. destruct (Z.eq_dec h p) as [-> | Hhp].
      * rewrite upd_eq in Hh. injection Hh as <- <-. specialize (Hap' _ _ _ Hg). unfold apart in *. lia.
      * rewrite upd_ne in Hh by exact Hhp. apply (v_apart _ _ HI _ _ _ _ _ _ Hg Hh Hn).
  - rewrite N1, N5. intros g l h Hg Hn. destruct (Z.eq_dec g p) as [-> | Hgp].
    + rewrite upd_eq in Hg. injection Hg as <- <-. constructor; rewrite ?Kk, ?N6, ?upd_eq; [lia|lia|exact Kf|].
      intros _. repeat split; [exact K3|exact K4|lia].
    + rewrite upd_ne in Hg by exact Hgp. destruct (v_sleep _ _ HI _ _ _ Hg Hn) as [Bctx Bin Bfr Bnew].
      destruct (v_in _ _ HI _ _ _ Hg) as (_ & Hh1 & Hh2).
      constructor; rewrite ?Kk, ?N6, ?upd_ne by exact Hgp; try assumption.
      rewrite <- Bfr. specialize (Hap' _ _ _ Hg). pose proof (v_apart _ _ HI _ _ _ _ _ _ Hlh Hg ltac:(congruence)) as Hap2.
      apply snap_at_ext; [lia|lia|]. intros y Hy. apply N8; unfold apart in *; lia.
Qed.
Lemma inv_step b im s e s' : plain b -> img_ok im -> Inv im s -> step b im s e s' -> Inv im s'.
Proof.
  intros Hp Him HI Hs. destruct e as [c a|p size ra|g ra|g].
  - inversion Hs as [s0 c0 a0 Hw Hr Hm| | |]; subst. constructor; cbn [cp stk self].
    + exact Hw.
    + exact Hr.
    + apply (v_in _ _ HI).
    + apply (v_apart _ _ HI).
    + intros g l h Hg Hn. destruct (v_sleep _ _ HI _ _ _ Hg Hn) as [Bctx Bin Bfr Bnew]. destruct (v_in _ _ HI _ _ _ Hg) as (_ & Hh1 & Hh2).
      constructor; cbn [cp ctx kept]; try assumption. rewrite <- Bfr. apply snap_at_ext; [lia|lia|]. intros y Hy.
      apply (Hm g (l, h) Hg Hn). lia.
  - eapply inv_create; eassumption.
  - eapply inv_switch; eassumption.
  - inversion Hs as [| | |s0 g0 Hn]; subst. constructor; cbn [cp stk self].
    + apply (v_wf _ _ HI).
    + rewrite upd_ne by congruence. apply (v_room _ _ HI).
    + intros h l hh Hh. destruct (Z.eq_dec h g) as [-> | Hx]; [rewrite upd_eq in Hh; discriminate|].
      rewrite upd_ne in Hh by exact Hx. apply (v_in _ _ HI _ _ _ Hh).
    + intros h1 h2 l1 hh1 l2 hh2 A B Hne. destruct (Z.eq_dec h1 g) as [-> | Hx]; [rewrite upd_eq in A; discriminate|].
      destruct (Z.eq_dec h2 g) as [-> | Hy]; [rewrite upd_eq in B; discriminate|].
      rewrite upd_ne in A, B by assumption. apply (v_apart _ _ HI _ _ _ _ _ _ A B Hne).
    + intros h l hh Hh Hne. destruct (Z.eq_dec h g) as [-> | Hx]; [rewrite upd_eq in Hh; discriminate|].
      rewrite upd_ne in Hh by exact Hx. destruct (v_sleep _ _ HI _ _ _ Hh Hne) as [Bctx Bin Bfr Bnew].
      constructor; assumption.
Qed.
Lemma inv_steps b im s l s' : plain b -> img_ok im -> Inv im s -> steps b im s l s' -> Inv im s'.
Proof. intros Hp Him HI Hs. induction Hs as [s|s e s1 l s2 Hs Hss IH]; [exact HI|]. apply IH. eapply inv_step; eassumption. Qed.

(** while nobody switches to a fiber or frees it, what it had stays recorded *)
Lemma kept_step b im s e s' f : plain b -> img_ok im -> Inv im s -> step b im s e s' -> self s <> f -> stk s f <> None ->
  (forall ra, e <> Switch f ra) -> e <> Free f -> kept s' f = kept s f /\ stk s' f = stk s f /\ self s' <> f.
Proof.
  intros Hp Him HI Hs Hsf Hst He Hf. destruct e as [c a|p size ra|g ra|g].
  - inversion Hs; subst. repeat split; assumption.
  - destruct (create_spec _ _ _ _ _ _ _ Hp Him HI Hs) as [N1 N2 N3 N4 N5 N6 (k & Kk & _) N8 N9 N10].
    assert (f <> p). { inversion Hs; subst. congruence. }
    rewrite N1, N5, Kk, !upd_ne by assumption. repeat split; assumption.
  - destruct (switch_spec _ _ _ _ _ _ Hp Him HI Hs) as [W1 W2 W3 W4 W5 W6 W7 W8 W9 W10 W11 W12].
    rewrite W1, W2, W12, upd_ne by congruence. repeat split. intros ->. apply (He ra). reflexivity.
  - inversion Hs; subst. cbn. rewrite upd_ne by congruence. repeat split. assumption.
Qed.
Lemma kept_steps b im s l s' f : plain b -> img_ok im -> Inv im s -> steps b im s l s' -> self s <> f -> stk s f <> None ->
  (forall ra, ~ In (Switch f ra) l) -> ~ In (Free f) l -> kept s' f = kept s f /\ stk s' f = stk s f /\ self s' <> f.
Proof.
  intros Hp Him HI Hs. induction Hs as [s|s e s1 l s2 Hs Hss IH]; intros Hsf Hst He Hf; [repeat split; assumption|].
  destruct (kept_step _ _ _ _ _ f Hp Him HI Hs Hsf Hst) as (A & B & C).
  { intros ra ->. apply (He ra). left. reflexivity. }
  { intros ->. apply Hf. left. reflexivity. }
  destruct IH as (A' & B' & C'); try assumption.
  - eapply inv_step; eassumption.
  - congruence.
  - intros ra Hin. apply (He ra). right. exact Hin.
  - intros Hin. apply Hf. right. exact Hin.
  - repeat split; congruence.
Qed.
