(** C75: a fiber that is resumed finds itself as it left.  Theorems about every schedule of the model of FctxModel.v.

    A program is any sequence of: user code (changes registers and memory at will, but writes nothing below the stack pointer of a fiber that
    is not running and keeps its own stack pointer inside its stack), kfiber_new, switches and the release of fibers. *)
From Coq Require Import ZArith Lia Bool List.
From Verif Require Import FctxModel FctxProofs.
Import ListNotations.
Local Open Scope Z_scope.

(** * Specification *)
(** the registers a C function must preserve (System V ABI) *)
Definition callee_saved : list reg := [RBX; RBP; RSP; R12; R13; R14; R15].
(** the build of the project: none of the optional parts of the assembly *)
Definition default_build (b : build) : Prop :=
  tsx b = false /\ tlsguard b = false /\ shstk b = false /\ 0 < sizeof_fiber b /\ 0 <= redzone b.
Definition labels_ok (im : image) : Prop := 0 <= i_tramp im < W /\ 0 <= i_finish im < W /\ 0 <= i_start im < W.
(** a thread with its stack [lo, hi) *)
Definition thread_ok (m lo hi : Z) (c : cpu) : Prop := wf c /\ 0 <= m < W /\ 0 < lo /\ hi < W /\ lo + 72 <= regs c RSP <= hi.
Definition reachable (b : build) (im : image) (s : sys) : Prop :=
  exists m lo hi c a l, thread_ok m lo hi c /\ steps b im (start_state m lo hi c a) l s.
(** fiber f is neither switched to nor freed *)
Definition left_alone (f : Z) (l : list event) : Prop := (forall ra, ~ In (Switch f ra) l) /\ ~ In (Free f) l.

Lemma reach_inv b im s : default_build b -> labels_ok im -> reachable b im s -> Inv im s.
Proof.
  intros Hb Hi (m & lo & hi & c & a & l & (Hw & Hm & Hlo & Hhi & Hr) & Hs). eapply inv_steps; try eassumption. apply inv_start; assumption.
Qed.

(** * Resuming *)
(** a fiber f that switches away (to g, its call returning to ra) and is switched to again later by whatever fiber returns from its call: at
    ra, with its own callee-saved registers, stack pointer, MXCSR and x87 control word, and with the fiber that switched to it and that
    fiber's context as the result *)
Theorem C75_resume b im s1 g ra s2 l s3 ra' s4 : default_build b -> labels_ok im -> reachable b im s1 ->
  step b im s1 (Switch g ra) s2 -> steps b im s2 l s3 -> left_alone (self s1) l -> step b im s3 (Switch (self s1) ra') s4 ->
  self s4 = self s1 /\ pc s4 = ra /\ (forall r, In r callee_saved -> regs (cp s4) r = regs (cp s1) r) /\
  mxcsr (cp s4) = mxcsr (cp s1) /\ fcw (cp s4) = fcw (cp s1) /\
  regs (cp s4) RDX = self s3 /\ regs (cp s4) RAX = ctx s4 (self s3).
Proof.
  intros Hb Hi Hr H1 Hl [Hn1 Hn2] H4. pose proof (reach_inv _ _ _ Hb Hi Hr) as HI1.
  pose proof (inv_step _ _ _ _ _ Hb Hi HI1 H1) as HI2. pose proof (inv_steps _ _ _ _ _ Hb Hi HI2 Hl) as HI3.
  destruct (switch_pre _ _ _ _ _ _ H1) as (Hne & _ & _ & Hra & Hroom).
  pose proof (switch_spec _ _ _ _ _ _ Hb Hi HI1 H1) as S1. pose proof (switch_spec _ _ _ _ _ _ Hb Hi HI3 H4) as S4.
  destruct (kept_steps b im s2 l s3 (self s1) Hb Hi HI2 Hl) as (K & _ & _); try assumption.
  { rewrite (w_self _ _ _ _ _ _ S1). exact Hne. }
  { rewrite (w_stk _ _ _ _ _ _ S1). destruct (stk s1 (self s1)); [discriminate|destruct Hroom]. }
  rewrite (w_kept _ _ _ _ _ _ S1), upd_eq in K.
  assert (Hnt : k_ra (kept s3 (self s1)) <> i_tramp im) by (rewrite K; exact Hra).
  destruct (w_resume _ _ _ _ _ _ S4 Hnt) as (A & B & C & D). destruct (w_regs _ _ _ _ _ _ S4) as (R1 & R2 & R3 & R4 & R5 & R6).
  destruct (w_ctl _ _ _ _ _ _ S4) as (T1 & T2). rewrite K in *. cbn [snap_of k_ra k_sp k_rbx k_rbp k_r12 k_r13 k_r14 k_r15 k_mx k_cw] in *.
  split; [apply (w_self _ _ _ _ _ _ S4)|]. split; [exact A|]. split.
  { intros r Hin. repeat (destruct Hin as [<- | Hin]; [assumption|]). destruct Hin. }
  repeat split; assumption.
Qed.

(** * Starting *)
(** a new fiber that is switched to for the first time enters fiber_start: with the fiber that switched to it and that fiber's context as its
    argument, the floating point control words of its creator, a stack pointer aligned as the ABI asks for at the entry of a function, at most
    23 bytes below the top of its stack; and if the function returned, the process would exit with status 0 *)
Theorem C75_start b im s1 p size ra s2 l s3 ra' s4 : default_build b -> labels_ok im -> reachable b im s1 ->
  step b im s1 (Create p size ra) s2 -> steps b im s2 l s3 -> left_alone p l -> step b im s3 (Switch p ra') s4 ->
  self s4 = p /\ pc s4 = i_start im /\ regs (cp s4) RSI = self s3 /\ regs (cp s4) RDI = ctx s4 (self s3) /\
  mxcsr (cp s4) = mxcsr (cp s1) /\ fcw (cp s4) = fcw (cp s1) /\
  regs (cp s4) RSP mod 16 = 8 /\ stk_top b p size - 23 <= regs (cp s4) RSP <= stk_top b p size - 8 /\
  load 8 (regs (cp s4) RSP) (mem (cp s4)) = i_finish im.
Proof.
  intros Hb Hi Hr H1 Hl [Hn1 Hn2] H4. pose proof (reach_inv _ _ _ Hb Hi Hr) as HI1.
  pose proof (inv_step _ _ _ _ _ Hb Hi HI1 H1) as HI2. pose proof (inv_steps _ _ _ _ _ Hb Hi HI2 Hl) as HI3.
  pose proof (create_spec _ _ _ _ _ _ _ Hb Hi HI1 H1) as N. pose proof (switch_spec _ _ _ _ _ _ Hb Hi HI3 H4) as S4.
  destruct (create_pre _ _ _ _ _ _ _ H1) as (Hnone & _).
  assert (Hsp : self s1 <> p).
  { intros Hx. pose proof (v_room _ _ HI1) as Hroom. rewrite Hx, Hnone in Hroom. exact Hroom. }
  destruct (kept_steps b im s2 l s3 p Hb Hi HI2 Hl) as (K & _ & _); try assumption.
  { rewrite (n_self _ _ _ _ _ _ _ N). exact Hsp. }
  { rewrite (n_stk _ _ _ _ _ _ _ N), upd_eq. discriminate. }
  destruct (n_kept _ _ _ _ _ _ _ N) as (k & Kk & _ & K1 & K2 & K3 & K4 & K5 & K6). rewrite Kk, upd_eq in K.
  assert (Hnt : k_ra (kept s3 p) = i_tramp im) by (rewrite K; exact K2).
  destruct (w_enter _ _ _ _ _ _ S4 Hnt) as (A & B & C & D & E). destruct (w_ctl _ _ _ _ _ _ S4) as (T1 & T2). rewrite K in *.
  split; [apply (w_self _ _ _ _ _ _ S4)|]. split; [exact A|]. split; [exact D|]. split; [exact C|]. split; [congruence|]. split; [congruence|].
  rewrite K1 in B. unfold new_ctx in B. pose proof (Z.mod_pos_bound (stk_top b p size) 16 ltac:(lia)). split.
  { rewrite B. pose proof (Z.div_mod (stk_top b p size) 16 ltac:(lia)) as Hd.
    replace (stk_top b p size - stk_top b p size mod 16 - 72 + 72 - 8) with (8 + (stk_top b p size / 16 - 1) * 16) by lia.
    rewrite Z.mod_add by lia. reflexivity. }
  split; [lia|exact E].
Qed.
(** the code at the return address of the context function *)
Theorem C75_return_exits im s : exists c, exec im finish s = (Exited 0, c).
Proof. apply finish_exec. Qed.
(** kfiber_new returns to its caller with the caller's registers and control words *)
Theorem C75_create_returns b im s p size ra s' : default_build b -> labels_ok im -> reachable b im s -> step b im s (Create p size ra) s' ->
  pc s' = ra /\ self s' = self s /\ (forall r, In r callee_saved -> regs (cp s') r = regs (cp s) r) /\
  mxcsr (cp s') = mxcsr (cp s) /\ fcw (cp s') = fcw (cp s).
Proof.
  intros Hb Hi Hr H. pose proof (create_spec _ _ _ _ _ _ _ Hb Hi (reach_inv _ _ _ Hb Hi Hr) H) as N.
  split; [apply (n_pc _ _ _ _ _ _ _ N)|]. split; [apply (n_self _ _ _ _ _ _ _ N)|]. split; [apply (n_regs _ _ _ _ _ _ _ N)|].
  apply (n_ctl _ _ _ _ _ _ _ N).
Qed.

(** * Memory *)
(** in the memory of which fiber *)
Definition inside (s : sys) (g x : Z) : Prop := exists lo hi, stk s g = Some (lo, hi) /\ lo <= x < hi.
(** switching writes nothing outside the stacks of the two fibers, nothing at or above the stack pointer of the fiber that switches away and
    nothing at or above the stack pointer with which the other fiber continues (one return address when it is new) *)
Theorem C75_switch_memory b im s g ra s' : default_build b -> labels_ok im -> reachable b im s -> step b im s (Switch g ra) s' ->
  forall x, mem (cp s') x <> mem (cp s) x ->
    inside s (self s) x /\ regs (cp s) RSP - 72 <= x < regs (cp s) RSP \/
    inside s g x /\ pc s' = i_start im /\ regs (cp s') RSP <= x < regs (cp s') RSP + 8.
Proof.
  intros Hb Hi Hr H x Hx. pose proof (reach_inv _ _ _ Hb Hi Hr) as HI. pose proof (switch_spec _ _ _ _ _ _ Hb Hi HI H) as S.
  destruct (switch_pre _ _ _ _ _ _ H) as (Hne & Hst & _ & Hra & Hroom). destruct (room_some _ _ Hroom) as (lo & hi & Hlh & Hsp).
  destruct (stk s g) as [[lo' hi']|] eqn:Hg; [|contradiction]. destruct (v_sleep _ _ HI _ _ _ Hg Hne) as [Actx Ain Afr Anew].
  destruct (Z_lt_dec x (regs (cp s) RSP - 72)) as [H1 | H1]; [|destruct (Z_lt_dec x (regs (cp s) RSP)) as [H2 | H2]].
  2:{ left. split; [|lia]. exists lo, hi. split; [exact Hlh|lia]. }
  all: destruct (Z.eq_dec (k_ra (kept s g)) (i_tramp im)) as [Et | Et].
  2, 4: exfalso; apply Hx; apply (w_mem _ _ _ _ _ _ S); [lia|intros; contradiction].
  all: destruct (w_enter _ _ _ _ _ _ S Et) as (A & B & _); destruct (Anew Et) as (_ & _ & N);
    destruct (Z_lt_dec x (k_sp (kept s g) - 8)); [exfalso; apply Hx; apply (w_mem _ _ _ _ _ _ S); [lia|intros; lia]|];
    destruct (Z_lt_dec x (k_sp (kept s g))); [|exfalso; apply Hx; apply (w_mem _ _ _ _ _ _ S); [lia|intros; lia]];
    right; split; [exists lo', hi'; split; [exact Hg|lia]|split; [exact A|lia]].
Qed.
(** kfiber_new writes its return address below the caller's stack pointer and into the new block, nothing else *)
Theorem C75_create_memory b im s p size ra s' : default_build b -> labels_ok im -> reachable b im s -> step b im s (Create p size ra) s' ->
  forall x, mem (cp s') x <> mem (cp s) x ->
    regs (cp s) RSP - 8 <= x < regs (cp s) RSP \/ stk_lo b p <= x < stk_top b p size.
Proof.
  intros Hb Hi Hr H x Hx. pose proof (create_spec _ _ _ _ _ _ _ Hb Hi (reach_inv _ _ _ Hb Hi Hr) H) as N.
  destruct (Z_lt_dec x (regs (cp s) RSP - 8)); [|destruct (Z_lt_dec x (regs (cp s) RSP)); [left; lia|]].
  all: destruct (Z_lt_dec x (stk_lo b p)); [exfalso; apply Hx, (n_mem _ _ _ _ _ _ _ N); lia|];
    destruct (Z_lt_dec x (stk_top b p size)); [right; lia|exfalso; apply Hx, (n_mem _ _ _ _ _ _ _ N); lia].
Qed.
(** so what a fiber left on its stack is there when it is resumed, as far as user code did not change it: between a switch away from f and the
    next switch to f, a byte of f's stack at or above its stack pointer changes only in steps of user code *)
Definition user_changes (s : sys) (x : Z) (e : event) (s' : sys) : Prop :=
  (exists c a, e = User c a) /\ mem (cp s') x <> mem (cp s) x.
Inductive untouched (b : build) (im : image) (x : Z) : sys -> list event -> sys -> Prop :=
| u_nil s : untouched b im x s [] s
| u_cons s e s1 l s2 : step b im s e s1 -> ~ user_changes s x e s1 -> untouched b im x s1 l s2 -> untouched b im x s (e :: l) s2.
Lemma untouched_steps b im x s l s' : untouched b im x s l s' -> steps b im s l s'.
Proof. induction 1; econstructor; eassumption. Qed.
Lemma stays b im s e s' f x lo hi : default_build b -> labels_ok im -> Inv im s -> step b im s e s' -> ~ user_changes s x e s' ->
  self s <> f -> stk s f = Some (lo, hi) -> lo <= x < hi -> (forall ra, e <> Switch f ra) -> e <> Free f -> mem (cp s') x = mem (cp s) x.
Proof.
  intros Hb Hi HI Hs Hu Hf Hst Hx He Hfr. destruct (Z.eq_dec (mem (cp s') x) (mem (cp s) x)) as [E | E]; [exact E|exfalso].
  destruct (room_some _ _ (v_room _ _ HI)) as (l1 & h1 & Hl1 & Hr1). pose proof (v_apart _ _ HI _ _ _ _ _ _ Hl1 Hst Hf) as Hap.
  destruct e as [c a|p size ra|g ra|g].
  - apply Hu. split; [eexists _, _; reflexivity|exact E].
  - destruct (create_pre _ _ _ _ _ _ _ Hs) as (_ & Hap'). pose proof (Hap' _ _ _ Hst) as Hap2.
    pose proof (create_spec _ _ _ _ _ _ _ Hb Hi HI Hs) as N. destruct Hb as (_ & _ & _ & Hsf & Hrz).
    apply E, (n_mem _ _ _ _ _ _ _ N); unfold apart, blk_end, stk_top, stk_lo in *; lia.
  - destruct (switch_pre _ _ _ _ _ _ Hs) as (Hne & Hg & _). destruct (stk s g) as [[l2 h2]|] eqn:Hg'; [|contradiction].
    assert (Hgf : g <> f) by (intros ->; apply (He ra); reflexivity).
    pose proof (v_apart _ _ HI _ _ _ _ _ _ Hg' Hst Hgf) as Hap2. destruct (v_sleep _ _ HI _ _ _ Hg' Hne) as [Actx Ain Afr Anew].
    apply E, (w_mem _ _ _ _ _ _ (switch_spec _ _ _ _ _ _ Hb Hi HI Hs)); unfold apart in *; [lia|intros _; lia].
  - inversion Hs; subst. apply E. reflexivity.
Qed.
Theorem C75_stack_kept b im s1 g ra s2 l s3 ra' s4 x : default_build b -> labels_ok im -> reachable b im s1 ->
  step b im s1 (Switch g ra) s2 -> untouched b im x s2 l s3 -> left_alone (self s1) l -> step b im s3 (Switch (self s1) ra') s4 ->
  inside s1 (self s1) x -> regs (cp s1) RSP <= x -> mem (cp s4) x = mem (cp s1) x.
Proof.
  intros Hb Hi Hr H1 Hu [Hn1 Hn2] H4 (lo & hi & Hlh & Hx) Hsp. pose proof (reach_inv _ _ _ Hb Hi Hr) as HI1.
  pose proof (inv_step _ _ _ _ _ Hb Hi HI1 H1) as HI2. pose proof (inv_steps _ _ _ _ _ Hb Hi HI2 (untouched_steps _ _ _ _ _ _ Hu)) as HI3.
  destruct (switch_pre _ _ _ _ _ _ H1) as (Hne & Hst & _ & Hra & Hroom).
  pose proof (switch_spec _ _ _ _ _ _ Hb Hi HI1 H1) as S1. pose proof (switch_spec _ _ _ _ _ _ Hb Hi HI3 H4) as S4.
  assert (E2 : mem (cp s2) x = mem (cp s1) x).
  { destruct (stk s1 g) as [[l2 h2]|] eqn:Hg; [|contradiction]. destruct (v_sleep _ _ HI1 _ _ _ Hg Hne) as [Actx Ain Afr Anew].
    pose proof (v_apart _ _ HI1 _ _ _ _ _ _ Hg Hlh Hne). apply (w_mem _ _ _ _ _ _ S1); unfold apart in *; [lia|intros _; lia]. }
  assert (H2f : self s2 <> self s1) by (rewrite (w_self _ _ _ _ _ _ S1); exact Hne).
  assert (H2s : stk s2 (self s1) = Some (lo, hi)) by (rewrite (w_stk _ _ _ _ _ _ S1); exact Hlh).
  assert (K2 : kept s2 (self s1) = snap_of (cp s1) ra) by (rewrite (w_kept _ _ _ _ _ _ S1); apply upd_eq).
  assert (E3 : mem (cp s3) x = mem (cp s2) x /\ stk s3 (self s1) = Some (lo, hi) /\ self s3 <> self s1 /\ kept s3 (self s1) = kept s2 (self s1)).
  { clear H4 S4 HI3 H1 S1 E2 K2. revert Hn1 Hn2. induction Hu as [s|s e s' l s'' Hs Hnu Hu IH]; intros Hn1 Hn2; [repeat split; assumption|].
    assert (He : forall r, e <> Switch (self s1) r) by (intros r ->; apply (Hn1 r); left; reflexivity).
    assert (Hf : e <> Free (self s1)) by (intros ->; apply Hn2; left; reflexivity).
    destruct (kept_step b im s e s' (self s1) Hb Hi HI2 Hs H2f ltac:(congruence) He Hf) as (A & B & C).
    destruct IH as (P1 & P2 & P3 & P4); try assumption; try congruence.
    - eapply inv_step; eassumption.
    - intros r Hin. apply (Hn1 r). right. exact Hin.
    - intros Hin. apply Hn2. right. exact Hin.
    - split; [|repeat split; congruence]. rewrite P1. eapply stays; eassumption. }
  destruct E3 as (E3 & H3s & H3f & K3). destruct (room_some _ _ (v_room _ _ HI3)) as (l3 & h3 & Hl3 & Hr3).
  pose proof (v_apart _ _ HI3 _ _ _ _ _ _ Hl3 H3s H3f) as Hap.
  rewrite (w_mem _ _ _ _ _ _ S4); [congruence| |].
  - unfold apart in Hap. lia.
  - rewrite K3, K2. cbn [snap_of k_ra]. intros Hx'. contradiction.
Qed.

(** * Stack size *)
(** kfiber_new(start, arg, size): whole pages, 64 KB if it would be none *)
Theorem C75_stack_size b size : 0 <= size -> debug b = false ->
  stk_bytes b size mod 4096 = 0 /\ (size < 4096 -> stk_bytes b size = 65536) /\ (4096 <= size -> size - 4096 < stk_bytes b size <= size).
Proof.
  intros H Hd. unfold stk_bytes. rewrite Hd. pose proof (Z.quot_div_nonneg size 4096 H ltac:(lia)) as E. rewrite E.
  pose proof (Z.div_mod size 4096 ltac:(lia)) as Hdm. pose proof (Z.mod_pos_bound size 4096 ltac:(lia)) as Hb.
  destruct (Z.eqb_spec (size / 4096 * 4096) 0) as [H0 | H0].
  - split; [reflexivity|]. split; [reflexivity|]. intros. lia.
  - split; [apply Z.mod_mul; lia|]. split; [|lia]. intros. rewrite Z.div_small in H0 by lia. lia.
Qed.
(** "a fiber gets at least the stack it asked for" is wrong: the size is rounded down *)
Theorem C75_stack_size_refuted : exists b size, default_build b /\ debug b = false /\ 4096 <= size /\ stk_bytes b size + 4095 = size.
Proof. exists (mkbuild false false false 200 0 false), 8191. unfold default_build. repeat split; cbn; lia. Qed.
(** the context function has that stack but for at most 23 bytes: [C75_start] and *)
Theorem C75_stack_block b p size : default_build b -> 0 <= size ->
  stk_top b p size - stk_lo b p >= stk_bytes b size /\ stk_top b p size + redzone b = blk_end b p size /\ 4096 <= stk_bytes b size.
Proof.
  intros (_ & _ & _ & _ & Hr) H. pose proof (stk_bytes_pos b size H). unfold stk_top, stk_lo, blk_end. lia.
Qed.

(** * Examples *)
Definition ex_img : image := mkimg 4096 4112 4128 4144 8192.
Definition ex_build (g sh : bool) : build := mkbuild false g sh 256 0 false.
(** a thread with its stack at [100000, 200000) *)
Definition ex_cpu : cpu :=
  mkcpu (fun r => match r with RSP => 199984 | RBX => 11 | RBP => 12 | R12 => 13 | R13 => 14 | R14 => 15 | R15 => 16 | _ => 1 end) (fun _ => 0)
    8064 895 77 5000000.
Definition ex0 : sys := start_state 50000 100000 200000 ex_cpu 9000.
(** successor of a state under [Create] and [Switch] *)
Definition do_create (b : build) (im : image) (s : sys) (p size ra : Z) : sys :=
  match call im (make_fcontext b) (stk_top b p size) (stk_bytes b size) (i_start im) ra (cp s) with
  | (t, c) => mksys c (upd (ctx s) p (regs c RAX)) (self s) (at_pc t) (upd (stk s) p (Some (stk_lo b p, stk_top b p size)))
         (upd (kept s) p (snap_at (mem c) (regs c RAX)))
  end.
Definition do_switch (b : build) (im : image) (s : sys) (g ra : Z) : sys :=
  match call im (jump_fcontext b) (ctx s g) (self s) (regs (cp s) RDX) ra (cp s) with
  | (t, c) => match arrive b im t c (ctx s) with
              | (t', c', x) => mksys c' x g (at_pc t') (stk s) (upd (kept s) (self s) (snap_of (cp s) ra))
              end
  end.
(** the main fiber makes a fiber at 300000 and switches to it; it switches back *)
Definition ex1 (g sh : bool) : sys := do_create (ex_build g sh) ex_img ex0 300000 8192 9001.
Definition ex2 (g sh : bool) : sys := do_switch (ex_build g sh) ex_img (ex1 g sh) 300000 9002.
Definition ex3 (g sh : bool) : sys := do_switch (ex_build g sh) ex_img (ex2 g sh) 50000 9003.
Lemma ex_wf : wf ex_cpu.
Proof. split; [intros r; destruct r; cbn; unfold W; lia|]. repeat split; cbn; lia. Qed.
Lemma ex_create g sh : step (ex_build g sh) ex_img ex0 (Create 300000 8192 9001) (ex1 g sh).
Proof.
  unfold ex1, do_create. destruct (call _ _ _ _ _ _ _) as [t c] eqn:E. apply s_create.
  - lia.
  - lia.
  - vm_compute. discriminate.
  - reflexivity.
  - unfold W. lia.
  - intros h lo hi. cbn [ex0 start_state stk]. unfold upd. destruct (h =? 50000); [|discriminate]. intros [= <- <-].
    right. vm_compute. discriminate.
  - exact E.
Qed.
(** a complete case: the new fiber runs and the main fiber is resumed *)
Theorem C75_example : default_build (ex_build false false) /\ labels_ok ex_img /\ thread_ok 50000 100000 200000 ex_cpu /\
  step (ex_build false false) ex_img ex0 (Create 300000 8192 9001) (ex1 false false) /\
  step (ex_build false false) ex_img (ex1 false false) (Switch 300000 9002) (ex2 false false) /\
  step (ex_build false false) ex_img (ex2 false false) (Switch 50000 9003) (ex3 false false) /\
  pc (ex2 false false) = 8192 /\ regs (cp (ex2 false false)) RSP = 308440 /\ pc (ex3 false false) = 9002 /\ self (ex3 false false) = 50000 /\
  map (regs (cp (ex3 false false))) callee_saved = [11; 12; 199984; 13; 14; 15; 16].
Proof.
  split; [repeat split; cbn; lia|]. split; [repeat split; cbn; lia|].
  split; [split; [exact ex_wf|]; repeat split; cbn; lia|]. split; [exact (ex_create false false)|].
  split; [|split].
  - unfold ex2, do_switch. destruct (call _ _ _ _ _ _ _) as [t c] eqn:E. destruct (arrive _ _ _ _ _) as [[t' c'] x] eqn:E'.
    eapply s_switch; [vm_compute; discriminate|vm_compute; discriminate|unfold W; lia|vm_compute; discriminate|vm_compute; split; discriminate|exact E|exact E'].
  - unfold ex3, do_switch. destruct (call _ _ _ _ _ _ _) as [t c] eqn:E. destruct (arrive _ _ _ _ _) as [[t' c'] x] eqn:E'.
    eapply s_switch; [vm_compute; discriminate|vm_compute; discriminate|unfold W; lia|vm_compute; discriminate|vm_compute; split; discriminate|exact E|exact E'].
  - repeat split; vm_compute; reflexivity.
Qed.
(** with BOOST_CONTEXT_TLS_STACK_PROTECTOR, make_fcontext stores the stack guard at 8(%rsp) instead of 8(%rax): it overwrites the first eight
    bytes of its caller's frame, and the new fiber starts with whatever its memory held as the stack guard *)
Theorem C75_stack_protector_refuted : exists b im s p size ra s',
  tlsguard b = true /\ reachable b im s /\ step b im s (Create p size ra) s' /\
  load 8 (regs (cp s) RSP) (mem (cp s)) = 0 /\ load 8 (regs (cp s) RSP) (mem (cp s')) = guard (cp s) /\
  guard (cp (do_switch b im s' p ra)) <> guard (cp s).
Proof.
  exists (ex_build true false), ex_img, ex0, 300000, 8192, 9001, (ex1 true false). split; [reflexivity|]. split.
  { exists 50000, 100000, 200000, ex_cpu, 9000, []. split; [split; [exact ex_wf|]; repeat split; cbn; lia|constructor]. }
  split; [exact (ex_create true false)|]. repeat split; vm_compute; try reflexivity. discriminate.
Qed.
(** with BOOST_CONTEXT_SHADOW_STACK the blocks that reserve the slot of the shadow stack pointer are there twice, in make_fcontext and in
    jump_fcontext, but one slot is popped: every offset is wrong by 8, and a new fiber does not enter fiber_start *)
Theorem C75_shadow_stack_refuted : exists b im s p size ra s1 s2,
  shstk b = true /\ reachable b im s /\ step b im s (Create p size ra) s1 /\ step b im s1 (Switch p ra) s2 /\ pc s2 <> i_start im.
Proof.
  exists (ex_build false true), ex_img, ex0, 300000, 8192, 9001, (ex1 false true), (do_switch (ex_build false true) ex_img (ex1 false true) 300000 9001).
  split; [reflexivity|]. split.
  { exists 50000, 100000, 200000, ex_cpu, 9000, []. split; [split; [exact ex_wf|]; repeat split; cbn; lia|constructor]. }
  split; [exact (ex_create false true)|]. split; [|vm_compute; discriminate].
  unfold do_switch. destruct (call _ _ _ _ _ _ _) as [t c] eqn:E. destruct (arrive _ _ _ _ _) as [[t' c'] x] eqn:E'.
  eapply s_switch; [vm_compute; discriminate|vm_compute; discriminate|unfold W; lia|vm_compute; discriminate|vm_compute; split; discriminate|exact E|exact E'].
Qed.
