(** Properties C28, C29: the selector's lists, its count, and the idle timeout.  Model: SelListModel.v *)
From Verif Require Import SelListModel SelListProof.
Local Open Scope Z_scope.

(** objects that are in no list yet *)
Definition fresh_objs (objs : positive -> obj) : Prop := forall x, linked (objs x) = false.
(** include/kselector.h:150-152 kselector_can_close; [root] is selector->block.rb_node *)
Definition can_close (closed : bool) (s : sel) (root : option positive) : bool :=
  closed && bool_decide (count s = 0) && bool_decide (root = None).

(** C29.  After any history of list operations, flag changes, clock updates and timeout/ready turns: no
    assertion failed, nobody is in two lists or twice in one, the link field says exactly who is in a list,
    and count is the number of listed objects. *)
Theorem C29_bookkeeping T objs t s : fresh_objs objs -> reachable (step T) (sel_init objs t) s ->
  (forall i, NoDup (lst s i)) /\ (forall i j x, x ∈ lst s i -> x ∈ lst s j -> i = j) /\
  (forall x, linked (ob s x) = true <-> exists i, (i <= 2)%nat /\ x ∈ lst s i) /\
  count s = Z.of_nat (length (lst s 0%nat) + length (lst s 1%nat) + length (lst s 2%nat)).
Proof.
  intros HF HR. destruct (reach_inv (step T) I _ (I_init objs t HF) (I_step T) s HR) as [W C].
  split_and!; [apply W|apply W| |exact C]. intros x. rewrite (wf_lk _ W). split; intros [i Hi].
  - exists i. split; [by eapply wf_le|done]. - exists i. apply Hi.
Qed.
Print Assumptions C29_bookkeeping.
Theorem C29_no_assertion T objs t : fresh_objs objs -> safe (step T) (sel_init objs t).
Proof. intros HF. eapply safe_inv; [by apply I_init|apply I_step|apply I_safe]. Qed.
Print Assumptions C29_no_assertion.
(** the count can never hide a pending object *)
Theorem C29_can_close T objs t s closed root : fresh_objs objs -> reachable (step T) (sel_init objs t) s ->
  can_close closed s root = true <-> closed = true /\ (forall x, linked (ob s x) = false) /\ root = None.
Proof.
  intros HF HR. destruct (C29_bookkeeping T objs t s HF HR) as (_ & _ & HL & HC). unfold can_close.
  rewrite !andb_true_iff, !bool_decide_eq_true. split.
  - intros [[? Hc] ?]. split_and!; [done| |done]. intros x. apply not_true_is_false. intros [i [Hi Hx]]%HL.
    rewrite Hc in HC. assert (length (lst s i) = 0)%nat.
    { assert (i = 0 \/ i = 1 \/ i = 2)%nat as [-> | [-> | ->]] by lia; lia. }
    destruct (lst s i); [set_solver|done].
  - intros (? & Hl & ?). split_and!; [done| |done]. rewrite HC.
    assert (HE : forall i, (i <= 2)%nat -> length (lst s i) = 0%nat).
    { intros i Hi. destruct (lst s i) as [|x l] eqn:E; [done|]. assert (linked (ob s x) = true); [|by rewrite Hl in *].
      apply HL. exists i. split; [done|]. rewrite E. set_solver. }
    rewrite !HE by lia. done.
Qed.
Print Assumptions C29_can_close.

(** effect of each call on a state that any history can reach: exactly x moves *)
Theorem C29_add T objs t s x i s' o : fresh_objs objs -> reachable (step T) (sel_init objs t) s ->
  step T s (EAdd x i) = Ok s' o ->
  (exists l, lst s' i = l ++ [x]) /\ (forall y j, y <> x -> y ∈ lst s' j <-> y ∈ lst s j) /\
  (i <> READY -> act (ob s' x) = now s).
Proof.
  intros HF HR HS. destruct (reach_inv (step T) I _ (I_init objs t HF) (I_step T) s HR) as [W C].
  cbn in HS. case_decide as Hi; [|done]. injection HS as <- _. unfold READY in Hi.
  destruct (add_list_eq s x i W ltac:(lia)) as (_ & _ & _ & HL & _ & HX & _). split_and!.
  - exists (filter (λ y, y <> x) (lst s i)). rewrite HL. by rewrite decide_True.
  - intros y j Hy. rewrite HL. destruct (decide (j = i)) as [->|]; rewrite ?elem_of_app, (filter_ne_in x y); set_solver.
  - intros Hr. rewrite HX. cbn. by rewrite decide_False.
Qed.
Print Assumptions C29_add.
Theorem C29_remove T objs t s x s' o : fresh_objs objs -> reachable (step T) (sel_init objs t) s ->
  step T s (ERemove x) = Ok s' o ->
  (forall j, x ∉ lst s' j) /\ (forall y j, y <> x -> y ∈ lst s' j <-> y ∈ lst s j).
Proof.
  intros HF HR HS. destruct (reach_inv (step T) I _ (I_init objs t HF) (I_step T) s HR) as [W C].
  cbn in HS. destruct (remove_list s x) as [s1|] eqn:E; [|done]. injection HS as <- _. unfold remove_list in E.
  destruct (linked (ob s x)) eqn:El.
  - case_decide; [|done]. injection E as <-. cbn. setoid_rewrite filter_ne_in. naive_solver.
  - injection E as <-. split; [|done]. intros j Hj. assert (linked (ob s x) = true) by (apply (wf_lk _ W); eauto). congruence.
Qed.
Print Assumptions C29_remove.

(** C28, never early.  [elapsed] is the clock without compensated backward jumps, [listed_el] its value when the object
    was last listed, [tmo_at] the object's extra rounds then.  A connection shut down (or given its read
    timeout) by a turn of the scan has been listed for at least (tmo+1)*T (resp. T). *)
Theorem C28_not_early T objs t s i s' x : (forall i, 0 < T i) -> fresh_objs objs -> reachable (step T) (sel_init objs t) s ->
  step T s (ETimeout i) = Ok s' (OShutdown x) \/ step T s (ETimeout i) = Ok s' (OReadTimeout x) ->
  x ∈ lst s i /\ (Z.of_nat (tmo_at (ob s x)) + 1) * T i <= elapsed s - listed_el (ob s x).
Proof.
  intros HT HF HR HS.
  assert (HIJ : I s /\ J T s).
  { refine (reach_inv (step T) (λ s, I s /\ J T s) _ _ _ s HR).
    - split; [by apply I_init|]. intros k y _ Hy. set_solver.
    - intros s0 e s1 o [HI HJ] Hst. split; [by eapply I_step|by eapply J_step]. }
  destruct HIJ as [[W C] HJ].
  assert (exists o, step T s (ETimeout i) = Ok s' o /\ (o = OShutdown x \/ o = OReadTimeout x)) as (o & HS' & Ho) by naive_solver.
  cbn in HS'. case_decide as Hi; [|done]. unfold RW in Hi.
  destruct (timeout_cases T s i s' o W Hi HS') as [[_ [[_ ->]|(?&?&?&?&->)]]|(y & l & El & Ht & _ & _ & _ & _ & _ & HC)]; [by destruct Ho..|].
  assert (y = x) as ->.
  { destruct HC as [(n & _ & -> & _)|[(_ & _ & _ & -> & _)|(_ & _ & -> & _)]]; destruct Ho; congruence. }
  assert (Hx : x ∈ lst s i) by (rewrite El; set_solver). split; [done|]. destruct (HJ i x Hi Hx) as [J1 J2].
  destruct HC as [(n & _ & -> & _)|[(En & _)|(En & _)]]; [by destruct Ho|rewrite En in J2; lia|rewrite En in J2; lia].
Qed.
Print Assumptions C28_not_early.

(** C28, never missed.  A schedule whose clock goes back only over a second boundary (the case the code compensates)
    brings the selector to s; then a timeout pass with any callbacks terminates, and afterwards nobody
    in the connect and read/write lists has been idle for T or longer; each connection overdue at the start of the
    scan of its list that no callback touches gets exactly the treatment its state asks for: another round,
    the read callback with the timeout code, or the shutdown. *)
Fixpoint legal_run (T : nat -> Z) (s : sel) (es : list op) : Prop :=
  match es with [] => True | e :: es => legal s e /\ match step T s e with Ok s _ => legal_run T s es | _ => True end end.
Lemma legal_K T es : forall s s' os, (forall i, 0 < T i) -> I s -> K s -> legal_run T s es -> run (step T) s es = Ok s' os -> I s' /\ K s'.
Proof.
  induction es as [|e es IH]; intros s s' os HT HI HK HL HR; cbn in HR, HL; [by simplify_eq|]. destruct HL as [He HL].
  destruct (step T s e) as [| |s1 o] eqn:E; try done. destruct (run (step T) s1 es) as [| |s2 os2] eqn:ER; try done. injection HR as <- <-.
  eapply IH; [done|by eapply I_step|by eapply K_step|done|done].
Qed.
Theorem C28_not_missed T objs t es s os cb : (forall i, 0 < T i) -> fresh_objs objs ->
  run (step T) (sel_init objs t) es = Ok s os -> legal_run T (sel_init objs t) es ->
  (forall x, Forall (λ e, is_cb_op e = true) (cb x)) ->
  idle_pass T cb s <> Crash /\
  forall s' outs, idle_pass T cb s = Ok s' outs ->
    now s' = now s /\
    (forall i x, (i <= 1)%nat -> x ∈ lst s' i -> now s' - act (ob s' x) < T i) /\
    (forall i x, (i <= 1)%nat -> x ∈ lst s i -> T i <= now s - act (ob s x) ->
       (forall z, Forall (λ e, op_obj e <> Some x) (cb z)) ->
       (match tmo_left (ob s x) with S _ => ORearm x
        | O => if rto (ob s x) && rdp (ob s x) then OReadTimeout x else OShutdown x end) ∈ outs).
Proof.
  intros HT HF HR HL Hcb.
  assert (HK0 : K (sel_init objs t)). { intros i _. cbn. split; constructor. }
  destruct (legal_K T es _ _ _ HT (I_init objs t HF) HK0 HL HR) as [HI HK].
  assert (Hlen : forall s i, (length (ovl T s i) < S (length (lst s i)))%nat).
  { intros s0 i. unfold ovl. pose proof (filter_length (λ x, T i <= now s0 - act (ob s0 x)) (lst s0 i)). lia. }
  unfold idle_pass.
  pose proof (scan_ok T (S (length (lst s CONNECT))) s cb CONNECT HT HI HK ltac:(unfold CONNECT; lia) Hcb (Hlen _ _)) as H1.
  destruct (scan T (S (length (lst s CONNECT))) cb s CONNECT) as [| |s1 o1]; [done|done|].
  destruct H1 as (I1 & K1 & E1 & N1 & S1 & F1).
  pose proof (scan_ok T (S (length (lst s1 RW))) s1 cb RW HT I1 K1 ltac:(unfold RW; lia) Hcb (Hlen _ _)) as H2.
  destruct (scan T (S (length (lst s1 RW))) cb s1 RW) as [| |s2 o2]; [done|done|].
  destruct H2 as (I2 & K2 & E2 & N2 & S2 & F2). split; [done|]. intros s' outs [= <- <-].
  assert (Hno : forall i x, (i <= 1)%nat -> x ∉ ovl T s2 i).
  { intros i x Hi Hx. assert (i = 0 \/ i = 1)%nat as [-> | ->] by lia.
    - apply S2 in Hx; [|lia]. unfold CONNECT in E1. rewrite E1 in Hx. by apply elem_of_nil in Hx.
    - unfold RW in E2. rewrite E2 in Hx. by apply elem_of_nil in Hx. }
  split_and!; [congruence| |].
  - intros i x Hi Hx. destruct (decide (now s2 - act (ob s2 x) < T i)) as [|Hn]; [done|].
    destruct (Hno i x Hi). apply in_ovl. split; [done|lia].
  - intros i x Hi Hx Ho Hcx. assert (Hov : x ∈ ovl T s i) by (by apply in_ovl). change (outcome (ob s x) x ∈ o1 ++ o2).
    apply elem_of_app. assert (i = 0 \/ i = 1)%nat as [-> | ->] by lia.
    + left. by apply F1.
    + right. destruct HI as [W _]. destruct (F1 x Hcx) as [_ [G1 G2]].
      { intros Hc. apply in_ovl in Hc as [Hc _]. pose proof (wf_one _ W _ _ _ Hc Hx). done. }
      rewrite <- G1. apply F2; [done|]. apply in_ovl. split; [by apply G2|]. rewrite G1. unfold RW. lia.
Qed.
Print Assumptions C28_not_missed.
(** and a read timeout leaves the connection in its list *)
Theorem C28_read_timeout_stays T objs t s i s' x : fresh_objs objs -> reachable (step T) (sel_init objs t) s ->
  step T s (ETimeout i) = Ok s' (OReadTimeout x) -> x ∈ lst s' i /\ act (ob s' x) = now s /\ rdp (ob s' x) = true /\ count s' = count s.
Proof.
  intros HF HR HS. destruct (reach_inv (step T) I _ (I_init objs t HF) (I_step T) s HR) as [W C].
  cbn in HS. case_decide as Hi; [|done]. unfold RW in Hi.
  destruct (timeout_cases T s i s' _ W Hi HS) as [[_ [[_ ?]|(?&?&?&?&?)]]|(y & l & El & Ht & _ & _ & _ & _ & _ & HC)]; [done..|].
  destruct HC as [(n & _ & ? & _)|[(_ & Hr & Hd & Eo & Hl & EX & Hc)|(_ & _ & ? & _)]]; [done| |done].
  injection Eo as <-. rewrite Hl, EX. cbn. split_and!; [set_solver|done|done|done].
Qed.
Print Assumptions C28_read_timeout_stays.

(** C27 for idle stamps: a compensated backward jump leaves every listed connection's idle time as it was. *)
Theorem C27_idle_stamps T objs t0 s t s' o : fresh_objs objs -> reachable (step T) (sel_init objs t0) s ->
  t / 1000 < now s / 1000 -> step T s (ETime t) = Ok s' o ->
  forall i x, (i <= 1)%nat -> x ∈ lst s i -> x ∈ lst s' i /\ now s' - act (ob s' x) = now s - act (ob s x).
Proof.
  intros HF HR Ht HS i x Hi Hx. cbn in HS. unfold update_time in HS. rewrite decide_True in HS by done. injection HS as <- _.
  cbn. split; [done|]. rewrite decide_True; [cbn; lia|]. assert (i = 0 \/ i = 1)%nat as [-> | ->] by lia; [by left|by right].
Qed.
Print Assumptions C27_idle_stamps.

(** ** Examples *)
Definition T60 (i : nat) : Z := 60000.
Definition idle_objs (x : positive) : obj := mko 0 0 0 false false false 0 0.
(** 1 and 2 are listed; 2 asks for one extra round, 3 for a read timeout with a callback that re-lists 1; 60 s later
    the pass shuts 1 down, re-arms 2, gives 3 its read timeout; 4, listed later, stays. *)
Definition demo_ops : list op :=
  [EAdd 1 RW; ETmo 2 1; EAdd 2 RW; EFlags 3 true true; EAdd 3 CONNECT; ETime 101000; EAdd 4 RW; EFiber 9; ETime 160500].
Definition demo_cb (x : positive) : list op := if decide (x = 3%positive) then [ERemove 2] else [].
Example C28_demo :
  match run (step T60) (sel_init idle_objs 100000) demo_ops with
  | Ok s _ => (lst s RW, lst s CONNECT, lst s READY, count s) = ([1; 2; 4]%positive, [3]%positive, [9]%positive, 5) /\
    match idle_pass T60 (λ _, []) s with Ok s' os => os = [OReadTimeout 3; OShutdown 1; ORearm 2] /\ (lst s' RW, lst s' CONNECT, count s') = ([4; 2]%positive, [3]%positive, 4) | _ => False end /\
    match idle_pass T60 demo_cb s with Ok s' os => os = [OReadTimeout 3; OShutdown 1] /\ (lst s' RW, count s') = ([4]%positive, 3) | _ => False end
  | _ => False end.
Proof. vm_compute. repeat split; reflexivity. Qed.
Example C28_demo_legal : legal_run T60 (sel_init idle_objs 100000) demo_ops /\ fresh_objs idle_objs /\ (forall i, 0 < T60 i).
Proof.
  split; [|split; [by intros x|by intros i]]. vm_compute. repeat first [exact Logic.I | left; discriminate | split].
Qed.

(** The limit of C28: a backward step inside one second is not compensated; the list is then no longer ordered by
    activity and an overdue connection behind a fresher-looking head is missed by the pass. *)
Theorem C28_same_second_refuted :
  exists es s os s' outs, run (step T60) (sel_init idle_objs 100900) es = Ok s os /\
    idle_pass T60 (λ _, []) s = Ok s' outs /\ outs = [] /\
    2%positive ∈ lst s' RW /\ T60 RW <= now s' - act (ob s' 2%positive).
Proof.
  eexists [EAdd 1 RW; ETime 100100; EAdd 2 RW; ETime 160200], _, _, _, _. split; [vm_compute; reflexivity|].
  split; [vm_compute; reflexivity|]. vm_compute. split; [done|]. split; [set_solver|done].
Qed.
Print Assumptions C28_same_second_refuted.
