(** Property C51: is every fiber waiting in kfiber_mutex_lock served after finitely many unlocks?
    No: the waiters are a stack (include/kfiber_sync.h:39-56, 107-122).  Model: FmutexModel.v. *)
From Verif Require Import FmutexModel FmutexProof.
Local Open Scope Z_scope.

(** an infinite schedule from [s]: the states and the events chosen *)
Definition infinite_run (st : nat -> sys) (e : nat -> ev) : Prop :=
  forall n, exists o, step true (st n) (e n) = Ok (st (S n)) o.

(** the loop: fibers 1 and 3 pass the lock to each other *)
Definition ping (n : nat) : ev :=
  match (n mod 6)%nat with 0%nat => Lock 3 0 | 1%nat => Unlock 1 | 2%nat => Resume 3 | 3%nat => Lock 1 0 | 4%nat => Unlock 3 | _ => Resume 1 end.
Definition ping_st (n : nat) : sys :=
  match (n mod 6)%nat with
  | 0%nat => mksys (mkmx [2%positive] 2 1 1) [1%positive] []
  | 1%nat => mksys (mkmx [3; 2]%positive 3 1 1) [1%positive] []
  | 2%nat => mksys (mkmx [2%positive] 2 1 1) [] [3%positive]
  | 3%nat => mksys (mkmx [2%positive] 2 1 1) [3%positive] []
  | 4%nat => mksys (mkmx [1; 2]%positive 3 1 1) [3%positive] []
  | _ => mksys (mkmx [2%positive] 2 1 1) [] [1%positive]
  end.

(** C51 is false: with the default mutex there is a schedule in which fiber 2 starts to wait, the lock is then released and
    granted again infinitely often (every fiber but 2 always gets it), and fiber 2 waits for ever. *)
Theorem C51_starvation_refuted :
  exists s0 os st e, run (step true) (sys_init 1) [Lock 1 0; Lock 2 0] = Ok s0 os /\ st 0%nat = s0 /\ infinite_run st e
    /\ (forall n, 2%positive ∈ waiter (mx (st n)))
    /\ (forall n, exists m f, (n <= m)%nat /\ e m = Unlock f)
    /\ (forall n, exists m f, (n <= m)%nat /\ e m = Resume f).
Proof.
  exists (ping_st 0), [Some Acquired; Some MustWait], ping_st, ping.
  assert (forall n, n mod 6 < 6)%nat as Hlt by (intros; apply Nat.mod_upper_bound; lia).
  assert (forall n, S n mod 6 = if decide (n mod 6 = 5) then 0 else S (n mod 6))%nat as HS.
  { intros n. pose proof (Nat.div_mod n 6 ltac:(lia)). pose proof (Hlt n). destruct (decide _) as [E|E].
    - symmetry. apply Nat.mod_unique with (q := S (n / 6)); lia.
    - symmetry. apply Nat.mod_unique with (q := (n / 6)%nat); lia. }
  split_and!; [reflexivity|reflexivity| | | |].
  - intros n. unfold ping_st, ping. rewrite HS. pose proof (Hlt n). destruct (n mod 6)%nat as [|[|[|[|[|[|]]]]]]; try lia; cbn; eexists; reflexivity.
  - intros n. unfold ping_st. pose proof (Hlt n). destruct (n mod 6)%nat as [|[|[|[|[|[|]]]]]]; try lia; cbn; set_solver.
  - intros n. exists (6 * n + 1)%nat, 1%positive. split; [lia|]. unfold ping.
    replace ((6 * n + 1) mod 6)%nat with 1%nat; [done|]. apply Nat.mod_unique with (q := n); lia.
  - intros n. exists (6 * n + 2)%nat, 3%positive. split; [lia|]. unfold ping.
    replace ((6 * n + 2) mod 6)%nat with 2%nat; [done|]. apply Nat.mod_unique with (q := n); lia.
Qed.

(** number of waiters that will be served before [f] *)
Fixpoint ahead (f : positive) (l : list positive) : nat :=
  match l with [] => 0 | x :: l => if decide (x = f) then 0 else S (ahead f l) end.
(** unlock calls in a schedule, and lock calls in it that had to wait *)
Definition is_unlock (e : ev) : Prop := match e with Unlock _ => True | _ => False end.
#[global] Instance unlock_dec e : Decision (is_unlock e).
Proof. destruct e; apply _. Defined.
#[global] Instance ores_dec : EqDecision (option lockres).
Proof. intros x y. unfold Decision. repeat decide equality. Defined.
Definition unlocks (es : list ev) : nat := length (filter is_unlock es).
Definition waits (os : list (option lockres)) : nat := length (filter (λ o, o = Some MustWait) os).

(** True part, any mix of calls: a waiting fiber is served as soon as there have been more unlocks than fibers queued
    in front of it at the start plus fibers that started to wait since - only later waiters can delay it. *)
Theorem C51_bounded_partial asrt f : forall es s s' os, f ∈ waiter (mx s) -> run (step asrt) s es = Ok s' os ->
  (ahead f (waiter (mx s)) + waits os < unlocks es)%nat ->
  exists es1 es2 s1 os1, es = es1 ++ es2 /\ run (step asrt) s es1 = Ok s1 os1 /\ f ∈ woken s1.
Proof.
  intros es. induction es as [|e es IH]; intros s s' os Hf Hr Hlt; [cbn in Hlt; lia|].
  cbn in Hr. destruct (step asrt s e) as [| |s1 o] eqn:E; try done. destruct (run (step asrt) s1 es) as [| |s2 os2] eqn:Er; try done.
  injection Hr as <- <-.
  assert (Hk: (f ∈ waiter (mx s1) /\ (ahead f (waiter (mx s1)) + waits os2 < unlocks es)%nat) \/ f ∈ woken s1).
  { destruct e as [g mx0|g|g|g|n]; cbn in E.
    - destruct (decide (busy s g)) as [|Hb]; [done|]. destruct (lock_cs (mx s) g mx0) as [m r] eqn:El. injection E as <- <-. cbn.
      assert (Hgf: g <> f) by (intros ->; apply Hb; unfold busy; set_solver).
      unfold waits, unlocks in *. rewrite filter_cons in Hlt. rewrite (filter_cons_False _ _ es) in Hlt by (intros []).
      unfold lock_cs in El. destruct (bool_decide _ && bool_decide _); [|cbn in El; destruct (bool_decide _)]; injection El as <- <-; cbn in *.
      + rewrite decide_False in Hlt by done. left. split; [done|lia].
      + rewrite decide_False in Hlt by done. left. split; [done|lia].
      + rewrite decide_True in Hlt by done. left. rewrite decide_False by done. split; [set_solver|]. cbn in Hlt. lia.
    - destruct (decide (busy s g)) as [|Hb]; [done|]. destruct (lock2_cs (mx s) g) as [m r] eqn:El. injection E as <- <-. cbn.
      assert (Hgf: g <> f) by (intros ->; apply Hb; unfold busy; set_solver).
      unfold waits, unlocks in *. rewrite filter_cons in Hlt. rewrite (filter_cons_False _ _ es) in Hlt by (intros []).
      unfold lock2_cs in El. destruct (bool_decide _); injection El as <- <-; cbn in *.
      + rewrite decide_False in Hlt by done. left. split; [done|lia].
      + rewrite decide_True in Hlt by done. left. rewrite decide_False by done. split; [set_solver|]. cbn in Hlt. lia.
    - destruct (decide _); [|done]. unfold unlock_cs in E. destruct (asrt && _); [done|]. cbn in E.
      destruct (waiter (mx s)) as [|w ws] eqn:Ew; [set_solver|]. injection E as <- <-. cbn.
      unfold waits, unlocks in *. rewrite filter_cons in Hlt. rewrite (filter_cons_True _ _ es) in Hlt by exact I. rewrite decide_False in Hlt by done. cbn [length] in Hlt. cbn in Hlt.
      destruct (decide (w = f)) as [->|Hw]; [right; set_solver|]. left. split; [set_solver|]. lia.
    - destruct (decide _); [|done]. injection E as <- <-. left. cbn. split; [done|].
      unfold waits, unlocks in *. rewrite filter_cons in Hlt. rewrite (filter_cons_False _ _ es) in Hlt by (intros []). rewrite decide_False in Hlt by done. lia.
    - injection E as <- <-. left. cbn. split; [done|].
      unfold waits, unlocks in *. rewrite filter_cons in Hlt. rewrite (filter_cons_False _ _ es) in Hlt by (intros []). rewrite decide_False in Hlt by done. lia. }
  destruct Hk as [[Hf1 Hlt1]|Hw].
  - destruct (IH s1 s2 os2 Hf1 Er Hlt1) as (es1 & es2 & s3 & os3 & -> & H1 & H2).
    exists (e :: es1), es2, s3, (o :: os3). split_and!; [done| |done]. cbn. by rewrite E, H1.
  - exists [e], es, s1, [o]. split_and!; [done| |done]. cbn. by rewrite E.
Qed.
(** in particular: once nobody else starts to wait, at most [ahead] further unlocks pass before f is served *)
Corollary C51_quiet_partial asrt f es s s' os : f ∈ waiter (mx s) -> run (step asrt) s es = Ok s' os ->
  Forall (λ o, o <> Some MustWait) os -> (length (waiter (mx s)) <= unlocks es)%nat ->
  exists es1 es2 s1 os1, es = es1 ++ es2 /\ run (step asrt) s es1 = Ok s1 os1 /\ f ∈ woken s1.
Proof.
  intros Hf Hr Ho Hlt. eapply C51_bounded_partial; [done|done|].
  assert (waits os = 0%nat) as ->.
  { unfold waits. clear Hr. induction Ho as [|o os Hne _ IH]; [done|]. rewrite filter_cons_False by done. done. }
  assert (ahead f (waiter (mx s)) < length (waiter (mx s)))%nat; [|lia]. clear -Hf.
  induction (waiter (mx s)) as [|x l IH]; [set_solver|]. cbn. destruct (decide _); [lia|].
  apply elem_of_cons in Hf as [->|Hf]; [done|]. specialize (IH Hf). lia.
Qed.
Example C51_demo : match run (step true) (sys_init 1) [Lock 1 0; Lock 2 0; Lock 3 0; Lock 4 0] with
  | Ok s os => waiter (mx s) = [4; 3; 2]%positive /\ ahead 2 (waiter (mx s)) = 2%nat /\
      match run (step true) s [Unlock 1; Resume 4; Unlock 4; Resume 3; Unlock 3] with
      | Ok s' os' => os' = [None; None; None; None; None] /\ woken s' = [2%positive] | _ => False end
  | _ => False end.
Proof. vm_compute. split_and!; reflexivity. Qed.
