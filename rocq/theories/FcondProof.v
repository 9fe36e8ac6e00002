From Verif Require Import FcondModel.
From Coq Require Import ZifyBool ZifyNat.
Local Open Scope Z_scope.

Lemma find_woken f (l : list (positive * Z)) : match list_find (λ x, x.1 = f) l with
  | Some (_, (g, v)) => g = f /\ (f, v) ∈ l | None => f ∉ l.*1 end.
Proof.
  destruct (list_find _ l) as [[i [g v]]|] eqn:E.
  - apply list_find_Some in E as (H1 & H2 & _). cbn in H2. subst g. split; [done|]. by eapply elem_of_list_lookup_2.
  - apply list_find_None in E. rewrite Forall_forall in E. intros (x & -> & Hx)%elem_of_list_fmap. by apply (E x).
Qed.
Lemma filter_absent f (l : list (positive * Z)) : f ∉ l.*1 -> filter (λ x, x.1 <> f) l = l.
Proof.
  induction l as [|[g v] l IH]; [done|]. rewrite fmap_cons; cbn [fst]. intros H. rewrite filter_cons_True by (cbn; set_solver). f_equal. apply IH. set_solver.
Qed.
Lemma filter_once f v (l : list (positive * Z)) : NoDup l.*1 -> (f, v) ∈ l -> length l = S (length (filter (λ x, x.1 <> f) l)).
Proof.
  induction l as [|[g w] l IH]; [set_solver|]. rewrite fmap_cons; cbn [fst]. intros Hn Hin. apply NoDup_cons in Hn as [Hg Hn].
  destruct (decide (g = f)) as [->|Hne].
  - rewrite filter_cons_False by (cbn; naive_solver). cbn [length]. by rewrite filter_absent.
  - rewrite filter_cons_True by done. cbn [length]. f_equal. apply IH; [done|]. set_solver.
Qed.
Lemma filter_nodup f (l : list (positive * Z)) : NoDup l.*1 -> NoDup (filter (λ x, x.1 <> f) l).*1.
Proof.
  induction l as [|[g w] l IH]; [done|]. rewrite fmap_cons; cbn [fst]. intros [Hg Hn]%NoDup_cons. destruct (decide (g = f)) as [->|Hne].
  - rewrite filter_cons_False by (cbn; naive_solver). by apply IH.
  - rewrite filter_cons_True by done. rewrite fmap_cons; cbn [fst]. constructor; [|by apply IH]. intros (x & -> & Hx)%elem_of_list_fmap.
    apply elem_of_list_filter in Hx as [_ Hx]. apply Hg. apply elem_of_list_fmap. eauto.
Qed.
Lemma filter_sub f x (l : list (positive * Z)) : x ∈ (filter (λ x, x.1 <> f) l).*1 -> x ∈ l.*1.
Proof. intros (y & -> & [_ Hy]%elem_of_list_filter)%elem_of_list_fmap. apply elem_of_list_fmap. eauto. Qed.

(** structural invariant, both modes *)
Definition I (s : sys) : Prop :=
  NoDup (waiters s ++ (woken s).*1) /\ 0 <= ev s /\ (waiters s <> [] -> ev s = 0).
Lemma I_init r : I (sys_init r).
Proof. split_and!; cbn; try done. constructor. Qed.

Lemma perm_step (l l' : list positive) : l ≡ₚ l' -> NoDup l -> NoDup l'.
Proof. intros H. by rewrite H. Qed.

Lemma notice_fst (v : Z) (ws : list positive) : ((λ w : positive, (w, v)) <$> ws).*1 = ws.
Proof. induction ws as [|w ws IH]; cbn; [done|]. by rewrite IH. Qed.

Lemma idle_new s f : idle s f -> NoDup (waiters s ++ (woken s).*1) -> NoDup (f :: waiters s ++ (woken s).*1).
Proof. intros [H1 H2] Hn. constructor; [|done]. rewrite elem_of_app. naive_solver. Qed.

Lemma I_step auto s o s' r : I s -> step auto s o = Ok s' r -> I s'.
Proof.
  intros (Hn & He & Hw). destruct o as [v|f|f|f|f|f v]; cbn.
  - intros [= <- <-]. unfold notice. destruct auto.
    + destruct (waiters s) as [|w ws] eqn:E; unfold I; cbn.
      * split_and!; try done. lia.
      * split_and!; [|done|intros _; by apply Hw]. eapply perm_step; [|exact Hn]. solve_Permutation.
    + unfold I. cbn. split_and!; try done. rewrite fmap_app, notice_fst. done.
  - destruct (decide _) as [Hi|]; [|done]. unfold wait. destruct (bool_decide _) eqn:E; intros [= <- <-]; unfold I; cbn.
    + apply bool_decide_eq_true in E. split_and!; [done|destruct auto; lia|]. intros Hx. specialize (Hw Hx). lia.
    + apply bool_decide_eq_false in E. split_and!; [by apply idle_new|done|]. lia.
  - destruct (decide _) as [Hi|]; [|done]. unfold try_wait. destruct (bool_decide _) eqn:E; intros [= <- <-]; [|done]. unfold I; cbn.
    apply bool_decide_eq_true in E. split_and!; [done|destruct auto; lia|]. intros Hx. specialize (Hw Hx). lia.
  - destruct (decide _) as [Hi|]; [|done]. intros [= <- <-]. unfold wait_cb. destruct (bool_decide _) eqn:E; unfold I; cbn.
    + apply bool_decide_eq_true in E. split_and!; [|destruct auto; lia|intros Hx; specialize (Hw Hx); lia].
      eapply perm_step; [|by apply idle_new]. solve_Permutation.
    + apply bool_decide_eq_false in E. split_and!; [by apply idle_new|done|]. lia.
  - pose proof (find_woken f (woken s)) as Hf. destruct (list_find _ _) as [[i [g v]]|]; [|done]. intros [= <- <-]. unfold I; cbn.
    split_and!; try done. apply NoDup_app in Hn as (H1 & H2 & H3). apply NoDup_app. split_and!; [done| |by apply filter_nodup].
    intros x Hx Hx'. apply (H2 x Hx). by eapply filter_sub.
  - destruct (decide _); [|done]. intros [= <- <-]. done.
Qed.

(** auto-reset: conservation *)
Lemma auto_step s o s' r : I s -> step true s o = Ok s' r ->
  ev s' + Z.of_nat (length (woken s')) + (if is_return r then 1 else 0)
  = ev s + Z.of_nat (length (woken s)) + (if is_notice o then 1 else 0).
Proof.
  intros (Hn & He & Hw). destruct o as [v|f|f|f|f|f v]; cbn -[Z.of_nat].
  - intros [= <- <-]. unfold notice. destruct (waiters s) as [|w ws]; cbn -[Z.of_nat]; lia.
  - destruct (decide _) as [Hi|]; [|done]. unfold wait. destruct (bool_decide _) eqn:E; intros [= <- <-]; cbn -[Z.of_nat]; lia.
  - destruct (decide _) as [Hi|]; [|done]. unfold try_wait. destruct (bool_decide _) eqn:E; intros [= <- <-]; cbn -[Z.of_nat]; lia.
  - destruct (decide _) as [Hi|]; [|done]. intros [= <- <-]. unfold wait_cb. destruct (bool_decide _) eqn:E; cbn -[Z.of_nat]; lia.
  - pose proof (find_woken f (woken s)) as Hf. destruct (list_find _ _) as [[i [g v]]|]; [|done]. destruct Hf as [-> Hf].
    apply NoDup_app in Hn as (_ & _ & Hn).
    intros [= <- <-]. cbn -[Z.of_nat]. pose proof (filter_once f v (woken s) Hn Hf). lia.
  - destruct (decide _); [|done]. intros [= <- <-]. cbn -[Z.of_nat]. lia.
Qed.
Lemma notices_cons o os : Z.of_nat (notices (o :: os)) = (if is_notice o then 1 else 0) + Z.of_nat (notices os).
Proof. unfold notices. destruct (is_notice o) eqn:E; [rewrite filter_cons_True by done|rewrite filter_cons_False by (by rewrite E)]; cbn [length]; lia. Qed.
Lemma returns_cons o os : Z.of_nat (returns (o :: os)) = (if is_return o then 1 else 0) + Z.of_nat (returns os).
Proof. unfold returns. destruct (is_return o) eqn:E; [rewrite filter_cons_True by done|rewrite filter_cons_False by (by rewrite E)]; cbn [length]; lia. Qed.
Lemma auto_run os : forall s s' rs, I s -> run (step true) s os = Ok s' rs ->
  ev s' + Z.of_nat (length (woken s')) + Z.of_nat (returns rs) = ev s + Z.of_nat (length (woken s)) + Z.of_nat (notices os).
Proof.
  induction os as [|o os IH]; intros s s' rs HI; cbn [run]; [intros [= <- <-]; cbn; lia|].
  destruct (step true s o) as [| |s1 r] eqn:E1; try done. destruct (run _ s1 os) as [| |s2 rs2] eqn:E2; try done.
  intros [= <- <-]. pose proof (auto_step _ _ _ _ HI E1). pose proof (IH s1 s2 rs2 (I_step _ _ _ _ _ HI E1) E2).
  rewrite notices_cons, returns_cons. lia.
Qed.

(** manual-reset: ev is the latch *)
Lemma manual_step s o s' r : step false s o = Ok s' r ->
  (ev s' > 0 <-> ev s > 0 \/ is_notice o = true) .
Proof.
  destruct o as [v|f|f|f|f|f v]; cbn.
  - intros [= <- <-]. cbn. split; [by right|lia].
  - destruct (decide _); [|done]. unfold wait. destruct (bool_decide _); intros [= <- <-]; cbn; naive_solver.
  - destruct (decide _); [|done]. unfold try_wait. destruct (bool_decide _); intros [= <- <-]; cbn; naive_solver.
  - destruct (decide _); [|done]. intros [= <- <-]. unfold wait_cb. destruct (bool_decide _); cbn; naive_solver.
  - destruct (list_find _ _) as [[i [g v]]|]; [|done]. intros [= <- <-]. cbn. naive_solver.
  - destruct (decide _); [|done]. intros [= <- <-]. cbn. naive_solver.
Qed.
Lemma manual_run os : forall s s' rs, run (step false) s os = Ok s' rs ->
  (ev s' > 0 <-> ev s > 0 \/ (0 < notices os)%nat).
Proof.
  induction os as [|o os IH]; intros s s' rs; cbn [run]; [intros [= <- <-]; cbn; lia|].
  destruct (step false s o) as [| |s1 r] eqn:E1; try done. destruct (run _ s1 os) as [| |s2 rs2] eqn:E2; try done.
  intros [= <- <-]. pose proof (manual_step _ _ _ _ E1). pose proof (IH s1 s2 rs2 E2). pose proof (notices_cons o os).
  destruct (is_notice o); naive_solver lia.
Qed.
(** before the first notice nobody is woken *)
Lemma manual_unwoken os : forall s s' rs, ev s = 0 -> woken s = [] -> notices os = 0%nat -> run (step false) s os = Ok s' rs ->
  ev s' = 0 /\ woken s' = [] /\ returns rs = 0%nat.
Proof.
  induction os as [|o os IH]; intros s s' rs He Hw Hn; cbn [run]; [intros [= <- <-]; done|].
  pose proof (notices_cons o os) as Hc. destruct (is_notice o) eqn:Eo; [lia|].
  destruct (step false s o) as [| |s1 r] eqn:E1; try done. destruct (run _ s1 os) as [| |s2 rs2] eqn:E2; try done.
  intros [= <- <-].
  assert (ev s1 = 0 /\ woken s1 = [] /\ is_return r = false) as (H1 & H2 & H3).
  { destruct o as [v|f|f|f|f|f v]; cbn in E1; try done.
    - destruct (decide _); [|done]. unfold wait in E1. rewrite bool_decide_eq_false_2 in E1 by lia. injection E1 as <- <-. done.
    - destruct (decide _); [|done]. unfold try_wait in E1. rewrite bool_decide_eq_false_2 in E1 by lia. injection E1 as <- <-. done.
    - destruct (decide _); [|done]. unfold wait_cb in E1. rewrite bool_decide_eq_false_2 in E1 by lia. injection E1 as <- <-. done.
    - rewrite Hw in E1. done.
    - destruct (decide _); [|done]. injection E1 as <- <-. done. }
  destruct (IH s1 s2 rs2 H1 H2 ltac:(lia) E2) as (H4 & H5 & H6). split_and!; try done.
  pose proof (returns_cons r rs2). rewrite H3 in *. lia.
Qed.

(** a woken waiter keeps its value until it is resumed *)
Lemma woken_keep auto s o s' r w v : (w, v) ∈ woken s -> o <> Resume w -> step auto s o = Ok s' r -> (w, v) ∈ woken s'.
Proof.
  intros Hin Hne. destruct o as [x|f|f|f|f|f x]; cbn.
  - intros [= <- <-]. unfold notice. destruct auto; [destruct (waiters s)|]; cbn; set_solver.
  - destruct (decide _); [|done]. unfold wait. destruct (bool_decide _); intros [= <- <-]; done.
  - destruct (decide _); [|done]. unfold try_wait. destruct (bool_decide _); intros [= <- <-]; done.
  - destruct (decide _); [|done]. intros [= <- <-]. unfold wait_cb. destruct (bool_decide _); cbn; set_solver.
  - destruct (list_find _ _) as [[i [g y]]|]; [|done]. intros [= <- <-]. cbn. apply elem_of_list_filter. split; [cbn; congruence|done].
  - destruct (decide _); [|done]. intros [= <- <-]. done.
Qed.
Lemma woken_keep_run auto os w v : forall s s' rs, (w, v) ∈ woken s -> Resume w ∉ os -> run (step auto) s os = Ok s' rs -> (w, v) ∈ woken s'.
Proof.
  induction os as [|o os IH]; intros s s' rs Hin Hne; cbn [run]; [by intros [= <- <-]|].
  destruct (step auto s o) as [| |s1 r] eqn:E1; try done. destruct (run _ s1 os) as [| |s2 rs2] eqn:E2; try done.
  apply not_elem_of_cons in Hne as [Hne Hne']. intros [= <- <-]. eapply IH; [|done|done]. eapply woken_keep; [done| |done]. congruence.
Qed.
Lemma resume_value auto s w v : I s -> (w, v) ∈ woken s -> exists s', step auto s (Resume w) = Ok s' (ORet v).
Proof.
  intros (Hn & _) Hin. cbn. pose proof (find_woken w (woken s)) as Hf. destruct (list_find _ _) as [[i [g y]]|].
  - destruct Hf as [-> Hf]. apply NoDup_app in Hn as (_ & _ & Hn). assert (y = v) as ->; [|eauto].
    clear -Hn Hin Hf. induction (woken s) as [|[a b] l IH]; [set_solver|]. cbn in Hn. apply NoDup_cons in Hn as [Ha Hn].
    assert (Hx: forall c, (w, c) ∈ l -> w ∈ l.*1) by (intros c Hc; apply elem_of_list_fmap; by exists (w, c)).
    apply elem_of_cons in Hin as [Hin|Hin], Hf as [Hf|Hf]; try congruence; [| |by apply IH].
    + injection Hin as -> ->. exfalso. apply Ha. by eapply Hx.
    + injection Hf as -> ->. exfalso. apply Ha. by eapply Hx.
  - exfalso. apply Hf. apply elem_of_list_fmap. by exists (w, v).
Qed.
