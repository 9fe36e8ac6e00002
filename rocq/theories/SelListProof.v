(** Invariants of the selector lists. *)
From Verif Require Import SelListModel.
From Coq Require Import Sorting.Sorted.
Local Open Scope Z_scope.

Definition total (s : sel) : nat := length (lst s 0) + length (lst s 1) + length (lst s 2).
(** the structural part, about [lst] and [linked] only *)
Record wf (s : sel) : Prop := mkwf {
  wf_nd : forall i, NoDup (lst s i);
  wf_one : forall i j x, x ∈ lst s i -> x ∈ lst s j -> i = j;
  wf_ix : forall i, (2 < i)%nat -> lst s i = [];
  wf_lk : forall x, linked (ob s x) = true <-> exists i, x ∈ lst s i }.
Definition I (s : sel) : Prop := wf s /\ count s = Z.of_nat (total s).

Lemma filter_ne_notin (x : positive) (l : list positive) : x ∉ l -> filter (λ y, y <> x) l = l.
Proof.
  induction l as [|y l IH]; [done|]. intros [H1 H2]%not_elem_of_cons. rewrite filter_cons_True by done. by rewrite IH.
Qed.
Lemma filter_ne_len (x : positive) (l : list positive) : NoDup l -> x ∈ l -> length l = S (length (filter (λ y, y <> x) l)).
Proof.
  induction 1 as [|y l Hn ND IH]; [set_solver|]. intros [->|H]%elem_of_cons.
  - rewrite filter_cons_False by naive_solver. by rewrite filter_ne_notin.
  - rewrite filter_cons_True by naive_solver. cbn. by rewrite <- IH.
Qed.
Lemma filter_ne_in (x y : positive) (l : list positive) : y ∈ filter (λ y, y <> x) l <-> y ∈ l /\ y <> x.
Proof. rewrite elem_of_list_filter. tauto. Qed.

Lemma wf_le s i x : wf s -> x ∈ lst s i -> (i <= 2)%nat.
Proof. intros H Hx. destruct (decide (i <= 2)%nat); [done|]. rewrite (wf_ix _ H i) in Hx by lia. set_solver. Qed.

(** an object taken out of its list and marked so *)
Definition taken (s : sel) (x : positive) (s' : sel) : Prop :=
  wf s' /\ linked (ob s' x) = false /\ (forall y, y <> x -> ob s' y = ob s y) /\
  (forall j, lst s' j = filter (λ y, y <> x) (lst s j)) /\ Z.of_nat (total s') = Z.of_nat (total s) - (if linked (ob s x) then 1 else 0)
  /\ now s' = now s /\ elapsed s' = elapsed s /\ count s' = count s /\ ob s' x = w_linked false (ob s x).
Lemma take_ok s x : wf s -> taken s x (clear (unlink s x) x).
Proof.
  intros H. unfold taken. cbn. split_and!; try done.
  - constructor; cbn.
    + intros i. apply NoDup_filter, H.
    + intros i j y. rewrite !filter_ne_in. intros [? _] [? _]. by eapply (wf_one s H).
    + intros i Hi. by rewrite (wf_ix _ H i Hi).
    + intros y. destruct (decide (y = x)) as [->|Hne]; cbn.
      * split; [done|]. intros [i Hi]. apply filter_ne_in in Hi. naive_solver.
      * rewrite (wf_lk _ H). setoid_rewrite filter_ne_in. naive_solver.
  - by rewrite decide_True.
  - intros y Hy. by rewrite decide_False.
  - unfold total. cbn. destruct (linked (ob s x)) eqn:E.
    + apply (wf_lk _ H) in E as [i Hi]. pose proof (wf_le _ _ _ H Hi) as Hle.
      pose proof (filter_ne_len x _ (wf_nd _ H i) Hi) as HL.
      assert (Ho : forall j, j <> i -> filter (λ y, y <> x) (lst s j) = lst s j).
      { intros j Hj. apply filter_ne_notin. intros Hc. apply Hj. by eapply (wf_one _ H). }
      assert (i = 0 \/ i = 1 \/ i = 2)%nat as [-> | [-> | ->]] by lia.
      * rewrite (Ho 1%nat), (Ho 2%nat) by done. lia.
      * rewrite (Ho 0%nat), (Ho 2%nat) by done. lia.
      * rewrite (Ho 0%nat), (Ho 1%nat) by done. lia.
    + assert (Ho : forall j, filter (λ y, y <> x) (lst s j) = lst s j).
      { intros j. apply filter_ne_notin. intros Hc.
        assert (linked (ob s x) = true) by (apply (wf_lk _ H); eauto). congruence. }
      rewrite !Ho. lia.
  - by rewrite decide_True.
Qed.
Lemma append_wf s i x : wf s -> linked (ob s x) = false -> (i <= 2)%nat ->
  wf (append s i x) /\ total (append s i x) = S (total s).
Proof.
  intros H Hl Hi. assert (Hx : forall j, x ∉ lst s j).
  { intros j Hj. assert (linked (ob s x) = true) by (apply (wf_lk _ H); eauto). congruence. }
  split.
  - constructor; cbn.
    + intros j. case_decide; [|apply H]. subst. apply NoDup_app. split_and!; [apply H| |apply NoDup_singleton].
      intros y Hy ->%elem_of_list_singleton. by eapply Hx.
    + intros j k y. assert (forall m, y ∈ (if decide (m = i) then lst s i ++ [x] else lst s m) -> y ∈ lst s m \/ (y = x /\ m = i)) as HH.
      { intros m. case_decide; [subst|by left]. rewrite elem_of_app, elem_of_list_singleton. tauto. }
      intros [Hj|[-> ->]]%HH [Hk|[Hy Hk]]%HH; subst; [by eapply (wf_one _ H)|by destruct (Hx j)|by destruct (Hx k)|done].
    + intros j Hj. rewrite decide_False by lia. by apply (wf_ix _ H).
    + intros y. case_decide as Hy; cbn.
      * subst. split; [|done]. intros _. exists i. rewrite decide_True by done. set_solver.
      * rewrite (wf_lk _ H). split; intros [j Hj]; exists j.
        -- case_decide; [subst; set_solver|done].
        -- case_decide; [subst; set_solver|done].
  - unfold total. cbn [append lst setob setlst]. assert (i = 0 \/ i = 1 \/ i = 2)%nat as [-> | [-> | ->]] by lia; repeat case_decide; try done; rewrite app_length; cbn [length]; lia.
Qed.
(** changing fields other than [linked] *)
Lemma setob_wf s x o : wf s -> linked o = linked (ob s x) -> wf (setob s x o).
Proof.
  intros H E. constructor; cbn; [apply H|apply H|apply H|]. intros y. case_decide; subst; [rewrite E|]; apply H.
Qed.

Lemma add_list_eq s x i : wf s -> (i <= 2)%nat ->
  wf (add_list s x i) /\ Z.of_nat (total (add_list s x i)) = Z.of_nat (total s) + (if linked (ob s x) then 0 else 1) /\
  count (add_list s x i) = count s + (if linked (ob s x) then 0 else 1) /\
  (forall j, lst (add_list s x i) j = if decide (j = i) then filter (λ y, y <> x) (lst s i) ++ [x] else filter (λ y, y <> x) (lst s j)) /\
  (forall y, y <> x -> ob (add_list s x i) y = ob s y) /\
  ob (add_list s x i) x = mko (tmo (ob s x)) (tmo (ob s x)) (if decide (i = READY) then act (ob s x) else now s) true
     (rto (ob s x)) (rdp (ob s x)) (elapsed s) (tmo (ob s x)) /\
  now (add_list s x i) = now s /\ elapsed (add_list s x i) = elapsed s.
Proof.
  intros H Hi.
  set (o1 := mko (tmo (ob s x)) (tmo (ob s x)) (if decide (i = READY) then act (ob s x) else now s) (linked (ob s x))
     (rto (ob s x)) (rdp (ob s x)) (elapsed s) (tmo (ob s x))).
  set (s1 := let s := setob s x (w_list (elapsed s) (w_left (tmo (ob s x)) (ob s x))) in
             if decide (i = READY) then s else setob s x (w_act (now s) (ob s x))).
  assert (Hs1 : wf s1 /\ ob s1 x = o1 /\ (forall y, y <> x -> ob s1 y = ob s y) /\ lst s1 = lst s /\ count s1 = count s
      /\ now s1 = now s /\ elapsed s1 = elapsed s).
  { unfold s1, o1. case_decide; cbn; split_and!; try done.
    - by apply setob_wf.
    - by rewrite decide_True.
    - intros y Hy. by rewrite decide_False.
    - apply setob_wf; [by apply setob_wf|done].
    - by rewrite !decide_True.
    - intros y Hy. by rewrite !decide_False. }
  destruct Hs1 as (W1 & E1 & EO & EL & EC & EN & EE).
  assert (Etot : total s1 = total s) by (unfold total; by rewrite EL).
  assert (Eadd : add_list s x i = append (if linked (ob s1 x) then unlink s1 x else setcount s1 (count s1 + 1)) i x).
  { unfold add_list. fold s1. done. }
  rewrite Eadd. rewrite E1. cbn [linked o1]. clear Eadd. destruct (linked (ob s x)) eqn:El.
  - destruct (take_ok s1 x W1) as (W2 & L2 & O2 & F2 & T2 & N2 & EE2 & C2 & X2).
    assert (Elk : linked (ob s1 x) = true) by (rewrite E1; done). rewrite Elk in T2.
    destruct (append_wf _ i x W2 L2 Hi) as (W3 & T3).
    (* append after unlink = append after clear . unlink, since append sets linked again *)
    assert (Happ : wf (append (unlink s1 x) i x) /\ total (append (unlink s1 x) i x) = total (append (clear (unlink s1 x) x) i x)).
    { split; [|done]. destruct W3 as [A B C D]. constructor; [exact A|exact B|exact C|].
      intros y. specialize (D y). cbn in D |- *. rewrite <- D. by destruct (decide (y = x)). }
    destruct Happ as [W4 T4]. split_and!; [done| | | | | | |].
    + rewrite T4, T3. lia.
    + cbn. lia.
    + intros j. cbn. by rewrite EL.
    + intros y Hy. cbn. rewrite decide_False by done. by apply EO.
    + cbn. rewrite decide_True by done. rewrite E1. unfold o1. done.
    + done. + done.
  - assert (Elk : linked (ob s1 x) = false) by (rewrite E1; done).
    assert (W2 : wf (setcount s1 (count s1 + 1))) by (destruct W1; by constructor).
    destruct (append_wf _ i x W2 Elk Hi) as (W3 & T3). split_and!; [done| | | | | | |].
    + rewrite T3. unfold total in *. cbn in *. lia.
    + cbn. lia.
    + assert (Hx : forall j, x ∉ lst s j).
      { intros j Hj. assert (linked (ob s x) = true) by (apply (wf_lk _ H); eauto). congruence. }
      intros j. cbn. rewrite EL. case_decide; by rewrite filter_ne_notin by apply Hx.
    + intros y Hy. cbn. rewrite decide_False by done. by apply EO.
    + cbn. rewrite decide_True by done. rewrite E1. unfold o1. done.
    + done. + done.
Qed.

Lemma I_init objs t : (forall x, linked (objs x) = false) -> I (sel_init objs t).
Proof.
  intros H. split; [|done]. constructor; cbn; [intros; constructor|set_solver|done|].
  intros x. rewrite H. split; [done|]. intros [i Hi]. set_solver.
Qed.

Lemma adjust_linked s d x : linked (ob (adjust s d) x) = linked (ob s x).
Proof. cbn. by case_decide. Qed.

Section T.
Context (T : nat -> Z).

Lemma timeout_cases s i s' o : wf s -> (i <= 1)%nat -> timeout_head T s i = Ok s' o ->
  (s' = s /\ ((lst s i = [] /\ o = OEmpty) \/ (exists x l, lst s i = x :: l /\ now s - act (ob s x) < T i /\ o = OStop))) \/
  (exists x l, lst s i = x :: l /\ T i <= now s - act (ob s x) /\
    now s' = now s /\ elapsed s' = elapsed s /\ wf s' /\ (forall y, y <> x -> ob s' y = ob s y) /\
    (forall j, j <> i -> lst s' j = lst s j) /\
    (  (exists n, tmo_left (ob s x) = S n /\ o = ORearm x /\ lst s' i = l ++ [x] /\ ob s' x = w_act (now s) (w_left n (ob s x)) /\ count s' = count s)
    \/ (tmo_left (ob s x) = O /\ rto (ob s x) = true /\ rdp (ob s x) = true /\ o = OReadTimeout x /\ lst s' i = l ++ [x] /\ ob s' x = w_act (now s) (ob s x) /\ count s' = count s)
    \/ (tmo_left (ob s x) = O /\ rto (ob s x) && rdp (ob s x) = false /\ o = OShutdown x /\ lst s' i = l /\ ob s' x = w_linked false (ob s x) /\ count s' = count s - 1 /\ 0 < count s))).
Proof.
  intros H Hi. unfold timeout_head. destruct (lst s i) as [|x l] eqn:El.
  { intros [= <- <-]. left. eauto. }
  case_decide as Ht. { intros [= <- <-]. left. split; [done|]. right. eauto. }
  assert (Hx : x ∈ lst s i) by (rewrite El; set_solver).
  assert (Hlk : linked (ob s x) = true) by (apply (wf_lk _ H); eauto).
  destruct (take_ok s x H) as (W2 & L2 & O2 & F2 & T2 & N2 & E2 & C2 & X2).
  set (s1 := clear (unlink s x) x) in *.
  assert (Hfi : lst s1 i = l).
  { rewrite F2, El. rewrite filter_cons_False by naive_solver. apply filter_ne_notin.
    pose proof (wf_nd _ H i) as ND. rewrite El in ND. by apply NoDup_cons in ND as [? _]. }
  assert (Hfj : forall j, j <> i -> lst s1 j = lst s j).
  { intros j Hj. rewrite F2. apply filter_ne_notin. intros Hc. apply Hj. by eapply (wf_one _ H). }
  intros HR. right. exists x, l. split; [done|]. split; [lia|].
  assert (Etl : tmo_left (ob s1 x) = tmo_left (ob s x)) by (rewrite X2; done). rewrite Etl in HR.
  destruct (tmo_left (ob s x)) as [|n] eqn:En.
  - case_decide as Hc; [|done]. rewrite X2 in HR. cbn [rto rdp w_linked] in HR.
    destruct (rto (ob s x) && rdp (ob s x)) eqn:Ef.
    + apply andb_true_iff in Ef as [Ef1 Ef2].
      injection HR as <- <-. destruct (append_wf s1 i x W2 L2 ltac:(lia)) as (W3 & T3).
      split_and!.
      * done. * done.
      * apply setob_wf; [done|]. cbn. by rewrite decide_True.
      * intros y Hy. cbn. rewrite !decide_False by done. done.
      * intros j Hj. cbn. rewrite decide_False by done. by apply Hfj.
      * right. left. split_and!; try done.
        -- cbn. rewrite decide_True by done. change (lst s1 i ++ [x] = l ++ [x]). by rewrite Hfi.
        -- cbn. rewrite !(decide_True (P := x = x)) by done. unfold w_act, w_linked. cbn. by destruct (ob s x); cbn in *; subst.
    + injection HR as <- <-. split_and!; try done.
      * destruct W2. by constructor.
      * right. right. split_and!; done.
  - injection HR as <- <-.
    set (s2 := setob s1 x (w_act (now s1) (w_left n (ob s1 x)))).
    assert (W3 : wf s2) by (apply setob_wf; done).
    destruct (append_wf s2 i x W3) as (W4 & T4). { cbn. rewrite decide_True by done. done. } { lia. }
    split_and!; try done.
    + intros y Hy. cbn. rewrite !decide_False by done. done.
    + intros j Hj. cbn. rewrite decide_False by done. by apply Hfj.
    + left. exists n. split_and!; try done.
      * cbn. rewrite decide_True by done. change (lst s1 i ++ [x] = l ++ [x]). by rewrite Hfi.
      * cbn. rewrite !(decide_True (P := x = x)) by done. unfold w_act, w_linked, w_left. cbn. by destruct (ob s x); cbn in *; subst.
Qed.

Lemma I_step s e s' o : I s -> step T s e = Ok s' o -> I s'.
Proof.
  intros [W C] HS. destruct e as [x|x i|x|x rt rd|x n|t|i|]; cbn [step] in HS.
  - destruct (linked (ob s x)) eqn:E; [done|]. injection HS as <- _. unfold add_fiber_ready.
    assert (W2 : wf (setcount s (count s + 1))) by (destruct W; by constructor).
    destruct (append_wf _ READY x W2 E) as [W3 T3]; [unfold READY; lia|]. split; [done|].
    rewrite T3. unfold total. cbn. unfold total in C. lia.
  - case_decide as Hi; [|done]. injection HS as <- _. unfold READY in Hi. destruct (add_list_eq s x i W ltac:(lia)) as (W2 & T2 & C2 & _).
    split; [done|]. lia.
  - destruct (remove_list s x) as [s2|] eqn:E; [|done]. injection HS as <- _. unfold remove_list in E.
    destruct (linked (ob s x)) eqn:El; [|by simplify_eq].
    destruct (take_ok s x W) as (W2 & L2 & O2 & F2 & T2 & N2 & E2 & C2 & X2).
    case_decide; [|done]. injection E as <-. rewrite El in T2. split; [destruct W2; by constructor|].
    change (count s - 1 = Z.of_nat (total (clear (unlink s x) x))). lia.
  - injection HS as <- _. split; [by apply setob_wf|]. done.
  - injection HS as <- _. split; [by apply setob_wf|]. done.
  - injection HS as <- _. unfold update_time. case_decide; (split; [|done]).
    + destruct W as [W1 W2 W3 W4]. constructor; cbn; [done|done|done|]. intros y. rewrite <- W4. by case_decide.
    + destruct W. by constructor.
  - case_decide as Hi; [|done]. unfold RW in Hi. destruct (timeout_cases s i s' o W Hi HS) as [[-> _]|(x & l & El & Ht & N2 & E2 & W2 & O2 & F2 & HC)]; [done|].
    split; [done|].
    assert (Htot : (length (lst s' i) + length (lst s i) + (total s - length (lst s i)) = total s' + length (lst s i))%nat).
    { unfold total. assert (i = 0 \/ i = 1)%nat as [-> | ->] by lia;
      [rewrite (F2 1%nat), (F2 2%nat) by done|rewrite (F2 0%nat), (F2 2%nat) by done]; lia. }
    assert (Hge : (length (lst s i) <= total s)%nat).
    { unfold total. assert (i = 0 \/ i = 1)%nat as [-> | ->] by lia; lia. }
    rewrite El in Htot, Hge. destruct HC as [(n & _ & _ & Hl & _ & Hc)|[(_ & _ & _ & _ & Hl & _ & Hc)|(_ & _ & _ & Hl & _ & Hc & _)]];
      rewrite Hl in Htot; cbn in Htot; rewrite ?app_length in Htot; cbn in Htot, Hge; lia.
  - destruct (ready_head s) as [s2 o2] eqn:E. injection HS as <- _. unfold ready_head in E.
    destruct (lst s READY) as [|x l] eqn:El; [by simplify_eq|]. injection E as <- _.
    assert (Hlk : linked (ob s x) = true). { apply (wf_lk _ W). exists READY. rewrite El. set_solver. }
    destruct (take_ok s x W) as (W2 & L2 & O2 & F2 & T2 & N2 & E2 & C2 & X2). rewrite Hlk in T2.
    split; [destruct W2; by constructor|].
    change (count s - 1 = Z.of_nat (total (clear (unlink s x) x))). lia.
Qed.

Lemma total_pos s i x : wf s -> x ∈ lst s i -> (0 < total s)%nat.
Proof.
  intros H Hx. pose proof (wf_le _ _ _ H Hx). assert (0 < length (lst s i))%nat by (destruct (lst s i); [set_solver|cbn; lia]).
  unfold total. assert (i = 0 \/ i = 1 \/ i = 2)%nat as [-> | [-> | ->]] by lia; lia.
Qed.
Lemma I_safe s e : I s -> step T s e <> Crash.
Proof.
  intros [W C] HS. destruct e as [x|x i|x|x rt rd|x n|t|i|]; cbn [step] in HS; try done.
  - by destruct (linked (ob s x)).
  - by case_decide.
  - destruct (remove_list s x) as [s2|] eqn:E; [done|]. unfold remove_list in E. destruct (linked (ob s x)) eqn:El; [|done].
    case_decide as Hc; [done|]. cbn in Hc. apply (wf_lk _ W) in El as [i Hi]. pose proof (total_pos _ _ _ W Hi). lia.
  - case_decide; [|done]. unfold timeout_head in HS. destruct (lst s i) as [|x l] eqn:El; [done|].
    case_decide; [done|]. destruct (tmo_left _); [|done]. case_decide as Hc; [by destruct (_ && _)|].
    cbn in Hc. assert (Hx : x ∈ lst s i) by (rewrite El; set_solver). pose proof (total_pos _ _ _ W Hx). lia.
  - by destruct (ready_head s).
Qed.

(** ** idle time *)
Definition J (s : sel) : Prop := forall i x, (i <= 1)%nat -> x ∈ lst s i ->
  (tmo_left (ob s x) <= tmo_at (ob s x))%nat /\
  (now s - act (ob s x)) + (Z.of_nat (tmo_at (ob s x)) - Z.of_nat (tmo_left (ob s x))) * T i <= elapsed s - listed_el (ob s x).
Lemma J_step s e s' o : (forall i, 0 < T i) -> I s -> J s -> step T s e = Ok s' o -> J s'.
Proof.
  intros HT [W C] HJ HS. destruct e as [x|x i|x|x rt rd|x n|t|i|]; cbn [step] in HS.
  - destruct (linked (ob s x)) eqn:E; [done|]. injection HS as <- _.
    assert (Hx : forall j, x ∉ lst s j).
    { intros j Hj. assert (linked (ob s x) = true) by (apply (wf_lk _ W); eauto). congruence. }
    intros i y Hi Hy. cbn in *. unfold READY in *. rewrite decide_False in Hy by lia.
    case_decide; [subst; by destruct (Hx i)|]. by apply HJ.
  - case_decide as Hr; [|done]. injection HS as <- _. unfold READY in Hr.
    destruct (add_list_eq s x i W ltac:(lia)) as (W2 & T2 & C2 & HL & HO & HX & HN & HE).
    intros k y Hk Hy. rewrite HN, HE. destruct (decide (y = x)) as [->|Hne].
    + rewrite HX. cbn. assert (k = i).
      { rewrite HL in Hy. destruct (decide (k = i)); [done|]. apply filter_ne_in in Hy. naive_solver. }
      subst. rewrite decide_False by (unfold READY; lia). split; lia.
    + rewrite HO by done. apply HJ; [done|]. rewrite HL in Hy. case_decide; subst.
      * apply elem_of_app in Hy as [Hy|Hy]; [by apply filter_ne_in in Hy as [? _]|set_solver].
      * by apply filter_ne_in in Hy as [? _].
  - destruct (remove_list s x) as [s2|] eqn:E; [|done]. injection HS as <- _. unfold remove_list in E.
    destruct (linked (ob s x)) eqn:El; [|by simplify_eq]. case_decide; [|done]. injection E as <-.
    intros i y Hi Hy. cbn in Hy |- *. apply filter_ne_in in Hy as [Hy Hne]. rewrite decide_False by done. by apply HJ.
  - injection HS as <- _. intros i y Hi Hy. specialize (HJ i y Hi Hy). cbn. case_decide; subst; cbn; done.
  - injection HS as <- _. intros i y Hi Hy. specialize (HJ i y Hi Hy). cbn. case_decide; subst; cbn; done.
  - injection HS as <- _. unfold update_time. case_decide as Ht.
    + intros i y Hi Hy. cbn in Hy. specialize (HJ i y Hi Hy). cbn -[Z.mul].
      rewrite decide_True; [cbn -[Z.mul]; lia|]. assert (i = 0 \/ i = 1)%nat as [-> | ->] by lia; [by left|by right].
    + intros i y Hi Hy. cbn in Hy. specialize (HJ i y Hi Hy). cbn -[Z.mul]. lia.
  - case_decide as Hi; [|done]. unfold RW in Hi. destruct (timeout_cases s i s' o W Hi HS) as [[-> _]|(x & l & El & Ht & N2 & E2 & W2 & O2 & F2 & HC)]; [done|].
    intros k y Hk Hy. rewrite N2, E2. destruct (decide (k = i)) as [->|Hki].
    2: { rewrite F2 in Hy by done. rewrite O2; [by apply HJ|]. intros ->. apply Hki. eapply (wf_one _ W); [exact Hy|]. rewrite El. set_solver. }
    assert (Hx : x ∈ lst s i) by (rewrite El; set_solver).
    destruct (decide (y = x)) as [->|Hne].
    + destruct (HJ i x Hi Hx) as [J1 J2]. specialize (HT i).
      destruct HC as [(n & En & _ & Hl & EX & Hc)|[(En & _ & _ & _ & Hl & EX & Hc)|(En & _ & _ & Hl & _ & Hc & _)]].
      * rewrite EX. cbn -[Z.mul]. rewrite En in J1, J2. split; [lia|]. nia.
      * rewrite EX. cbn -[Z.mul]. split; [lia|]. lia.
      * rewrite Hl in Hy. pose proof (wf_nd _ W i) as ND. rewrite El in ND. by apply NoDup_cons in ND as [? _].
    + rewrite O2 by done. apply HJ; [done|]. rewrite El.
      destruct HC as [(n & En & _ & Hl & EX & Hc)|[(En & _ & _ & _ & Hl & EX & Hc)|(En & _ & _ & Hl & _ & Hc & _)]]; rewrite Hl in Hy; set_solver.
  - destruct (ready_head s) as [s2 o2] eqn:E. injection HS as <- _. unfold ready_head in E.
    destruct (lst s READY) as [|x l] eqn:El; [by simplify_eq|]. injection E as <- _.
    intros i y Hi Hy. cbn in Hy |- *. apply filter_ne_in in Hy as [Hy Hne]. rewrite decide_False by done. by apply HJ.
Qed.

(** ** the lists are sorted by activity when the clock only goes forward or jumps are compensated *)
Definition legal (s : sel) (e : op) : Prop :=
  match e with ETime t => now s <= t \/ t / 1000 < now s / 1000 | _ => True end.
Definition older (s : sel) (x y : positive) : Prop := act (ob s x) <= act (ob s y).
Definition K (s : sel) : Prop := forall i, (i <= 1)%nat ->
  StronglySorted (older s) (lst s i) /\ Forall (fun x => act (ob s x) <= now s) (lst s i).
Lemma ss_filter {A} (R : A -> A -> Prop) (P : A -> Prop) `{forall x, Decision (P x)} l :
  StronglySorted R l -> StronglySorted R (filter P l).
Proof.
  induction 1 as [|x l Hs IH HF]; [constructor|]. rewrite filter_cons. case_decide; [|done].
  constructor; [done|]. rewrite Forall_forall in HF |- *. intros y Hy. apply elem_of_list_filter in Hy. apply HF, Hy.
Qed.
Lemma ss_snoc {A} (R : A -> A -> Prop) l x : StronglySorted R l -> Forall (fun y => R y x) l -> StronglySorted R (l ++ [x]).
Proof.
  induction 1 as [|y l Hs IH HF]; cbn; [repeat constructor|]. intros [H1 H2]%Forall_cons. constructor; [by apply IH|].
  apply Forall_app. split; [done|]. by constructor.
Qed.
Lemma ss_ext {A} (R R' : A -> A -> Prop) l : (forall x y, x ∈ l -> y ∈ l -> R x y -> R' x y) -> StronglySorted R l -> StronglySorted R' l.
Proof.
  intros HE. induction 1 as [|y l Hs IH HF]; [constructor|]. constructor; [apply IH; intros; apply HE; set_solver|].
  rewrite Forall_forall in HF |- *. intros z Hz. apply HE; [set_solver|set_solver|by apply HF].
Qed.
(** lists whose objects keep their stamps *)
Lemma K_sub (s s' : sel) (l : list positive) : StronglySorted (older s) l /\ Forall (fun x => act (ob s x) <= now s) l ->
  (forall x, x ∈ l -> act (ob s' x) = act (ob s x)) -> now s <= now s' ->
  StronglySorted (older s') l /\ Forall (fun x => act (ob s' x) <= now s') l.
Proof.
  intros [H1 H2] HE HN. split.
  - eapply ss_ext; [|exact H1]. intros x y Hx Hy. unfold older. by rewrite !HE.
  - rewrite Forall_forall in H2 |- *. intros x Hx. specialize (H2 x Hx). rewrite HE by done. lia.
Qed.
Lemma K_filter s i x : K s -> (i <= 1)%nat ->
  StronglySorted (older s) (filter (λ y, y <> x) (lst s i)) /\ Forall (fun x => act (ob s x) <= now s) (filter (λ y, y <> x) (lst s i)).
Proof.
  intros HK Hi. destruct (HK i Hi) as [H1 H2]. split; [by apply ss_filter|].
  rewrite Forall_forall in H2 |- *. intros y [_ Hy]%elem_of_list_filter. by apply H2.
Qed.
Lemma K_snoc s s' l x : StronglySorted (older s) l /\ Forall (fun x => act (ob s x) <= now s) l ->
  (forall y, y ∈ l -> act (ob s' y) = act (ob s y)) -> act (ob s' x) = now s -> now s' = now s ->
  StronglySorted (older s') (l ++ [x]) /\ Forall (fun x => act (ob s' x) <= now s') (l ++ [x]).
Proof.
  intros H HE HA HN. destruct (K_sub s s' l H HE ltac:(lia)) as [H1 H2]. split.
  - apply ss_snoc; [done|]. rewrite Forall_forall in H2 |- *. intros y Hy. specialize (H2 y Hy). unfold older. lia.
  - apply Forall_app. split; [done|]. constructor; [lia|done].
Qed.
Lemma K_step s e s' o : (forall i, 0 < T i) -> I s -> K s -> legal s e -> step T s e = Ok s' o -> K s'.
Proof.
  intros HT [W C] HK HL HS. destruct e as [x|x i|x|x rt rd|x n|t|i|]; cbn [step] in HS.
  - destruct (linked (ob s x)) eqn:E; [done|]. injection HS as <- _. intros i Hi.
    assert (EL : lst (add_fiber_ready s x) i = lst s i) by (cbn; unfold READY; by rewrite decide_False by lia). rewrite EL.
    eapply (K_sub s); [by apply HK| |done]. intros y Hy. cbn. by case_decide; subst.
  - case_decide as Hr; [|done]. injection HS as <- _. unfold READY in Hr.
    destruct (add_list_eq s x i W ltac:(lia)) as (W2 & T2 & C2 & HLs & HO & HX & HN & HE).
    intros k Hk. rewrite HLs. destruct (decide (k = i)) as [Hki|Hki].
    + subst. eapply (K_snoc s); [by apply K_filter| |rewrite HX; cbn; by rewrite decide_False by (unfold READY; lia)|done].
      intros y [Hy Hne]%filter_ne_in. by rewrite HO.
    + eapply (K_sub s); [by apply K_filter| |rewrite HN; lia]. intros y [Hy Hne]%filter_ne_in. by rewrite HO.
  - destruct (remove_list s x) as [s2|] eqn:E; [|done]. injection HS as <- _. unfold remove_list in E.
    destruct (linked (ob s x)) eqn:El; [|by simplify_eq]. case_decide; [|done]. injection E as <-.
    intros i Hi. change (lst _ i) with (filter (λ y, y <> x) (lst s i)). eapply (K_sub s); [by apply K_filter| |done]. intros y [Hy Hne]%filter_ne_in. cbn. by rewrite decide_False.
  - injection HS as <- _. intros i Hi. change (lst _ i) with (lst s i). eapply (K_sub s); [by apply HK| |done]. intros y Hy. cbn. by case_decide; subst.
  - injection HS as <- _. intros i Hi. change (lst _ i) with (lst s i). eapply (K_sub s); [by apply HK| |done]. intros y Hy. cbn. by case_decide; subst.
  - injection HS as <- _. unfold update_time. case_decide as Ht; cbn in HL.
    + intros i Hi. cbn. destruct (HK i Hi) as [H1 H2].
      assert (HA : forall y, y ∈ lst s i -> act (ob (adjust s (t - now s)) y) = act (ob s y) + (t - now s)).
      { intros y Hy. cbn. rewrite decide_True; [done|]. assert (i = 0 \/ i = 1)%nat as [-> | ->] by lia; [by left|by right]. }
      split.
      * eapply ss_ext; [|exact H1]. intros y z Hy Hz. unfold older. pose proof (HA y Hy) as H3. pose proof (HA z Hz) as H4. cbn in *. lia.
      * rewrite Forall_forall in H2 |- *. intros y Hy. specialize (H2 y Hy). pose proof (HA y Hy) as H3. cbn in *. lia.
    + destruct HL as [HL|HL]; [|done]. intros i Hi. change (lst _ i) with (lst s i). eapply (K_sub s); [by apply HK|done|done].
  - case_decide as Hi; [|done]. unfold RW in Hi. destruct (timeout_cases s i s' o W Hi HS) as [[-> _]|(x & l & El & Ht & N2 & E2 & W2 & O2 & F2 & HC)]; [done|].
    assert (Hfl : filter (λ y, y <> x) (lst s i) = l).
    { rewrite El, filter_cons_False by naive_solver. apply filter_ne_notin.
      pose proof (wf_nd _ W i) as ND. rewrite El in ND. by apply NoDup_cons in ND as [? _]. }
    assert (Hxl : x ∉ l). { pose proof (wf_nd _ W i) as ND. rewrite El in ND. by apply NoDup_cons in ND as [? _]. }
    pose proof (K_filter s i x HK Hi) as HF. rewrite Hfl in HF.
    intros k Hk. destruct (decide (k = i)) as [->|Hki].
    + destruct HC as [(n & En & _ & Hl & EX & Hc)|[(En & _ & _ & _ & Hl & EX & Hc)|(En & _ & _ & Hl & _ & Hc & _)]]; rewrite Hl.
      * eapply (K_snoc s); [done| |by rewrite EX|done]. intros y Hy. rewrite O2; [done|]. intros ->. done.
      * eapply (K_snoc s); [done| |by rewrite EX|done]. intros y Hy. rewrite O2; [done|]. intros ->. done.
      * eapply (K_sub s); [done| |lia]. intros y Hy. rewrite O2; [done|]. intros ->. done.
    + rewrite F2 by done. eapply (K_sub s); [by apply HK| |lia]. intros y Hy. rewrite O2; [done|]. intros ->. apply Hki.
      eapply (wf_one _ W); [exact Hy|]. rewrite El. set_solver.
  - destruct (ready_head s) as [s2 o2] eqn:E. injection HS as <- _. unfold ready_head in E.
    destruct (lst s READY) as [|x l] eqn:El; [by simplify_eq|]. injection E as <- _.
    intros i Hi. change (lst _ i) with (filter (λ y, y <> x) (lst s i)). eapply (K_sub s); [by apply K_filter| |done]. intros y [Hy Hne]%filter_ne_in. cbn. by rewrite decide_False.
Qed.

(** ** the timeout pass *)
Definition ovl (s : sel) (i : nat) : list positive := filter (λ x, T i <= now s - act (ob s x)) (lst s i).
Lemma in_ovl s i x : x ∈ ovl s i <-> x ∈ lst s i /\ T i <= now s - act (ob s x).
Proof. unfold ovl. rewrite elem_of_list_filter. tauto. Qed.
Lemma ovl_nd s i : wf s -> NoDup (ovl s i).
Proof. intros H. apply NoDup_filter, H. Qed.
Lemma nodup_incl_len (l k : list positive) : NoDup l -> (forall x, x ∈ l -> x ∈ k) -> (length l <= length k)%nat.
Proof. intros. apply submseteq_length. by apply NoDup_submseteq. Qed.

Lemma cb_legal s e : is_cb_op e = true -> legal s e.
Proof. by destruct e. Qed.
Lemma cb_step s e s' o : (forall i, 0 < T i) -> I s -> is_cb_op e = true -> step T s e = Ok s' o ->
  now s' = now s /\ forall i x, (i <= 1)%nat -> x ∈ ovl s' i -> x ∈ ovl s i.
Proof.
  intros HT [W C] He HS. destruct e as [x|x i|x|x rt rd|x n|t|i|]; try done; cbn [step] in HS.
  - destruct (linked (ob s x)) eqn:E; [done|]. injection HS as <- _. split; [done|].
    intros i y Hi. rewrite !in_ovl. cbn. unfold READY. rewrite decide_False by lia. case_decide; by subst.
  - case_decide as Hr; [|done]. injection HS as <- _. unfold READY in Hr.
    destruct (add_list_eq s x i W ltac:(lia)) as (W2 & T2 & C2 & HLs & HO & HX & HN & HE). split; [done|].
    intros k y Hk. rewrite !in_ovl. rewrite HN. intros [Hy Ho].
    assert (Hne : y <> x).
    { intros ->. rewrite HX in Ho. cbn in Ho. rewrite HLs in Hy. destruct (decide (k = i)) as [->|].
      - rewrite decide_False in Ho by (unfold READY; lia). specialize (HT i). lia.
      - apply filter_ne_in in Hy. naive_solver. }
    rewrite HO in Ho by done. split; [|done]. rewrite HLs in Hy. case_decide.
    + subst. apply elem_of_app in Hy as [Hy|Hy]; [by apply filter_ne_in in Hy as [? _]|set_solver].
    + by apply filter_ne_in in Hy as [? _].
  - destruct (remove_list s x) as [s2|] eqn:E; [|done]. injection HS as <- _. unfold remove_list in E.
    destruct (linked (ob s x)) eqn:El; [|by simplify_eq]. case_decide; [|done]. injection E as <-. split; [done|].
    intros i y Hi. rewrite !in_ovl. cbn. intros [Hy Ho]. apply filter_ne_in in Hy as [Hy Hne]. by rewrite decide_False in Ho.
  - injection HS as <- _. split; [done|]. intros i y Hi. rewrite !in_ovl. cbn. by case_decide; subst.
  - injection HS as <- _. split; [done|]. intros i y Hi. rewrite !in_ovl. cbn. by case_decide; subst.
Qed.
Lemma cb_run es : forall s s' os, (forall i, 0 < T i) -> I s -> K s -> Forall (λ e, is_cb_op e = true) es -> run (step T) s es = Ok s' os ->
  I s' /\ K s' /\ now s' = now s /\ forall i x, (i <= 1)%nat -> x ∈ ovl s' i -> x ∈ ovl s i.
Proof.
  induction es as [|e es IH]; intros s s' os HT HI HK HF HR; cbn in HR; [simplify_eq; done|].
  apply Forall_cons in HF as [He HF].
  destruct (step T s e) as [| |s1 o1] eqn:E; try done. destruct (run (step T) s1 es) as [| |s2 o2] eqn:ER; try done. injection HR as <- <-.
  destruct (cb_step s e s1 o1 HT HI He E) as [N1 O1].
  destruct (IH s1 s2 o2 HT) as (A & B & C & D); [by eapply I_step|eapply K_step; [done|done|done| |done]; by apply cb_legal|done|done|].
  split_and!; [done|done|congruence|]. eauto.
Qed.
Lemma cb_run_safe es : forall s, I s -> run (step T) s es <> Crash.
Proof. intros s HI. eapply (safe_inv (step T) I); [done|apply I_step|apply I_safe]. Qed.

Lemma ovl_stop s i x l : K s -> (i <= 1)%nat -> lst s i = x :: l -> now s - act (ob s x) < T i -> ovl s i = [].
Proof.
  intros HK Hi El Ht. destruct (HK i Hi) as [HS _]. rewrite El in HS. inversion HS as [|? ? _ HF]; subst.
  destruct (ovl s i) as [|y k] eqn:E; [done|]. assert (Hy : y ∈ ovl s i) by (rewrite E; set_solver).
  apply in_ovl in Hy as [Hy Ho]. rewrite El in Hy. apply elem_of_cons in Hy as [->|Hy]; [lia|].
  rewrite Forall_forall in HF. specialize (HF y Hy). unfold older in HF. lia.
Qed.
Definition outcome (o : obj) (x : positive) : out :=
  match tmo_left o with S _ => ORearm x | O => if rto o && rdp o then OReadTimeout x else OShutdown x end.
Lemma head_step s i s' o : (forall i, 0 < T i) -> I s -> K s -> (i <= 1)%nat -> timeout_head T s i = Ok s' o ->
  (s' = s /\ ovl s i = [] /\ (o = OEmpty \/ o = OStop)) \/
  (exists x, x ∈ ovl s i /\ o = outcome (ob s x) x /\ now s' = now s /\ (forall j y, (j <= 1)%nat -> y ∈ ovl s' j -> y ∈ ovl s j /\ y <> x) /\
     (forall y, y <> x -> ob s' y = ob s y /\ forall j, y ∈ lst s j -> y ∈ lst s' j)).
Proof.
  intros HT [W C] HK Hi HS.
  destruct (timeout_cases s i s' o W Hi HS) as [[-> [[El ->]|(x & l & El & Ht & ->)]]|(x & l & El & Ht & N2 & E2 & W2 & O2 & F2 & HC)].
  - left. split_and!; [done| |by left]. unfold ovl. by rewrite El.
  - left. split_and!; [done| |by right]. by eapply ovl_stop.
  - right. exists x. split. { apply in_ovl. rewrite El. split; [set_solver|done]. }
    split; [|split; [done|split]].
    + unfold outcome. destruct HC as [(n & En & -> & _)|[(En & Er & Ed & -> & _)|(En & Er & -> & _)]]; rewrite En; [done| |]; by rewrite ?Er, ?Ed.
    + intros j y Hj. rewrite !in_ovl, N2. intros [Hy Ho].
      assert (Hne : y <> x).
      { intros ->. assert (j = i) as ->.
        { destruct (decide (j = i)); [done|]. rewrite F2 in Hy by done. eapply (wf_one _ W); [exact Hy|]. rewrite El. set_solver. }
        specialize (HT i). destruct HC as [(n & En & _ & Hl & EX & Hc)|[(En & _ & _ & _ & Hl & EX & Hc)|(En & _ & _ & Hl & _ & Hc & _)]].
        - rewrite EX in Ho. cbn in Ho. lia.
        - rewrite EX in Ho. cbn in Ho. lia.
        - rewrite Hl in Hy. pose proof (wf_nd _ W i) as ND. rewrite El in ND. by apply NoDup_cons in ND as [? _]. }
      split; [|done]. rewrite O2 in Ho by done. split; [|done]. destruct (decide (j = i)) as [->|]; [|by rewrite <- F2].
      rewrite El. destruct HC as [(n & En & _ & Hl & EX & Hc)|[(En & _ & _ & _ & Hl & EX & Hc)|(En & _ & _ & Hl & _ & Hc & _)]]; rewrite Hl in Hy; set_solver.
    + intros y Hy. split; [by apply O2|]. intros j Hj. destruct (decide (j = i)) as [->|]; [|by rewrite F2].
      rewrite El in Hj. destruct HC as [(n & En & _ & Hl & EX & Hc)|[(En & _ & _ & _ & Hl & EX & Hc)|(En & _ & _ & Hl & _ & Hc & _)]]; rewrite Hl; set_solver.
Qed.
(** the ops that touch x *)
Definition op_obj (e : op) : option positive :=
  match e with EFiber x | EAdd x _ | ERemove x | EFlags x _ _ | ETmo x _ => Some x | _ => None end.
Lemma cb_frame es : forall s s' os x, I s -> Forall (λ e, is_cb_op e = true /\ op_obj e <> Some x) es -> run (step T) s es = Ok s' os ->
  ob s' x = ob s x /\ forall i, x ∈ lst s i -> x ∈ lst s' i.
Proof.
  induction es as [|e es IH]; intros s s' os x HI HF HR; cbn in HR; [simplify_eq; done|].
  apply Forall_cons in HF as [[He Hx] HF].
  destruct (step T s e) as [| |s1 o1] eqn:E; try done. destruct (run (step T) s1 es) as [| |s2 o2] eqn:ER; try done. injection HR as <- <-.
  destruct (IH s1 s2 o2 x) as (A & B); [by eapply I_step|done|done|].
  enough (ob s1 x = ob s x /\ forall i, x ∈ lst s i -> x ∈ lst s1 i) as [A1 B1] by (split; [congruence|eauto]).
  destruct HI as [W C]. clear -W E He Hx. destruct e as [z|z i|z|z rt rd|z n|t|i|]; try done; cbn [step op_obj] in *; assert (Hne : x <> z) by congruence.
  - destruct (linked (ob s z)); [done|]. injection E as <- _. cbn. rewrite decide_False by done. split; [done|].
    intros i Hi. case_decide; [subst; set_solver|done].
  - case_decide as Hr; [|done]. injection E as <- _. unfold READY in Hr.
    destruct (add_list_eq s z i W ltac:(lia)) as (W2 & T2 & C2 & HLs & HO & HX & HN & HE). split; [by apply HO|].
    intros j Hj. rewrite HLs. assert (Hin : x ∈ filter (λ y, y <> z) (lst s j)) by (by apply filter_ne_in).
    destruct (decide (j = i)); [subst; apply elem_of_app; by left|done].
  - destruct (remove_list s z) as [s2|] eqn:E2; [|done]. injection E as <- _. unfold remove_list in E2.
    destruct (linked (ob s z)) eqn:El; [|by simplify_eq]. case_decide; [|done]. injection E2 as <-. cbn. rewrite decide_False by done.
    split; [done|]. intros j Hj. by apply filter_ne_in.
  - injection E as <- _. cbn. by rewrite decide_False.
  - injection E as <- _. cbn. by rewrite decide_False.
Qed.

Lemma scan_ok fuel : forall s cb i, (forall i, 0 < T i) -> I s -> K s -> (i <= 1)%nat ->
  (forall x, Forall (λ e, is_cb_op e = true) (cb x)) -> (length (ovl s i) < fuel)%nat ->
  match scan T fuel cb s i with
  | Disabled => True | Crash => False
  | Ok s' os => I s' /\ K s' /\ ovl s' i = [] /\ now s' = now s /\ (forall j x, (j <= 1)%nat -> x ∈ ovl s' j -> x ∈ ovl s j) /\
      (forall x, (forall z, Forall (λ e, op_obj e <> Some x) (cb z)) ->
         (x ∈ ovl s i -> outcome (ob s x) x ∈ os) /\
         (x ∉ ovl s i -> ob s' x = ob s x /\ forall j, x ∈ lst s j -> x ∈ lst s' j))
  end.
Proof.
  induction fuel as [|fuel IH]; intros s cb i HT HI HK Hi HF Hlen; [lia|]. cbn [scan].
  destruct (timeout_head T s i) as [| |s1 o] eqn:E.
  - done.
  - eapply (I_safe s (ETimeout i) HI). cbn. by rewrite decide_True by (unfold RW; lia).
  - assert (E' : step T s (ETimeout i) = Ok s1 o) by (cbn; by rewrite decide_True by (unfold RW; lia)).
    assert (HI1 : I s1) by (by eapply I_step). assert (HK1 : K s1) by (eapply K_step; [done|exact HI|exact HK| |exact E']; done).
    destruct (head_step s i s1 o HT HI HK Hi E) as [(-> & Eo & Ho)|(x & Hx & Ho & HN & HO & HU)].
    { assert (HR : I s /\ K s /\ ovl s i = [] /\ now s = now s /\ (forall j x, (j <= 1)%nat -> x ∈ ovl s j -> x ∈ ovl s j) /\
         (forall x, (forall z, Forall (λ e, op_obj e <> Some x) (cb z)) ->
         (x ∈ ovl s i -> outcome (ob s x) x ∈ ([] : list out)) /\ (x ∉ ovl s i -> ob s x = ob s x /\ forall j, x ∈ lst s j -> x ∈ lst s j))).
      { split_and!; try done. intros x _. split; [|done]. rewrite Eo. by intros Hq%elem_of_nil. }
      destruct Ho as [-> | ->]; exact HR. }
    assert (Hn : exists es, es = (match o with OReadTimeout x => cb x | _ => [] end) /\
       match o with OEmpty | OStop => False | _ => True end).
    { eexists. split; [done|]. rewrite Ho. unfold outcome. destruct (tmo_left _); [by destruct (_ && _)|done]. }
    destruct Hn as (es & Ees & Hno).
    assert (HFes : Forall (λ e, is_cb_op e = true) es). { rewrite Ees. destruct o; [constructor..|apply HF|constructor|constructor]. }
    assert (Hgoal : match match run (step T) s1 es with
       | Disabled => Disabled | Crash => Crash
       | Ok s2 _ => match scan T fuel cb s2 i with Disabled => Disabled | Crash => Crash | Ok s os => Ok s (o :: os) end end with
       | Disabled => True | Crash => False
       | Ok s' os => I s' /\ K s' /\ ovl s' i = [] /\ now s' = now s /\ (forall j x, (j <= 1)%nat -> x ∈ ovl s' j -> x ∈ ovl s j) /\
      (forall x, (forall z, Forall (λ e, op_obj e <> Some x) (cb z)) ->
         (x ∈ ovl s i -> outcome (ob s x) x ∈ os) /\
         (x ∉ ovl s i -> ob s' x = ob s x /\ forall j, x ∈ lst s j -> x ∈ lst s' j)) end).
    { destruct (run (step T) s1 es) as [| |s2 os2] eqn:ER; [done|by eapply cb_run_safe|].
      destruct (cb_run es s1 s2 os2 HT HI1 HK1 HFes ER) as (HI2 & HK2 & N2 & O2).
      assert (Hsub : forall j y, (j <= 1)%nat -> y ∈ ovl s2 j -> y ∈ ovl s j /\ y <> x).
      { intros j y Hj Hy. apply HO; [done|]. by apply O2. }
      assert (Hl2 : (length (ovl s2 i) < length (ovl s i))%nat).
      { enough (length (x :: ovl s2 i) <= length (ovl s i))%nat by (cbn in *; lia). apply nodup_incl_len.
        - constructor; [|apply ovl_nd, HI2]. intros Hc. by destruct (Hsub i x Hi Hc).
        - intros y [->|Hy]%elem_of_cons; [done|]. by destruct (Hsub i y Hi Hy). }
      specialize (IH s2 cb i HT HI2 HK2 Hi HF ltac:(lia)).
      destruct (scan T fuel cb s2 i) as [| |s3 os3]; [done|done|].
      destruct IH as (A & B & C & D & F & G). split_and!; [done|done|done|congruence| |].
      { intros j y Hj Hy. by apply Hsub, F. }
      intros y Hy. specialize (G y Hy) as [G1 G2].
      assert (HFy : Forall (λ e, is_cb_op e = true /\ op_obj e <> Some y) es).
      { rewrite Forall_forall in HFes |- *. intros e He. split; [by apply HFes|]. rewrite Ees in He.
        destruct o; try (by apply elem_of_nil in He). specialize (Hy x0). rewrite Forall_forall in Hy. by apply Hy. }
      destruct (cb_frame es s1 s2 os2 y HI1 HFy ER) as [Fo Fl].
      destruct (decide (y = x)) as [->|Hne].
      - split; [|done]. intros _. rewrite Ho. apply elem_of_list_here.
      - destruct (HU y Hne) as [U1 U2]. split.
        + intros Hov. rewrite <- U1, <- Fo. apply elem_of_list_further. apply G1. apply in_ovl. apply in_ovl in Hov as [H1 H2].
          split; [by apply Fl, U2|]. rewrite Fo, U1. congruence.
        + intros Hnov. destruct G2 as [G3 G4].
          { intros Hc. apply Hnov. by destruct (Hsub i y Hi Hc). }
          split; [congruence|]. eauto. }
    clear -Hgoal Ees Hno. subst es. by destruct o.
Qed.
End T.
