(** C83: the string comparators.  Model: RbStrModel.v *)
From Verif Require Import RbModel RbSpec RbHist RbNav RbProps RbStrModel.
From Coq Require Import Lia Sorting.Sorted.
Local Open Scope Z_scope.

Lemma dict_refl l : dict l l = 0.
Proof. induction l as [|a l IH]; cbn; [done|]. by rewrite decide_True by done. Qed.
Lemma before_cons a l1 l2 : before l1 l2 -> before (a :: l1) (a :: l2).
Proof.
  intros (w & [(c & t & -> & ->)|(x & y & t1 & t2 & -> & -> & H)]); exists (a :: w); [left; by exists c, t|right; by exists x, y, t1, t2].
Qed.
Lemma before_inv a b l1 l2 : before (a :: l1) (b :: l2) -> a < b \/ (a = b /\ before l1 l2).
Proof.
  intros (w & [(c & t & E1 & E2)|(x & y & t1 & t2 & E1 & E2 & H)]); destruct w as [|z w]; cbn in *; try discriminate.
  - injection E1 as -> ->. injection E2 as -> ->. right. split; [done|]. exists w. left. by exists c, t.
  - injection E1 as -> ->. injection E2 as -> ->. by left.
  - injection E1 as -> ->. injection E2 as -> ->. right. split; [done|]. exists w. right. by exists x, y, t1, t2.
Qed.
Lemma before_nil l : ~ before l [].
Proof. intros (w & [(c & t & E1 & E2)|(x & y & t1 & t2 & E1 & E2 & H)]); by destruct w. Qed.
(** [dict] is the dictionary order *)
Theorem C83_dict l1 l2 : (dict l1 l2 < 0 <-> before l1 l2) /\ (dict l1 l2 = 0 <-> l1 = l2) /\ (0 < dict l1 l2 <-> before l2 l1).
Proof.
  revert l2. induction l1 as [|a l1 IH]; intros [|b l2]; cbn.
  - split_and!; try lia; split; try lia; try done; intros H; by apply before_nil in H.
  - split_and!; split; try lia; try done; [|intros H; by apply before_nil in H]. intros _. exists []. left. by exists b, l2.
  - split_and!; split; try lia; try done; [intros H; by apply before_nil in H|]. intros _. exists []. left. by exists a, l1.
  - destruct (IH l2) as (A & B & C). case_decide as Hab.
    + subst b. split_and!.
      * rewrite A. split; [apply before_cons|]. intros H. apply before_inv in H as [H|[_ H]]; [lia|done].
      * rewrite B. split; [by intros ->|by intros [= ->]].
      * rewrite C. split; [apply before_cons|]. intros H. apply before_inv in H as [H|[_ H]]; [lia|done].
    + case_decide as Hl; split_and!; split; try lia; try (intros [= ? ?]; done); intros H.
      * exists []. right. by exists a, b, l1, l2.
      * apply before_inv in H as [H|[H _]]; [lia|done].
      * apply before_inv in H as [H|[H _]]; [lia|done].
      * exists []. right. exists b, a, l2, l1. split_and!; [done|done|lia].
Qed.
Lemma dict_flip l1 : forall l2, dict l2 l1 = - dict l1 l2.
Proof.
  induction l1 as [|a l1 IH]; intros [|b l2]; cbn; try done. destruct (decide (b = a)) as [->|Hn].
  - by rewrite decide_True by done.
  - rewrite (decide_False (P := a = b)) by done. destruct (decide (b < a)); destruct (decide (a < b)); lia.
Qed.
Lemma dict_trans l1 : forall l2 l3, dict l1 l2 <= 0 -> dict l2 l3 <= 0 -> dict l1 l3 <= 0.
Proof.
  induction l1 as [|a l1 IH]; intros [|b l2] [|c l3]; cbn; try lia.
  destruct (decide (a = b)) as [->|H1].
  - destruct (decide (b = c)) as [->|H2]; [apply IH|]. done.
  - destruct (decide (a < b)) as [H1'|H1']; [|lia]. intros _. destruct (decide (b = c)) as [->|H2].
    + intros _. rewrite decide_False by done. rewrite decide_True by done. lia.
    + destruct (decide (b < c)); [|lia]. intros _. rewrite decide_False by lia. rewrite decide_True by lia. lia.
Qed.

(** the comparators read both strings at most up to their ends and give the sign of the dictionary order of the bytes - for the case
    insensitive one, of the bytes in lower case *)
Lemma str_loop_ok fold m : (forall c, 0 <= c < 256 -> (fold c = 0 <-> c = 0) /\ 0 <= fold c) ->
  forall l1 l2 p q fuel, cstr m p l1 -> cstr m q l2 -> (length l1 < fuel)%nat ->
  exists r, str_loop fold m fuel p q = Some r /\ Z.sgn r = dict (fold <$> l1) (fold <$> l2).
Proof.
  intros Hf. assert (F0 : fold 0 = 0) by (by apply (Hf 0)).
  induction l1 as [|a l1 IH]; intros l2 p q fuel H1 H2 Hfu; destruct fuel as [|fuel]; try (cbn in Hfu; lia).
  - inversion H1 as [p' E1|]; subst. destruct l2 as [|b l2]; inversion H2 as [q' E2|q' c' l' E2 Hb H2']; subst; cbn [str_loop]; rewrite E1, E2; unfold mbind; cbn.
    + rewrite !decide_True by done. by eexists.
    + rewrite F0. destruct (Hf b ltac:(lia)) as [X Y]. rewrite decide_False by (intros E; symmetry in E; apply X in E; lia). eexists. split; [done|].
      assert (fold b ≠ 0) by (intros E; apply X in E; lia). apply Z.sgn_neg. lia.
  - inversion H1 as [|p' c' l' E1 Ha H1']; subst. destruct (Hf a ltac:(lia)) as [X Y]. assert (Hz : fold a ≠ 0) by (intros E; apply X in E; lia).
    destruct l2 as [|b l2]; inversion H2 as [q' E2|q' c' l' E2 Hb H2']; subst; cbn [str_loop]; rewrite E1, E2; unfold mbind; cbn.
    + rewrite F0, decide_False by done. eexists. split; [done|]. apply Z.sgn_pos. lia.
    + destruct (decide (fold a = fold b)) as [E|E].
      * rewrite decide_False by lia. apply IH; [done|done|cbn in Hfu; lia].
      * eexists. split; [done|]. destruct (decide (fold a < fold b)); [apply Z.sgn_neg; lia|apply Z.sgn_pos; lia].
Qed.
Lemma same_ok c : 0 <= c < 256 -> (same_byte c = 0 <-> c = 0) /\ 0 <= same_byte c.
Proof. unfold same_byte. lia. Qed.
Lemma lower_ok c : 0 <= c < 256 -> (tolower c = 0 <-> c = 0) /\ 0 <= tolower c.
Proof. unfold tolower. case_decide; lia. Qed.
Lemma key_cmp_ok fold m k1 k2 l1 l2 fuel : (forall c, 0 <= c < 256 -> (fold c = 0 <-> c = 0) /\ 0 <= fold c) ->
  key_is m k1 l1 -> key_is m k2 l2 -> (length l1 < fuel)%nat ->
  exists r, key_cmp fold m fuel k1 k2 = Some r /\ (r < 0 <-> before (fold <$> l1) (fold <$> l2)) /\ (r = 0 <-> fold <$> l1 = fold <$> l2) /\
    (0 < r <-> before (fold <$> l2) (fold <$> l1)).
Proof.
  intros Hf (p & E1 & H1) (q & E2 & H2) Hfu. unfold key_cmp. rewrite E1, E2. unfold mbind. cbn.
  destruct (str_loop_ok fold m Hf l1 l2 p q fuel H1 H2 Hfu) as (r & Er & Es). exists r. split; [done|].
  destruct (C83_dict (fold <$> l1) (fold <$> l2)) as (A & B & C). rewrite <- A, <- B, <- C, <- Es. pose proof (Z.sgn_spec r). lia.
Qed.
Theorem C83_string_cmp m k1 k2 l1 l2 fuel : key_is m k1 l1 -> key_is m k2 l2 -> (length l1 < fuel)%nat ->
  exists r, rbtree_string_cmp m fuel k1 k2 = Some r /\ (r < 0 <-> before l1 l2) /\ (r = 0 <-> l1 = l2) /\ (0 < r <-> before l2 l1).
Proof.
  intros H1 H2 Hf. destruct (key_cmp_ok same_byte m k1 k2 l1 l2 fuel same_ok H1 H2 Hf) as (r & E & A).
  assert (Hid : forall l : list Z, same_byte <$> l = l) by (intros l; induction l as [|x l IHl]; cbn; [done|f_equal; exact IHl]). rewrite !Hid in A. by exists r.
Qed.
Theorem C83_string_case_cmp m k1 k2 l1 l2 fuel : key_is m k1 l1 -> key_is m k2 l2 -> (length l1 < fuel)%nat ->
  exists r, rbtree_string_case_cmp m fuel k1 k2 = Some r /\ (r < 0 <-> before (tolower <$> l1) (tolower <$> l2)) /\
    (r = 0 <-> tolower <$> l1 = tolower <$> l2) /\ (0 < r <-> before (tolower <$> l2) (tolower <$> l1)).
Proof. intros H1 H2 Hf. by apply key_cmp_ok; [apply lower_ok|..]. Qed.
(** the lower case of the 26 letters from A (65) on, the other bytes as they are *)
Theorem C83_tolower : (tolower <$> [65; 66; 67; 68; 69; 70; 71; 72; 73; 74; 75; 76; 77; 78; 79; 80; 81; 82; 83; 84; 85; 86; 87; 88; 89; 90] =
    [97; 98; 99; 100; 101; 102; 103; 104; 105; 106; 107; 108; 109; 110; 111; 112; 113; 114; 115; 116; 117; 118; 119; 120; 121; 122]) /\
  forall c, ~ (65 <= c <= 90) -> tolower c = c.
Proof. split; [done|]. intros c H. unfold tolower. by rewrite decide_False. Qed.
Theorem C83_file_cmp m fuel k1 k2 : rbtree_file_cmp false m fuel k1 k2 = rbtree_string_cmp m fuel k1 k2 /\
  rbtree_file_cmp true m fuel k1 k2 = rbtree_string_case_cmp m fuel k1 k2.
Proof. done. Qed.
(** total orders, so the theorems about trees apply: with string keys a tree finds the entry with that string *)
Theorem C83_total_order fold : total_order (λ l1 l2 : list Z, dict (fold <$> l1) (fold <$> l2)).
Proof.
  split.
  - intros x y. rewrite (dict_flip (fold <$> x)). lia.
  - intros x y z. apply dict_trans.
Qed.
Theorem C83_tree fold (os : list (op (list Z))) (fuel : nat) :
  let cmp := (λ l1 l2 : list Z, dict (fold <$> l1) (fold <$> l2)) in
  legal_run cmp [] os -> (length os + 3 <= fuel)%nat ->
  let l := (spec_run cmp [] os).2 in
  (exists s, exec_all cmp fuel empty_tree os = Some ((spec_run cmp [] os).1, s) /\ walk fuel s = Some l) /\
  StronglySorted (λ a b, before (fold <$> a.2) (fold <$> b.2)) l /\
  forall k, match lookup_key cmp k l with
    | Some n => exists d, (n, d) ∈ l /\ fold <$> k = fold <$> d
    | None => forall e, e ∈ l -> fold <$> k ≠ fold <$> e.2
    end.
Proof.
  intros cmp HL Hf l. destruct (C01_rbtree_contents cmp os fuel (C83_total_order fold) HL Hf) as (s & E & Hw & Hs). split_and!.
  - by exists s.
  - unfold l. revert Hs. generalize ((spec_run cmp [] os).2). intros l0 Hs. unfold strictly_sorted in Hs. induction Hs as [|x l0 Hs IH Hx]; constructor; [done|].
    eapply Forall_impl; [exact Hx|]. intros y Hy. unfold cmp in Hy. exact (proj1 (proj1 (C83_dict _ _)) Hy).
  - intros k. pose proof (C01_spec_lookup cmp k l) as H. destruct (lookup_key cmp k l) as [n|].
    + destruct H as (d & Hd & H). exists d. split; [done|]. exact (proj1 (proj1 (proj2 (C83_dict _ _))) H).
    + intros e He. intros E2. apply (H e He). exact (proj2 (proj1 (proj2 (C83_dict _ _))) E2).
Qed.
(** * Example: "ab", "aB" and "abc" in memory *)
Definition demo_mem : smem := mksm
  (λ p, [97; 98; 0; 97; 66; 0; 97; 98; 99; 0] !! Z.to_nat p) (λ k, if decide (k = 100) then Some 0 else if decide (k = 108) then Some 3 else if decide (k = 116) then Some 6 else None).
Theorem C83_example : key_is demo_mem 100 [97; 98] /\ key_is demo_mem 108 [97; 66] /\ key_is demo_mem 116 [97; 98; 99] /\
  (exists r, rbtree_string_cmp demo_mem 10 108 100 = Some r /\ r < 0) /\ rbtree_string_case_cmp demo_mem 10 108 100 = Some 0 /\
  (exists r, rbtree_string_cmp demo_mem 10 116 100 = Some r /\ 0 < r) /\ rbtree_string_cmp demo_mem 10 100 4 = None.
Proof.
  split_and!; try (eexists; split; [vm_compute; reflexivity|]; repeat (eapply cstr_cons; [vm_compute; reflexivity|lia|]); apply cstr_nil; vm_compute; reflexivity);
    try (eexists; split; [vm_compute; reflexivity|lia]); vm_compute; reflexivity.
Qed.
