(** Lemmas on the heap under the debugging allocator: blocks with owners. *)
From Verif Require Import DbgAllocModel DbgAllocSpec.
Local Open Scope Z_scope.

Lemma upd_eq {K A} `{EqDecision K} (g : K -> A) k v : upd g k v k = v.
Proof. unfold upd. by rewrite decide_True. Qed.
Lemma upd_ne {K A} `{EqDecision K} (g : K -> A) k v x : x <> k -> upd g k v x = g x.
Proof. intros. unfold upd. by rewrite decide_False. Qed.
Lemma fill_in x n g m y : x <= y < x + n -> fill x n g m y = g (y - x).
Proof. intros. unfold fill. by rewrite decide_True. Qed.
Lemma fill_out x n g m y : ~ (x <= y < x + n) -> fill x n g m y = m y.
Proof. intros. unfold fill. by rewrite decide_False. Qed.
Lemma put_fill x n g m y : put x n g m y = fill x n g m y.
Proof. done. Qed.
Lemma fill_ext x n g g' m m' y : (x <= y < x + n -> g (y - x) = g' (y - x)) -> m y = m' y -> fill x n g m y = fill x n g' m' y.
Proof. intros H1 H2. unfold fill. case_decide; auto. Qed.
Lemma guarded_raw q n g m y : 0 <= n -> guarded q n g m y = fill q n g (fill (q - 8) (n + 16) (raw n) m) y.
Proof.
  intros Hn. unfold guarded, put, fill, raw. repeat case_decide; try lia; try done.
  f_equal. f_equal. lia.
Qed.
Lemma can_place_spec s a n : can_place s a n = true -> 0 < a /\ forall y, a <= y < a + Z.max 1 n -> mem s y = None.
Proof.
  unfold can_place. rewrite andb_true_iff, !bool_decide_eq_true. intros [H1 H2]. split; [done|]. intros y Hy. rewrite Forall_forall in H2.
  replace y with (a + (y - a)) by lia. apply H2. apply elem_of_seqZ. lia.
Qed.
Lemma check_ptr_spec m r : check_ptr m r = true <-> guards_ok m (ru r) (rn r).
Proof.
  unfold check_ptr, guards_ok. rewrite andb_true_iff, !bool_decide_eq_true, !Forall_forall. split.
  - intros [H1 H2] i Hi. split; [apply H1|apply H2]; apply elem_of_seqZ; lia.
  - intros H. split; intros i Hi%elem_of_seqZ; apply H; lia.
Qed.
Lemma all_ee_spec m r : all_ee m r = true <-> marked m (ru r) (rn r).
Proof.
  unfold all_ee, marked. rewrite bool_decide_eq_true, Forall_forall. split; intros H i Hi; apply H; apply elem_of_seqZ || apply elem_of_seqZ in Hi; lia.
Qed.

(** * Blocks with owners *)
Section own.
Context {W : Type}.
Implicit Types (R : W -> Z -> Z -> Prop) (m : mem_t) (b : Z -> option Z).
Record heap_ok R m b : Prop := {
  ho_own : forall w a l, R w a l -> b a = Some l;
  ho_uniq : forall w w' a l l', R w a l -> R w' a l' -> w = w';
  ho_blk : forall a l, b a = Some l -> exists w, R w a l;
  ho_pos : forall a l, b a = Some l -> 0 < a /\ 0 < l;
  ho_disj : forall a l a' l', b a = Some l -> b a' = Some l' -> a <> a' -> a + l <= a' \/ a' + l' <= a;
  ho_map : forall y, m y <> None <-> exists a l, b a = Some l /\ a <= y < a + l }.
Lemma ho_iff R R' m b : (forall w a l, R' w a l <-> R w a l) -> heap_ok R m b -> heap_ok R' m b.
Proof.
  intros E []. constructor; try done.
  - intros w a l. rewrite E. apply ho_own0.
  - intros w w' a l l'. rewrite !E. apply ho_uniq0.
  - intros a l H. destruct (ho_blk0 a l H) as [w Hw]. exists w. by apply E.
Qed.
Lemma ho_add R R' m b w0 a0 l0 g : heap_ok R m b -> (forall w a l, R' w a l <-> R w a l \/ (w = w0 /\ a = a0 /\ l = l0)) ->
  0 < a0 -> 0 < l0 -> (forall y, a0 <= y < a0 + l0 -> m y = None) -> (forall i, 0 <= i < l0 -> g i <> None) ->
  heap_ok R' (fill a0 l0 g m) (upd b a0 (Some l0)).
Proof.
  intros H E Ha Hl Hn Hg. destruct H as [Ho Hu Hb Hp Hd Hm].
  assert (Hno : b a0 = None). { destruct (b a0) as [l|] eqn:Eb; [|done]. destruct (Hp _ _ Eb). exfalso. apply (proj2 (Hm a0)); [exists a0, l; split; [done|lia]|]. apply Hn. lia. }
  assert (Hd0 : forall a l, b a = Some l -> a + l <= a0 \/ a0 + l0 <= a).
  { intros a l Eb. destruct (Hp _ _ Eb). destruct (decide (a + l <= a0)); [by left|]. destruct (decide (a0 + l0 <= a)); [by right|]. exfalso.
    apply (proj2 (Hm (Z.max a a0))); [exists a, l; split; [done|lia]|]. apply Hn. lia. }
  assert (Hr0 : forall w l, ~ R w a0 l). { intros w l Hr%Ho. congruence. }
  constructor.
  - intros w a l. rewrite E. intros [Hr|(-> & -> & ->)]; [|by rewrite upd_eq]. rewrite upd_ne; [by eapply Ho|]. intros ->. by eapply Hr0.
  - intros w w' a l l'. rewrite !E. intros [Hr|(-> & -> & ->)] [Hr'|(-> & Ea & ->)]; try subst; try done; try (by exfalso; eapply Hr0). by eapply Hu.
  - intros a l. destruct (decide (a = a0)) as [->|Hna].
    + rewrite upd_eq. intros [= <-]. exists w0. apply E. by right.
    + rewrite upd_ne by done. intros Eb. destruct (Hb _ _ Eb) as [w Hw]. exists w. apply E. by left.
  - intros a l. destruct (decide (a = a0)) as [->|Hna]; [rewrite upd_eq; intros [= <-]; done|]. rewrite upd_ne by done. apply Hp.
  - intros a l a' l'. destruct (decide (a = a0)) as [->|Hna], (decide (a' = a0)) as [->|Hna']; rewrite ?upd_eq, ?upd_ne by done; try done.
    + intros [= <-] Eb _. specialize (Hd0 _ _ Eb). lia.
    + intros Eb [= <-] _. specialize (Hd0 _ _ Eb). lia.
    + apply Hd.
  - intros y. destruct (decide (a0 <= y < a0 + l0)) as [Hy|Hy].
    + rewrite fill_in by done. split; [intros _; exists a0, l0; by rewrite upd_eq|]. intros _. apply Hg. lia.
    + rewrite fill_out by done. rewrite Hm. split; intros (a & l & Eb & Hl2); exists a, l; (split; [|done]).
      * rewrite upd_ne; [done|]. intros ->. congruence.
      * destruct (decide (a = a0)) as [->|Hna]; [rewrite upd_eq in Eb; injection Eb as <-; lia|by rewrite upd_ne in Eb].
Qed.
Lemma ho_del R R' m b w0 a0 l0 : heap_ok R m b -> R w0 a0 l0 -> (forall w a l, R' w a l <-> R w a l /\ a <> a0) ->
  heap_ok R' (unmap a0 l0 m) (upd b a0 None).
Proof.
  intros H Hr E. destruct H as [Ho Hu Hb Hp Hd Hm]. pose proof (Ho _ _ _ Hr) as Eb0. constructor.
  - intros w a l [Hr' Hn]%E. rewrite upd_ne by done. by eapply Ho.
  - intros w w' a l l' [Hr' Hn]%E [Hr'' _]%E. by eapply Hu.
  - intros a l. destruct (decide (a = a0)) as [->|Hna]; [by rewrite upd_eq|]. rewrite upd_ne by done. intros Eb. destruct (Hb _ _ Eb) as [w Hw].
    exists w. by apply E.
  - intros a l. destruct (decide (a = a0)) as [->|Hna]; [by rewrite upd_eq|]. rewrite upd_ne by done. apply Hp.
  - intros a l a' l'. destruct (decide (a = a0)) as [->|Hna]; [by rewrite upd_eq|]. destruct (decide (a' = a0)) as [->|Hna']; [by rewrite upd_eq|].
    rewrite !upd_ne by done. apply Hd.
  - intros y. unfold unmap. destruct (decide (a0 <= y < a0 + l0)) as [Hy|Hy].
    + rewrite fill_in by done. split; [done|]. intros (a & l & Eb & Hl). destruct (decide (a = a0)) as [->|Hna]; [by rewrite upd_eq in Eb|].
      rewrite upd_ne in Eb by done. destruct (Hd _ _ _ _ Eb Eb0 Hna); lia.
    + rewrite fill_out by done. rewrite Hm. split; intros (a & l & Eb & Hl); exists a, l; (split; [|done]).
      * rewrite upd_ne; [done|]. intros ->. rewrite Eb0 in Eb. injection Eb as <-. lia.
      * destruct (decide (a = a0)) as [->|Hna]; [by rewrite upd_eq in Eb|by rewrite upd_ne in Eb].
Qed.
Lemma ho_move R R' m b w0 w1 a0 l0 : heap_ok R m b -> R w0 a0 l0 -> (forall w a l, R' w a l <-> R w a l /\ a <> a0 \/ (w = w1 /\ a = a0 /\ l = l0)) ->
  heap_ok R' m b.
Proof.
  intros H Hr E. destruct H as [Ho Hu Hb Hp Hd Hm]. pose proof (Ho _ _ _ Hr) as Eb0. constructor; try done.
  - intros w a l [[Hr' _]|(-> & -> & ->)]%E; [by eapply Ho|done].
  - intros w w' a l l' [[Hr' Hn]|(-> & -> & ->)]%E [[Hr'' Hn']|(-> & Ea & ->)]%E; try done. by eapply Hu.
  - intros a l Eb. destruct (Hb _ _ Eb) as [w Hw]. destruct (decide (a = a0)) as [->|Hna].
    + exists w1. apply E. right. split_and!; [done..|]. congruence.
    + exists w. apply E. by left.
Qed.
Lemma ho_mem R m m' b : heap_ok R m b -> (forall y, m' y <> None <-> m y <> None) -> heap_ok R m' b.
Proof. intros [] H. constructor; try done. intros y. by rewrite H. Qed.
(** two owned blocks are the same or disjoint *)
Lemma ho_sep R m b w a l w' a' l' y : heap_ok R m b -> R w a l -> R w' a' l' -> a <= y < a + l -> a' <= y < a' + l' -> w = w' /\ a = a' /\ l = l'.
Proof.
  intros H H1 H2 Hy Hy'. pose proof (ho_own _ _ _ H _ _ _ H1) as E1. pose proof (ho_own _ _ _ H _ _ _ H2) as E2.
  destruct (decide (a = a')) as [->|Hn].
  - split_and!; [by eapply ho_uniq|done|congruence].
  - destruct (ho_disj _ _ _ H _ _ _ _ E1 E2 Hn); lia.
Qed.
End own.
