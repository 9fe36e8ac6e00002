(** counting over lists and finite maps: definitions used in the specifications of reference counts *)
From stdpp Require Import gmap.
From Verif Require Import Lts.
Local Open Scope Z_scope.
Definition b2z (b : bool) : Z := if b then 1 else 0.
(** 1 if the option is [Some a] *)
Definition oz (o : option nat) (a : nat) : Z := b2z (bool_decide (o = Some a)).
(** occurrences in a list, sums over lists and maps *)
Definition occ (j : nat) (l : list nat) : Z := foldr (λ x a, b2z (bool_decide (x = j)) + a) 0 l.
Definition sumz {A} (f : A -> Z) (l : list A) : Z := foldr (λ x a, f x + a) 0 l.
Definition summ {A} (f : A -> Z) (m : gmap nat A) : Z := map_fold (λ _ n a, f n + a) 0 m.
(** a heap of reference-counted objects: absent = freed or never allocated *)
Definition hget (h : gmap nat Z) (a : nat) : Z := default 0 (h !! a).
Definition hpos (h : gmap nat Z) : Prop := forall a z, h !! a = Some z -> 0 < z.
(** add / drop a reference; None: use of freed memory *)
Definition ref (h : gmap nat Z) (a : option nat) : option (gmap nat Z) :=
  match a with None => Some h | Some a => match h !! a with None => None | Some z => Some (<[a := z + 1]> h) end end.
Definition unref (h : gmap nat Z) (a : option nat) : option (gmap nat Z) :=
  match a with None => Some h | Some a => match h !! a with None => None | Some z => if decide (z = 1) then Some (delete a h) else Some (<[a := z - 1]> h) end end.
Lemma b2z_nonneg b : 0 <= b2z b. Proof. destruct b; cbn; lia. Qed.
Lemma oz_none a : oz None a = 0. Proof. done. Qed.
Lemma oz_nonneg o a : 0 <= oz o a. Proof. apply b2z_nonneg. Qed.
Lemma oz_same a : oz (Some a) a = 1. Proof. unfold oz. by rewrite bool_decide_true. Qed.
Lemma oz_pos o a : 0 < oz o a -> o = Some a.
Proof. unfold oz. case_bool_decide; [done|cbn; lia]. Qed.
Lemma sumz_app {A} (f : A -> Z) l1 l2 : sumz f (l1 ++ l2) = sumz f l1 + sumz f l2.
Proof. induction l1 as [|x l IH]; [done|]. change (f x + sumz f (l ++ l2) = f x + sumz f l + sumz f l2). lia. Qed.
Lemma sumz_cons {A} (f : A -> Z) x l : sumz f (x :: l) = f x + sumz f l. Proof. done. Qed.
Lemma sumz_one {A} (f : A -> Z) x : sumz f [x] = f x. Proof. cbn. lia. Qed.
Lemma sumz_mid {A} (f : A -> Z) l i x : l !! i = Some x -> sumz f l = sumz f (take i l) + f x + sumz f (drop (S i) l).
Proof. intros H. transitivity (sumz f (take i l ++ x :: drop (S i) l)); [by rewrite take_drop_middle|]. rewrite sumz_app, sumz_cons. lia. Qed.
Lemma sumz_del {A} (f : A -> Z) l i x : l !! i = Some x -> sumz f (delete i l) = sumz f l - f x.
Proof. intros H. rewrite delete_take_drop, sumz_app, (sumz_mid f l i x H). lia. Qed.
Lemma sumz_ins {A} (f : A -> Z) l i x y : l !! i = Some x -> sumz f (<[i := y]> l) = sumz f l - f x + f y.
Proof.
  intros H. pose proof (lookup_lt_Some _ _ _ H). rewrite insert_take_drop by done. rewrite sumz_app, sumz_cons, (sumz_mid f l i x H). lia.
Qed.
Lemma sumz_nonneg {A} (f : A -> Z) l : (forall x, 0 <= f x) -> 0 <= sumz f l.
Proof. intros Hf. induction l as [|x l IH]; [done|]. rewrite sumz_cons. specialize (Hf x). lia. Qed.
Lemma sumz_in {A} (f : A -> Z) l x : (forall x, 0 <= f x) -> x ∈ l -> f x <= sumz f l.
Proof. intros Hf. induction 1 as [x l|x y l _ IH]; rewrite sumz_cons; [pose proof (sumz_nonneg f l Hf); lia|]. specialize (Hf y). lia. Qed.
Lemma sumz_pos {A} (f : A -> Z) l : 0 < sumz f l -> exists x, x ∈ l /\ 0 < f x.
Proof.
  induction l as [|x l IH]; [cbn; lia|]. rewrite sumz_cons. intros H. destruct (decide (0 < f x)) as [|Hn]; [exists x; split; [by left|done]|].
  destruct IH as (y & H1 & H2); [lia|]. exists y. split; [by right|done].
Qed.
Lemma occ_sumz j l : occ j l = sumz (λ x, b2z (bool_decide (x = j))) l. Proof. done. Qed.
Lemma occ_cons j x l : occ j (x :: l) = b2z (bool_decide (x = j)) + occ j l. Proof. done. Qed.
Lemma occ_nonneg j l : 0 <= occ j l. Proof. apply sumz_nonneg. intros; apply b2z_nonneg. Qed.
Lemma occ_in j l : j ∈ l <-> 0 < occ j l.
Proof.
  induction l as [|x l IH]; [cbn; rewrite elem_of_nil; lia|]. rewrite occ_cons, elem_of_cons, IH. pose proof (occ_nonneg j l). case_bool_decide; cbn; [subst; split; [lia|by left]|].
  split; [intros [|]; [congruence|lia]|intros; right; lia].
Qed.
Lemma occ_nodup l : NoDup l <-> forall j, occ j l <= 1.
Proof.
  induction l as [|x l IH]; [split; [intros _ j; cbn; lia|intros _; constructor]|]. rewrite NoDup_cons, IH. split.
  - intros [H1 H2] j. rewrite occ_cons. case_bool_decide; cbn; [|specialize (H2 j); lia]. subst. destruct (decide (0 < occ j l)) as [G|G]; [by apply occ_in in G|lia].
  - intros H. split.
    + intros Hx. apply occ_in in Hx. specialize (H x). rewrite occ_cons, bool_decide_true in H by done. cbn in H. lia.
    + intros j. specialize (H j). rewrite occ_cons in H. pose proof (b2z_nonneg (bool_decide (x = j))). lia.
Qed.
Lemma summ_empty {A} (f : A -> Z) : summ f ∅ = 0. Proof. apply map_fold_empty. Qed.
Lemma summ_new {A} (f : A -> Z) m t h : m !! t = None -> summ f (<[t := h]> m) = f h + summ f m.
Proof. intros H. unfold summ. rewrite map_fold_insert_L; [done|intros; lia|done]. Qed.
Lemma summ_del {A} (f : A -> Z) m t h : m !! t = Some h -> summ f (delete t m) = summ f m - f h.
Proof. intros H. rewrite <- (insert_delete m t h H) at 2. rewrite summ_new by apply lookup_delete. lia. Qed.
Lemma summ_upd {A} (f : A -> Z) m t h h' : m !! t = Some h -> summ f (<[t := h']> m) = summ f m - f h + f h'.
Proof. intros H. rewrite <- insert_delete_insert, summ_new by apply lookup_delete. rewrite (summ_del _ _ _ _ H). lia. Qed.
Lemma summ_nonneg {A} (f : A -> Z) m : (forall n, 0 <= f n) -> 0 <= summ f m.
Proof. intros Hf. induction m as [|t h m Hm IH] using map_ind; [rewrite summ_empty; lia|]. rewrite summ_new by done. specialize (Hf h). lia. Qed.
Lemma summ_in {A} (f : A -> Z) m k n : (forall n, 0 <= f n) -> m !! k = Some n -> f n <= summ f m.
Proof. intros Hf H. pose proof (summ_del f m k n H). pose proof (summ_nonneg f (delete k m) Hf). lia. Qed.
Lemma summ_pos {A} (f : A -> Z) m : 0 < summ f m -> exists t h, m !! t = Some h /\ 0 < f h.
Proof.
  induction m as [|t h m Hm IH] using map_ind; [rewrite summ_empty; lia|]. rewrite summ_new by done. destruct (decide (0 < f h)) as [E|E]; [exists t, h; by rewrite lookup_insert|].
  intros H. destruct IH as (u & k & H1 & H2); [lia|]. exists u, k. split; [|done]. rewrite lookup_insert_ne; [done|congruence].
Qed.
Lemma hget_ins h a z b : hget (<[a := z]> h) b = if decide (a = b) then z else hget h b.
Proof. unfold hget. case_decide; [subst; by rewrite lookup_insert|by rewrite lookup_insert_ne]. Qed.
Lemma hget_del h a b : hget (delete a h) b = if decide (a = b) then 0 else hget h b.
Proof. unfold hget. case_decide; [subst; by rewrite lookup_delete|by rewrite lookup_delete_ne]. Qed.
Lemma ref_spec h o h' : hpos h -> ref h o = Some h' -> hpos h' /\ forall b, hget h' b = hget h b + oz o b.
Proof.
  intros Hp. destruct o as [a|]; cbn; [|intros [= <-]; split; [done|intros; rewrite oz_none; lia]]. destruct (h !! a) as [z|] eqn:E; [|done]. intros [= <-]. split.
  - intros b y. destruct (decide (a = b)) as [->|]; [rewrite lookup_insert|rewrite lookup_insert_ne by done; apply Hp]. intros [= <-]. apply Hp in E. lia.
  - intros b. rewrite hget_ins. unfold oz. case_decide; [subst; rewrite bool_decide_true by done; unfold hget; rewrite E; done|]. rewrite bool_decide_false by congruence. cbn. lia.
Qed.
Lemma unref_spec h o h' : hpos h -> unref h o = Some h' -> hpos h' /\ forall b, hget h' b = hget h b - oz o b.
Proof.
  intros Hp. destruct o as [a|]; cbn; [|intros [= <-]; split; [done|intros; rewrite oz_none; lia]]. destruct (h !! a) as [z|] eqn:E; [|done]. pose proof (Hp _ _ E) as Hz. case_decide as Hd.
  - intros [= <-]. split.
    + intros b y. destruct (decide (a = b)) as [->|]; [by rewrite lookup_delete|rewrite lookup_delete_ne by done; apply Hp].
    + intros b. rewrite hget_del. unfold oz. case_decide; [subst b; rewrite bool_decide_true by done; unfold hget; rewrite E; cbn; lia|]. rewrite bool_decide_false by congruence. cbn. lia.
  - intros [= <-]. split.
    + intros b y. destruct (decide (a = b)) as [->|]; [rewrite lookup_insert|rewrite lookup_insert_ne by done; apply Hp]. intros [= <-]. lia.
    + intros b. rewrite hget_ins. unfold oz. case_decide; [subst b; rewrite bool_decide_true by done; unfold hget; rewrite E; cbn; lia|]. rewrite bool_decide_false by congruence. cbn. lia.
Qed.
Lemma hget_live h a : 0 < hget h a -> is_Some (h !! a).
Proof. unfold hget. destruct (h !! a); cbn; [eauto|lia]. Qed.
Lemma ref_ok h o : (forall b, oz o b <= hget h b) -> ref h o <> None.
Proof. destruct o as [a|]; [|done]. intros H. specialize (H a). rewrite oz_same in H. destruct (hget_live h a) as [z E]; [lia|]. cbn. by rewrite E. Qed.
Lemma unref_ok h o : (forall b, oz o b <= hget h b) -> unref h o <> None.
Proof. destruct o as [a|]; [|done]. intros H. specialize (H a). rewrite oz_same in H. destruct (hget_live h a) as [z E]; [lia|]. cbn. rewrite E. by case_decide. Qed.

Lemma ref_dom h o h' a z : ref h o = Some h' -> h' !! a = Some z -> is_Some (h !! a).
Proof. destruct o as [b|]; cbn; [|intros [= ->]; eauto]. destruct (h !! b) eqn:E; [|done]. intros [= <-]. destruct (decide (b = a)) as [->|]; [eauto|rewrite lookup_insert_ne by done; eauto]. Qed.
Lemma unref_dom h o h' a z : unref h o = Some h' -> h' !! a = Some z -> is_Some (h !! a).
Proof.
  destruct o as [b|]; cbn; [|intros [= ->]; eauto]. destruct (h !! b) eqn:E; [|done]. case_decide; intros [= <-].
  - destruct (decide (b = a)) as [->|]; [by rewrite lookup_delete|rewrite lookup_delete_ne by done; eauto].
  - destruct (decide (b = a)) as [->|]; [eauto|rewrite lookup_insert_ne by done; eauto].
Qed.
