(** C47: the name-resolution cache *)
From stdpp Require Import gmap.
From Verif Require Import Lts DnsModel.
Local Open Scope Z_scope.

(** ** Specification *)
(** a key is cached when its entry is in the list, pending when its first resolution is under way *)
Definition cached (s : st) (k : nat) : Prop := exists n, nodes s !! k = Some n /\ n_queue n = None.
Definition pending (s : st) (k : nat) : Prop := exists n q, nodes s !! k = Some n /\ n_queue n = Some q.
(** the schedules of the theorems: the two races of this module (refuted below) are excluded: a refresh job never ends
    while its key is pending, and neither a refresh nor a flush runs between update_addr_node_cache and the end of the
    loop of addr_result *)
Definition normal (s : st) (e : ev) : Prop :=
  match e with Refresh k _ _ => inprog s = [] /\ ~ pending s k | Flush _ => inprog s = [] | _ => True end.
Inductive reach : st -> Prop :=
| reach_0 : reach init
| reach_S s e s' o : reach s -> normal s e -> step s e = Ok s' o -> reach s'.

(** ** counting *)
Definition b2z (b : bool) : Z := if b then 1 else 0.
Definition oz (o : option nat) (a : nat) : Z := b2z (bool_decide (o = Some a)).
Definition occ (j : nat) (l : list nat) : Z := foldr (λ x a, b2z (bool_decide (x = j)) + a) 0 l.
Definition sumz {A} (f : A -> Z) (l : list A) : Z := foldr (λ x a, f x + a) 0 l.
Definition summ (f : node -> Z) (m : gmap nat node) : Z := map_fold (λ _ n a, f n + a) 0 m.
Definition hget (h : gmap nat Z) (a : nat) : Z := default 0 (h !! a).
Definition hpos (h : gmap nat Z) : Prop := forall a z, h !! a = Some z -> 0 < z.
Lemma b2z_nonneg b : 0 <= b2z b. Proof. destruct b; cbn; lia. Qed.
Lemma oz_none a : oz None a = 0. Proof. done. Qed.
Lemma oz_nonneg o a : 0 <= oz o a. Proof. apply b2z_nonneg. Qed.
Lemma oz_same a : oz (Some a) a = 1. Proof. unfold oz. by rewrite bool_decide_true. Qed.
Lemma oz_pos o a : 0 < oz o a -> o = Some a.
Proof. unfold oz. case_bool_decide; [done|cbn; lia]. Qed.
Lemma sumz_app {A} (f : A -> Z) l1 l2 : sumz f (l1 ++ l2) = sumz f l1 + sumz f l2.
Proof. induction l1 as [|x l IH]; [done|]. change (f x + sumz f (l ++ l2) = f x + sumz f l + sumz f l2). lia. Qed.
Lemma sumz_cons {A} (f : A -> Z) x l : sumz f (x :: l) = f x + sumz f l. Proof. done. Qed.
Lemma sumz_one {A} (f : A -> Z) x : sumz f [x] = f x. Proof. cbn. lia. Qed.
Lemma sumz_mid {A} (f : A -> Z) l i x : l !! i = Some x -> sumz f l = sumz f (take i l) + f x + sumz f (drop (S i) l).
Proof. intros H. transitivity (sumz f (take i l ++ x :: drop (S i) l)); [by rewrite take_drop_middle|]. rewrite sumz_app, sumz_cons. lia. Qed.
Lemma sumz_del {A} (f : A -> Z) l i x : l !! i = Some x -> sumz f (delete i l) = sumz f l - f x.
Proof. intros H. rewrite delete_take_drop, sumz_app, (sumz_mid f l i x H). lia. Qed.
Lemma sumz_ins {A} (f : A -> Z) l i x y : l !! i = Some x -> sumz f (<[i := y]> l) = sumz f l - f x + f y.
Proof.
  intros H. pose proof (lookup_lt_Some _ _ _ H). rewrite insert_take_drop by done. rewrite sumz_app, sumz_cons, (sumz_mid f l i x H). lia.
Qed.
Lemma sumz_nonneg {A} (f : A -> Z) l : (forall x, 0 <= f x) -> 0 <= sumz f l.
Proof. intros Hf. induction l as [|x l IH]; [done|]. rewrite sumz_cons. specialize (Hf x). lia. Qed.
Lemma sumz_in {A} (f : A -> Z) l x : (forall x, 0 <= f x) -> x ∈ l -> f x <= sumz f l.
Proof. intros Hf. induction 1 as [x l|x y l _ IH]; rewrite sumz_cons; [pose proof (sumz_nonneg f l Hf); lia|]. specialize (Hf y). lia. Qed.
Lemma sumz_pos {A} (f : A -> Z) l : 0 < sumz f l -> exists x, x ∈ l /\ 0 < f x.
Proof.
  induction l as [|x l IH]; [cbn; lia|]. rewrite sumz_cons. intros H. destruct (decide (0 < f x)) as [|Hn]; [exists x; split; [by left|done]|].
  destruct IH as (y & H1 & H2); [lia|]. exists y. split; [by right|done].
Qed.
Lemma occ_sumz j l : occ j l = sumz (λ x, b2z (bool_decide (x = j))) l. Proof. done. Qed.
Lemma occ_cons j x l : occ j (x :: l) = b2z (bool_decide (x = j)) + occ j l. Proof. done. Qed.
Lemma occ_nonneg j l : 0 <= occ j l. Proof. apply sumz_nonneg. intros; apply b2z_nonneg. Qed.
Lemma occ_in j l : j ∈ l <-> 0 < occ j l.
Proof.
  induction l as [|x l IH]; [cbn; rewrite elem_of_nil; lia|]. rewrite occ_cons, elem_of_cons, IH. pose proof (occ_nonneg j l). case_bool_decide; cbn; [subst; split; [lia|by left]|].
  split; [intros [|]; [congruence|lia]|intros; right; lia].
Qed.
Lemma occ_nodup l : NoDup l <-> forall j, occ j l <= 1.
Proof.
  induction l as [|x l IH]; [split; [intros _ j; cbn; lia|intros _; constructor]|]. rewrite NoDup_cons, IH. split.
  - intros [H1 H2] j. rewrite occ_cons. case_bool_decide; cbn; [|specialize (H2 j); lia]. subst. destruct (decide (0 < occ j l)) as [G|G]; [by apply occ_in in G|lia].
  - intros H. split.
    + intros Hx. apply occ_in in Hx. specialize (H x). rewrite occ_cons, bool_decide_true in H by done. cbn in H. lia.
    + intros j. specialize (H j). rewrite occ_cons in H. pose proof (b2z_nonneg (bool_decide (x = j))). lia.
Qed.
Lemma summ_empty f : summ f ∅ = 0. Proof. apply map_fold_empty. Qed.
Lemma summ_new f m t h : m !! t = None -> summ f (<[t := h]> m) = f h + summ f m.
Proof. intros H. unfold summ. rewrite map_fold_insert_L; [done|intros; lia|done]. Qed.
Lemma summ_del f m t h : m !! t = Some h -> summ f (delete t m) = summ f m - f h.
Proof. intros H. rewrite <- (insert_delete m t h H) at 2. rewrite summ_new by apply lookup_delete. lia. Qed.
Lemma summ_upd f m t h h' : m !! t = Some h -> summ f (<[t := h']> m) = summ f m - f h + f h'.
Proof. intros H. rewrite <- insert_delete_insert, summ_new by apply lookup_delete. rewrite (summ_del _ _ _ _ H). lia. Qed.
Lemma summ_nonneg f m : (forall n, 0 <= f n) -> 0 <= summ f m.
Proof. intros Hf. induction m as [|t h m Hm IH] using map_ind; [rewrite summ_empty; lia|]. rewrite summ_new by done. specialize (Hf h). lia. Qed.
Lemma summ_in f m k n : (forall n, 0 <= f n) -> m !! k = Some n -> f n <= summ f m.
Proof. intros Hf H. pose proof (summ_del f m k n H). pose proof (summ_nonneg f (delete k m) Hf). lia. Qed.
Lemma summ_pos f m : 0 < summ f m -> exists t h, m !! t = Some h /\ 0 < f h.
Proof.
  induction m as [|t h m Hm IH] using map_ind; [rewrite summ_empty; lia|]. rewrite summ_new by done. destruct (decide (0 < f h)) as [E|E]; [exists t, h; by rewrite lookup_insert|].
  intros H. destruct IH as (u & k & H1 & H2); [lia|]. exists u, k. split; [|done]. rewrite lookup_insert_ne; [done|congruence].
Qed.
Lemma hget_ins h a z b : hget (<[a := z]> h) b = if decide (a = b) then z else hget h b.
Proof. unfold hget. case_decide; [subst; by rewrite lookup_insert|by rewrite lookup_insert_ne]. Qed.
Lemma hget_del h a b : hget (delete a h) b = if decide (a = b) then 0 else hget h b.
Proof. unfold hget. case_decide; [subst; by rewrite lookup_delete|by rewrite lookup_delete_ne]. Qed.
Lemma ref_spec h o h' : hpos h -> ref h o = Some h' -> hpos h' /\ forall b, hget h' b = hget h b + oz o b.
Proof.
  intros Hp. destruct o as [a|]; cbn; [|intros [= <-]; split; [done|intros; rewrite oz_none; lia]]. destruct (h !! a) as [z|] eqn:E; [|done]. intros [= <-]. split.
  - intros b y. destruct (decide (a = b)) as [->|]; [rewrite lookup_insert|rewrite lookup_insert_ne by done; apply Hp]. intros [= <-]. apply Hp in E. lia.
  - intros b. rewrite hget_ins. unfold oz. case_decide; [subst; rewrite bool_decide_true by done; unfold hget; rewrite E; done|]. rewrite bool_decide_false by congruence. cbn. lia.
Qed.
Lemma unref_spec h o h' : hpos h -> unref h o = Some h' -> hpos h' /\ forall b, hget h' b = hget h b - oz o b.
Proof.
  intros Hp. destruct o as [a|]; cbn; [|intros [= <-]; split; [done|intros; rewrite oz_none; lia]]. destruct (h !! a) as [z|] eqn:E; [|done]. pose proof (Hp _ _ E) as Hz. case_decide as Hd.
  - intros [= <-]. split.
    + intros b y. destruct (decide (a = b)) as [->|]; [by rewrite lookup_delete|rewrite lookup_delete_ne by done; apply Hp].
    + intros b. rewrite hget_del. unfold oz. case_decide; [subst b; rewrite bool_decide_true by done; unfold hget; rewrite E; cbn; lia|]. rewrite bool_decide_false by congruence. cbn. lia.
  - intros [= <-]. split.
    + intros b y. destruct (decide (a = b)) as [->|]; [rewrite lookup_insert|rewrite lookup_insert_ne by done; apply Hp]. intros [= <-]. lia.
    + intros b. rewrite hget_ins. unfold oz. case_decide; [subst b; rewrite bool_decide_true by done; unfold hget; rewrite E; cbn; lia|]. rewrite bool_decide_false by congruence. cbn. lia.
Qed.
Lemma hget_live h a : 0 < hget h a -> is_Some (h !! a).
Proof. unfold hget. destruct (h !! a); cbn; [eauto|lia]. Qed.
Lemma ref_ok h o : (forall b, oz o b <= hget h b) -> ref h o <> None.
Proof. destruct o as [a|]; [|done]. intros H. specialize (H a). rewrite oz_same in H. destruct (hget_live h a) as [z E]; [lia|]. cbn. by rewrite E. Qed.
Lemma unref_ok h o : (forall b, oz o b <= hget h b) -> unref h o <> None.
Proof. destruct o as [a|]; [|done]. intros H. specialize (H a). rewrite oz_same in H. destruct (hget_live h a) as [z E]; [lia|]. cbn. rewrite E. by case_decide. Qed.

(** ** the invariant *)
Definition nref (a : nat) (n : node) : Z := oz (n_addr n) a + oz (n_last n) a.
Definition nq (r : nat) (n : node) : Z := match n_queue n with Some q => occ r q | None => 0 end.
Lemma nref_nonneg a n : 0 <= nref a n. Proof. unfold nref. pose proof (oz_nonneg (n_addr n) a). pose proof (oz_nonneg (n_last n) a). lia. Qed.
Lemma nq_nonneg a n : 0 <= nq a n. Proof. unfold nq. destruct (n_queue n); [apply occ_nonneg|done]. Qed.
Definition refs (s : st) (a : nat) : Z := summ (nref a) (nodes s) + sumz (λ p : nat * option nat, oz p.2 a) (posted s) + occ a (held s).
Definition reqs (s : st) (r : nat) : Z :=
  sumz (λ p : nat * option nat, b2z (bool_decide (p.1 = r))) (answered s) + sumz (λ p : nat * option nat, b2z (bool_decide (p.1 = r))) (posted s)
  + sumz (λ p : list nat * option nat, occ r p.1) (inprog s) + summ (nq r) (nodes s).
Definition okp (s : st) (r : nat) (a : option nat) : Prop := exists k, (r, k) ∈ asked s /\ match a with Some a => born s !! a = Some k | None => True end.

Record invA (s : st) : Prop := InvA {
  a_nd : NoDup (lst s); a_lst : forall k, k ∈ lst s <-> cached s k; a_cnt : cnt s = Z.of_nat (length (lst s));
  a_ndr : NoDup (resolving s); a_res : forall k, k ∈ resolving s <-> pending s k;
  a_pend : forall k n q, nodes s !! k = Some n -> n_queue n = Some q -> n_addr n = None /\ n_last n = None /\ q <> [] }.
Record invH (s : st) : Prop := InvH { h_pos : hpos (heap s); h_refs : forall a, hget (heap s) a = refs s a;
  h_prog : forall q a, (q, Some a) ∈ inprog s -> exists k n, nodes s !! k = Some n /\ n_addr n = Some a }.
Record invR (s : st) : Prop := InvR { r_nd : NoDup (asked s).*1; r_req : forall r, occ r (asked s).*1 = reqs s r }.
Record invO (s : st) : Prop := InvO {
  o_addr : forall k n a, nodes s !! k = Some n -> n_addr n = Some a \/ n_last n = Some a -> born s !! a = Some k;
  o_q : forall k n q r, nodes s !! k = Some n -> n_queue n = Some q -> r ∈ q -> (r, k) ∈ asked s;
  o_prog : forall q a r, (q, a) ∈ inprog s -> r ∈ q -> okp s r a;
  o_post : forall r a, (r, a) ∈ posted s -> okp s r a;
  o_ans : forall r a, (r, a) ∈ answered s -> okp s r a;
  o_heap : forall a z, heap s !! a = Some z -> is_Some (born s !! a) }.
Definition inv (s : st) : Prop := invA s /\ invH s /\ invR s /\ invO s.
Lemma inv_init : inv init.
Proof.
  split_and!; split; cbn; try done; try (by constructor); try (intros; by rewrite lookup_empty in *).
  - intros k. rewrite elem_of_nil. split; [done|]. intros (n & H & _). done.
  - intros k. rewrite elem_of_nil. split; [done|]. intros (n & q & H & _). done.
  - intros q a H. by apply elem_of_nil in H.
  - intros q a r H. by apply elem_of_nil in H.
  - intros r a H. by apply elem_of_nil in H.
  - intros r a H. by apply elem_of_nil in H.
Qed.
Ltac sm := cbn [nodes lst cnt heap resolving refreshing inprog posted held asked answered born s_nodes s_lst s_cnt s_heap s_resolving s_refreshing s_inprog s_posted s_held s_asked s_answered s_born touch n_queue n_addr n_last n_lt n_lv n_err] in *.
Lemma invA_ext s s' : invA s -> nodes s' = nodes s -> lst s' = lst s -> cnt s' = cnt s -> resolving s' = resolving s -> invA s'.
Proof. destruct s, s'; cbn. intros [] -> -> -> ->. by split. Qed.
Lemma okp_mono s s' r a : okp s r a -> asked s ⊆ asked s' -> (forall b k, born s !! b = Some k -> born s' !! b = Some k) -> okp s' r a.
Proof. intros (k & H1 & H2) Ha Hb. exists k. split; [by apply Ha|]. destruct a; [by apply Hb|done]. Qed.
Lemma okp_ext s s' r a : okp s r a -> asked s' = asked s -> born s' = born s -> okp s' r a.
Proof. intros H E1 E2. eapply okp_mono; [done|by rewrite E1|intros b k; by rewrite E2]. Qed.
Lemma elem_snoc {A} (l : list A) x y : x ∈ l ++ [y] <-> x ∈ l \/ x = y.
Proof. rewrite elem_of_app, elem_of_list_singleton. done. Qed.

Lemma remove1_snoc_perm (k : nat) l : k ∈ l -> remove1 k l ++ [k] ≡ₚ l.
Proof. intros H. rewrite (remove1_perm k l H) at 2. rewrite Permutation_app_comm. done. Qed.
Lemma inv_touch s k n now ok : inv s -> nodes s !! k = Some n -> n_queue n = None -> inv (touch s k n now ok).
Proof.
  intros (A & H & R & O) Hk Hq. destruct A as [A1 A2 A3 A4 A5 A6], H as [H1 H2 H3], R as [R1 R2], O as [O1 O2 O3 O4 O5 O6].
  assert (Hin : k ∈ lst s) by (apply A2; by exists n).
  set (n' := Node None (n_addr n) (n_last n) now (if bool_decide (now - n_lv n > FRESH) then now else n_lv n) (n_err n)).
  assert (Hn' : nodes (touch s k n now ok) = <[k := n']> (nodes s)) by done.
  assert (Hl : forall k' m, <[k := n']> (nodes s) !! k' = Some m -> exists m0, nodes s !! k' = Some m0 /\ n_queue m0 = n_queue m /\ n_addr m0 = n_addr m /\ n_last m0 = n_last m).
  { intros k' m. destruct (decide (k = k')) as [<-|]; [rewrite lookup_insert; intros [= <-]; by exists n|rewrite lookup_insert_ne by done; intros; by exists m]. }
  assert (Hr : forall k' m, nodes s !! k' = Some m -> exists m0, <[k := n']> (nodes s) !! k' = Some m0 /\ n_queue m0 = n_queue m /\ n_addr m0 = n_addr m /\ n_last m0 = n_last m).
  { intros k' m. destruct (decide (k = k')) as [<-|]; [rewrite lookup_insert; rewrite Hk; intros [= <-]; by exists n'|rewrite lookup_insert_ne by done; intros; by exists m]. }
  split_and!; split.
  - cbn. by rewrite (remove1_snoc_perm _ _ Hin).
  - intros k'. change (lst (touch s k n now ok)) with (remove1 k (lst s) ++ [k]). rewrite (remove1_snoc_perm _ _ Hin), A2. unfold cached. rewrite Hn'. split.
    + intros (m & E1 & E2). destruct (Hr _ _ E1) as (m0 & ? & ? & _). exists m0. split; [done|congruence].
    + intros (m & E1 & E2). destruct (Hl _ _ E1) as (m0 & ? & ? & _). exists m0. split; [done|congruence].
  - change (lst (touch s k n now ok)) with (remove1 k (lst s) ++ [k]). by rewrite (remove1_snoc_perm _ _ Hin).
  - done.
  - intros k'. change (resolving (touch s k n now ok)) with (resolving s). rewrite A5. unfold pending. rewrite Hn'. split.
    + intros (m & q & E1 & E2). destruct (Hr _ _ E1) as (m0 & ? & ? & _). exists m0, q. split; [done|congruence].
    + intros (m & q & E1 & E2). destruct (Hl _ _ E1) as (m0 & ? & ? & _). exists m0, q. split; [done|congruence].
  - rewrite Hn'. intros k' m q E1 E2. destruct (Hl _ _ E1) as (m0 & F1 & F2 & F3 & F4). rewrite <- F3, <- F4. eapply A6; [done|congruence].
  - done.
  - intros a. change (heap (touch s k n now ok)) with (heap s). rewrite H2. unfold refs. rewrite Hn'. sm. rewrite (summ_upd _ _ _ _ _ Hk).
    change (nref a n') with (nref a n). lia.
  - rewrite Hn'. intros q a Hi. destruct (H3 q a Hi) as (k' & m & E1 & E2). destruct (Hr _ _ E1) as (m0 & ? & ? & ? & _). exists k', m0. split; [done|congruence].
  - done.
  - intros r. change (asked (touch s k n now ok)) with (asked s). rewrite R2. unfold reqs. rewrite Hn'. sm. rewrite (summ_upd _ _ _ _ _ Hk).
    assert (nq r n' = nq r n) as ->; [unfold nq; rewrite Hq; done|]. lia.
  - rewrite Hn'. intros k' m a E1 E2. destruct (Hl _ _ E1) as (m0 & F1 & F2 & F3 & F4). eapply (O1 k' m0); [done|]. rewrite F3, F4. done.
  - rewrite Hn'. intros k' m q r E1 E2. destruct (Hl _ _ E1) as (m0 & F1 & F2 & F3 & F4). eapply (O2 k' m0); [done|congruence].
  - intros q a r Hi Hr'. eapply okp_ext; [by eapply O3|done|done].
  - intros r a Hi. eapply okp_ext; [by eapply O4|done|done].
  - intros r a Hi. eapply okp_ext; [by eapply O5|done|done].
  - done.
Qed.
Lemma inv_post s k n r (a : option nat) h : inv s -> r ∉ (asked s).*1 -> nodes s !! k = Some n -> a = n_addr n \/ a = n_last n -> ref (heap s) a = Some h ->
  inv (s_heap h (s_posted (posted s ++ [(r, a)]) (s_asked ((r, k) :: asked s) s))).
Proof.
  intros (A & H & R & O) Hr Hk Ha Hh. destruct H as [H1 H2 H3], R as [R1 R2], O as [O1 O2 O3 O4 O5 O6].
  destruct (ref_spec _ _ _ H1 Hh) as [P1 P2].
  assert (Hm : forall r' a', okp s r' a' -> okp (s_heap h (s_posted (posted s ++ [(r, a)]) (s_asked ((r, k) :: asked s) s))) r' a').
  { intros r' a' Ho. eapply okp_mono; [done|by apply list_subseteq_skip || set_solver|done]. }
  split_and!; [by eapply invA_ext|split..].
  - done.
  - intros b. sm. rewrite P2, H2. unfold refs; sm. rewrite sumz_app, sumz_one. cbn [snd]. lia.
  - done.
  - sm. rewrite fmap_cons. by constructor.
  - intros x. sm. rewrite fmap_cons, occ_cons, R2. unfold reqs; sm. rewrite sumz_app, sumz_one. cbn [fst]. lia.
  - done.
  - intros k' m q r' E1 E2 E3. sm. right. by eapply O2.
  - intros q b r' E1 E2. apply Hm. by eapply O3.
  - intros r' b. sm. rewrite elem_snoc. intros [E|[= -> ->]]; [apply Hm; by apply O4|]. exists k. sm. split; [by left|]. destruct a as [a|]; [|done]. eapply O1; [done|].
    destruct Ha; [left|right]; congruence.
  - intros r' b E. apply Hm. by apply O5.
  - intros b z. sm. intros E. assert (Hz : 0 < hget (heap s) b).
    { pose proof (P2 b) as Hb. unfold hget in Hb at 1. rewrite E in Hb. cbn in Hb. pose proof (P1 b z E). destruct (decide (0 < hget (heap s) b)); [done|].
      assert (a = Some b) as -> by (apply oz_pos; lia). cbn in Hh. destruct (heap s !! b) eqn:E'; [|done]. unfold hget in *. rewrite E' in *. apply H1 in E'. cbn in *. lia. }
    apply hget_live in Hz as [y Hy]. by eapply O6.
Qed.
Lemma ref_dom h o h' a z : ref h o = Some h' -> h' !! a = Some z -> is_Some (h !! a).
Proof. destruct o as [b|]; cbn; [|intros [= ->]; eauto]. destruct (h !! b) eqn:E; [|done]. intros [= <-]. destruct (decide (b = a)) as [->|]; [eauto|rewrite lookup_insert_ne by done; eauto]. Qed.
Lemma unref_dom h o h' a z : unref h o = Some h' -> h' !! a = Some z -> is_Some (h !! a).
Proof.
  destruct o as [b|]; cbn; [|intros [= ->]; eauto]. destruct (h !! b) eqn:E; [|done]. case_decide; intros [= <-].
  - destruct (decide (b = a)) as [->|]; [by rewrite lookup_delete|rewrite lookup_delete_ne by done; eauto].
  - destruct (decide (b = a)) as [->|]; [eauto|rewrite lookup_insert_ne by done; eauto].
Qed.
Lemma inv_ask_new s k r now : inv s -> r ∉ (asked s).*1 -> nodes s !! k = None ->
  inv (s_nodes (<[k := Node (Some [r]) None None now now 0]> (nodes s)) (s_resolving (k :: resolving s) (s_asked ((r, k) :: asked s) s))).
Proof.
  intros (A & H & R & O) Hr Hk. destruct A as [A1 A2 A3 A4 A5 A6], H as [H1 H2 H3], R as [R1 R2], O as [O1 O2 O3 O4 O5 O6].
  set (n' := Node (Some [r]) None None now now 0). set (s' := s_nodes _ _).
  assert (Hm : forall r' a', okp s r' a' -> okp s' r' a').
  { intros r' a' Ho. eapply okp_mono; [done|by apply list_subseteq_skip || set_solver|done]. }
  split_and!; split; subst s'; sm; try done.
  - intros k'. rewrite A2. unfold cached; sm. destruct (decide (k = k')) as [<-|]; [rewrite lookup_insert, Hk|by rewrite lookup_insert_ne].
    split; [intros (? & ? & ?); done|]. intros (m & [= <-] & ?). done.
  - constructor; [|done]. rewrite A5. intros (m & q & E & _). congruence.
  - intros k'. rewrite elem_of_cons, A5. unfold pending; sm. destruct (decide (k = k')) as [<-|Hn]; [rewrite lookup_insert, Hk|rewrite lookup_insert_ne by done].
    + split; [intros _; by exists n', [r]|by left].
    + split; [intros [E|E]; [congruence|done]|by right].
  - intros k' m q. destruct (decide (k = k')) as [<-|Hn]; [rewrite lookup_insert; intros [= <-] [= <-]; done|rewrite lookup_insert_ne by done; apply A6].
  - intros a. rewrite H2. unfold refs; sm. rewrite summ_new by done. unfold nref; cbn [n' n_addr n_last]. rewrite oz_none. lia.
  - intros q a Hi. destruct (H3 q a Hi) as (k' & m & E1 & E2). exists k', m. rewrite lookup_insert_ne; [done|congruence].
  - rewrite fmap_cons. by constructor.
  - intros x. rewrite fmap_cons, occ_cons, R2. unfold reqs; sm. rewrite summ_new by done. assert (nq x n' = b2z (bool_decide (r = x)) + 0) as -> by done. cbn [fst]. lia.
  - intros k' m a. destruct (decide (k = k')) as [<-|Hn]; [rewrite lookup_insert; intros [= <-] [?|?]; done|rewrite lookup_insert_ne by done; apply O1].
  - intros k' m q r'. destruct (decide (k = k')) as [<-|Hn]; [rewrite lookup_insert; intros [= <-] [= <-]|rewrite lookup_insert_ne by done].
    + intros ->%elem_of_list_singleton. by left.
    + intros. right. by eapply O2.
  - intros q b r' E1 E2. apply Hm. by eapply O3.
  - intros r' b E. apply Hm. by apply O4.
  - intros r' b E. apply Hm. by apply O5.
Qed.
Lemma inv_ask_more s k n q r : inv s -> r ∉ (asked s).*1 -> nodes s !! k = Some n -> n_queue n = Some q ->
  inv (s_nodes (<[k := Node (Some (r :: q)) (n_addr n) (n_last n) (n_lt n) (n_lv n) (n_err n)]> (nodes s)) (s_asked ((r, k) :: asked s) s)).
Proof.
  intros (A & H & R & O) Hr Hk Hq. destruct A as [A1 A2 A3 A4 A5 A6], H as [H1 H2 H3], R as [R1 R2], O as [O1 O2 O3 O4 O5 O6].
  set (n' := Node (Some (r :: q)) _ _ _ _ _). set (s' := s_nodes _ _).
  assert (Hm : forall r' a', okp s r' a' -> okp s' r' a').
  { intros r' a' Ho. eapply okp_mono; [done|by apply list_subseteq_skip || set_solver|done]. }
  split_and!; split; subst s'; sm; try done.
  - intros k'. rewrite A2. unfold cached; sm. destruct (decide (k = k')) as [<-|]; [rewrite lookup_insert, Hk|by rewrite lookup_insert_ne].
    split; intros (m & [= <-] & E); [congruence|done].
  - intros k'. rewrite A5. unfold pending; sm. destruct (decide (k = k')) as [<-|Hn]; [rewrite lookup_insert, Hk|by rewrite lookup_insert_ne].
    split; intros _; [by exists n', (r :: q)|by exists n, q].
  - intros k' m p. destruct (decide (k = k')) as [<-|Hn]; [rewrite lookup_insert; intros [= <-] [= <-]|rewrite lookup_insert_ne by done; apply A6].
    destruct (A6 _ _ _ Hk Hq) as (? & ? & _). done.
  - intros a. rewrite H2. unfold refs; sm. rewrite (summ_upd _ _ _ _ _ Hk). change (nref a n') with (nref a n). lia.
  - intros p a Hi. destruct (H3 p a Hi) as (k' & m & E1 & E2). destruct (decide (k = k')) as [<-|Hn]; [exists k, n'|exists k', m; by rewrite lookup_insert_ne].
    rewrite lookup_insert. split; [done|]. rewrite Hk in E1. injection E1 as <-. done.
  - rewrite fmap_cons. by constructor.
  - intros x. rewrite fmap_cons, occ_cons, R2. unfold reqs; sm. rewrite (summ_upd _ _ _ _ _ Hk). assert (nq x n' = b2z (bool_decide (r = x)) + nq x n) as -> by (unfold nq; by rewrite Hq). cbn [fst]. lia.
  - intros k' m a. destruct (decide (k = k')) as [<-|Hn]; [rewrite lookup_insert; intros [= <-]; apply (O1 k n); done|rewrite lookup_insert_ne by done; apply O1].
  - intros k' m p r'. destruct (decide (k = k')) as [<-|Hn]; [rewrite lookup_insert; intros [= <-] [= <-]|rewrite lookup_insert_ne by done].
    + intros [->|E]%elem_of_cons; [by left|]. right. by eapply O2.
    + intros. right. by eapply O2.
  - intros p b r' E1 E2. apply Hm. by eapply O3.
  - intros r' b E. apply Hm. by apply O4.
  - intros r' b E. apply Hm. by apply O5.
Qed.
(** the events that change only references *)
Lemma inv_hold s a h : inv s -> ref (heap s) (Some a) = Some h -> inv (s_heap h (s_held (a :: held s) s)).
Proof.
  intros (A & H & R & O) Hh. destruct H as [H1 H2 H3], R as [R1 R2], O as [O1 O2 O3 O4 O5 O6]. destruct (ref_spec _ _ _ H1 Hh) as [P1 P2].
  split_and!; [by eapply invA_ext|split; sm; try done..].
  - intros b. rewrite P2, H2. unfold refs; sm. rewrite occ_cons. unfold oz. rewrite (bool_decide_ext (Some a = Some b) (a = b)) by (split; congruence). lia.
  - intros b z E. destruct (ref_dom _ _ _ _ _ Hh E) as [y Hy]. by eapply O6.
Qed.
Lemma inv_release s i a h : inv s -> held s !! i = Some a -> unref (heap s) (Some a) = Some h -> inv (s_heap h (s_held (delete i (held s)) s)).
Proof.
  intros (A & H & R & O) Hi Hh. destruct H as [H1 H2 H3], R as [R1 R2], O as [O1 O2 O3 O4 O5 O6]. destruct (unref_spec _ _ _ H1 Hh) as [P1 P2].
  split_and!; [by eapply invA_ext|split; sm; try done..].
  - intros b. rewrite P2, H2. unfold refs; sm. rewrite !occ_sumz, (sumz_del _ _ _ _ Hi). unfold oz. rewrite (bool_decide_ext (Some a = Some b) (a = b)) by (split; congruence). lia.
  - intros b z E. destruct (unref_dom _ _ _ _ _ Hh E) as [y Hy]. by eapply O6.
Qed.
Lemma inv_deliver s i r a h : inv s -> posted s !! i = Some (r, a) -> unref (heap s) a = Some h ->
  inv (s_heap h (s_posted (delete i (posted s)) (s_answered ((r, a) :: answered s) s))).
Proof.
  intros (A & H & R & O) Hi Hh. destruct H as [H1 H2 H3], R as [R1 R2], O as [O1 O2 O3 O4 O5 O6]. destruct (unref_spec _ _ _ H1 Hh) as [P1 P2].
  split_and!; [by eapply invA_ext|split; sm; try done..].
  - intros b. rewrite P2, H2. unfold refs; sm. rewrite (sumz_del _ _ _ _ Hi). cbn [snd]. lia.
  - intros x. rewrite R2. unfold reqs; sm. rewrite (sumz_del _ _ _ _ Hi), sumz_cons. cbn [fst]. lia.
  - intros x b E. apply O4. rewrite delete_take_drop in E. rewrite <- (take_drop_middle _ _ _ Hi). apply elem_of_app in E as [E|E]; apply elem_of_app; [by left|right; by right].
  - intros x b E. apply elem_of_cons in E as [[= -> ->]|E]; [|by apply O5]. apply (O4 r a). by eapply elem_of_list_lookup_2.
  - intros b z E. destruct (unref_dom _ _ _ _ _ Hh E) as [y Hy]. by eapply O6.
Qed.
Lemma inv_answer s i r q a h : inv s -> inprog s !! i = Some (r :: q, a) -> ref (heap s) a = Some h ->
  inv (s_heap h (s_inprog (<[i := (q, a)]> (inprog s)) (s_posted (posted s ++ [(r, a)]) s))).
Proof.
  intros (A & H & R & O) Hi Hh. destruct H as [H1 H2 H3], R as [R1 R2], O as [O1 O2 O3 O4 O5 O6]. destruct (ref_spec _ _ _ H1 Hh) as [P1 P2].
  pose proof (elem_of_list_lookup_2 _ _ _ Hi) as Hin.
  split_and!; [by eapply invA_ext|split; sm; try done..].
  - intros b. rewrite P2, H2. unfold refs; sm. rewrite sumz_app, sumz_one. cbn [snd]. lia.
  - intros p b E. apply elem_of_list_lookup in E as [j E]. destruct (decide (i = j)) as [<-|Hn].
    + rewrite list_lookup_insert in E by (by eapply lookup_lt_Some). injection E as <- ->. by eapply H3.
    + rewrite list_lookup_insert_ne in E by done. eapply H3. by eapply elem_of_list_lookup_2.
  - intros x. rewrite R2. unfold reqs; sm. rewrite (sumz_ins _ _ _ _ _ Hi), sumz_app, sumz_one. cbn [fst]. rewrite occ_cons. lia.
  - intros p b x E Hx. apply elem_of_list_lookup in E as [j E]. destruct (decide (i = j)) as [<-|Hn].
    + rewrite list_lookup_insert in E by (by eapply lookup_lt_Some). injection E as <- ->. apply (O3 (r :: q)); [done|by right].
    + rewrite list_lookup_insert_ne in E by done. apply (O3 p); [by eapply elem_of_list_lookup_2|done].
  - intros x b. rewrite elem_snoc. intros [E|[= -> ->]]; [by apply O4|]. apply (O3 (r :: q)); [done|by left].
  - intros b z E. destruct (ref_dom _ _ _ _ _ Hh E) as [y Hy]. by eapply O6.
Qed.
Lemma inv_answer_end s i a : inv s -> inprog s !! i = Some ([], a) -> inv (s_inprog (delete i (inprog s)) s).
Proof.
  intros (A & H & R & O) Hi. destruct H as [H1 H2 H3], R as [R1 R2], O as [O1 O2 O3 O4 O5 O6].
  assert (Hsub : forall x, x ∈ delete i (inprog s) -> x ∈ inprog s).
  { intros x E. rewrite delete_take_drop in E. rewrite <- (take_drop_middle _ _ _ Hi). apply elem_of_app in E as [E|E]; apply elem_of_app; [by left|right; by right]. }
  split_and!; [by eapply invA_ext|split; sm; try done..].
  - intros q b E. apply (H3 q). by apply Hsub.
  - intros x. rewrite R2. unfold reqs; sm. rewrite (sumz_del _ _ _ _ Hi). cbn [fst]. change (occ x []) with 0. lia.
  - intros q b x E. apply O3. by apply Hsub.
Qed.
Lemma inv_resolve_fail s k n q : inv s -> k ∈ resolving s -> nodes s !! k = Some n -> n_queue n = Some q ->
  inv (s_nodes (delete k (nodes s)) (s_resolving (remove1 k (resolving s)) (s_inprog (inprog s ++ [(q, None)]) s))).
Proof.
  intros (A & H & R & O) Hr Hk Hq. destruct A as [A1 A2 A3 A4 A5 A6], H as [H1 H2 H3], R as [R1 R2], O as [O1 O2 O3 O4 O5 O6].
  destruct (A6 _ _ _ Hk Hq) as (Ha & Hl & _).
  split_and!; split; sm; try done.
  - intros k'. rewrite A2. unfold cached; sm. destruct (decide (k = k')) as [<-|]; [rewrite lookup_delete, Hk|by rewrite lookup_delete_ne].
    split; intros (m & E & ?); [congruence|done].
  - by apply remove1_nodup.
  - intros k'. unfold pending; sm. destruct (decide (k = k')) as [<-|Hn]; [rewrite lookup_delete|rewrite lookup_delete_ne by done].
    + split; [|intros (? & ? & ? & _); done]. pose proof (remove1_perm k _ Hr) as Hp. rewrite Hp in A4. apply NoDup_cons in A4 as [? _]. done.
    + pose proof (remove1_perm k _ Hr) as Hp. pose proof (A5 k') as B. rewrite Hp, elem_of_cons in B. rewrite <- B. split; [by right|intros [?|?]; [congruence|done]].
  - intros k' m p. destruct (decide (k = k')) as [<-|Hn]; [by rewrite lookup_delete|rewrite lookup_delete_ne by done; apply A6].
  - intros a. rewrite H2. unfold refs; sm. rewrite (summ_del _ _ _ _ Hk). assert (nref a n = 0) as -> by (unfold nref; by rewrite Ha, Hl). lia.
  - intros p a. rewrite elem_snoc. intros [Hi|[=]]. destruct (H3 p a Hi) as (k' & m & E1 & E2). exists k', m. rewrite lookup_delete_ne; [done|congruence].
  - intros x. rewrite R2. unfold reqs; sm. rewrite (summ_del _ _ _ _ Hk), sumz_app, sumz_one. assert (nq x n = occ x q) as -> by (unfold nq; by rewrite Hq). cbn [fst]. lia.
  - intros k' m a. destruct (decide (k = k')) as [<-|Hn]; [by rewrite lookup_delete|rewrite lookup_delete_ne by done; apply O1].
  - intros k' m p r. destruct (decide (k = k')) as [<-|Hn]; [by rewrite lookup_delete|rewrite lookup_delete_ne by done; apply O2].
  - intros p a r. rewrite elem_snoc. intros [Hi|[= -> ->]] Hin; [by apply (O3 p)|]. exists k. split; [by eapply O2|done].
Qed.
Lemma inv_resolve_ok s k n q res h b : inv s -> k ∈ resolving s -> nodes s !! k = Some n -> n_queue n = Some q ->
  match res with Some a => a ∉ dom (born s) /\ h = <[a := 2]> (heap s) /\ b = <[a := k]> (born s) | None => h = heap s /\ b = born s end ->
  inv (s_heap h (s_born b (s_nodes (<[k := Node None res res (n_lt n) (n_lv n) (n_err n)]> (nodes s)) (s_lst (lst s ++ [k]) (s_cnt (cnt s + 1)
      (s_resolving (remove1 k (resolving s)) (s_inprog (inprog s ++ [(q, res)]) s))))))).
Proof.
  intros (A & H & R & O) Hr Hk Hq Hres. destruct A as [A1 A2 A3 A4 A5 A6], H as [H1 H2 H3], R as [R1 R2], O as [O1 O2 O3 O4 O5 O6].
  destruct (A6 _ _ _ Hk Hq) as (Ha & Hl & _). set (n' := Node None res res _ _ _). set (s' := s_heap _ _).
  assert (Hnc : k ∉ lst s). { rewrite A2. intros (m & E1 & E2). congruence. }
  assert (Hb : forall a k', born s !! a = Some k' -> b !! a = Some k').
  { intros a k' E. destruct res as [x|]; [|by destruct Hres as [_ ->]]. destruct Hres as (F & _ & ->). rewrite lookup_insert_ne; [done|]. intros <-. apply F. by eapply elem_of_dom_2. }
  assert (Hf : forall a, res = Some a -> heap s !! a = None).
  { intros a ->. destruct Hres as (F & _). destruct (heap s !! a) eqn:E; [|done]. apply O6 in E. by apply elem_of_dom in E. }
  assert (Hg : forall a, hget h a = hget (heap s) a + 2 * oz res a).
  { intros a. destruct res as [x|]; [|destruct Hres as [-> _]; rewrite oz_none; lia]. destruct Hres as (_ & -> & _). rewrite hget_ins. unfold oz. case_decide.
    - subst x. rewrite bool_decide_true by done. unfold hget. rewrite (Hf a) by done. done.
    - rewrite bool_decide_false by congruence. cbn. lia. }
  assert (Hm : forall r' a', okp s r' a' -> okp s' r' a').
  { intros r' a' Ho. eapply okp_mono; [done|done|]. exact Hb. }
  assert (Hbk : forall a, res = Some a -> b !! a = Some k). { intros a ->. destruct Hres as (_ & _ & ->). by rewrite lookup_insert. }
  split_and!; split; subst s'; sm; try done.
  - apply NoDup_app. split_and!; [done| |apply NoDup_singleton]. intros x Hx ->%elem_of_list_singleton. done.
  - intros k'. rewrite elem_snoc, A2. unfold cached; sm. destruct (decide (k = k')) as [<-|]; [rewrite lookup_insert|rewrite lookup_insert_ne by done].
    + split; [intros _; by exists n'|by right].
    + split; [intros [?|?]; [done|congruence]|by left].
  - rewrite app_length. cbn [length]. lia.
  - by apply remove1_nodup.
  - intros k'. unfold pending; sm. pose proof (remove1_perm k _ Hr) as Hp. destruct (decide (k = k')) as [<-|Hn]; [rewrite lookup_insert|rewrite lookup_insert_ne by done].
    + rewrite Hp in A4. apply NoDup_cons in A4 as [? _]. split; [done|]. intros (? & ? & [= <-] & ?). done.
    + pose proof (A5 k') as B. rewrite Hp, elem_of_cons in B. rewrite <- B. split; [by right|intros [?|?]; [congruence|done]].
  - intros k' m p. destruct (decide (k = k')) as [<-|Hn]; [rewrite lookup_insert; intros [= <-]; done|rewrite lookup_insert_ne by done; apply A6].
  - intros a z E. destruct res as [x|]; [|destruct Hres as [-> _]; by eapply H1]. destruct Hres as (_ & -> & _). destruct (decide (x = a)) as [->|].
    + rewrite lookup_insert in E. injection E as <-. lia.
    + rewrite lookup_insert_ne in E by done. by eapply H1.
  - intros a. rewrite Hg, H2. unfold refs; sm. rewrite (summ_upd _ _ _ _ _ Hk). assert (nref a n = 0) as -> by (unfold nref; by rewrite Ha, Hl).
    assert (nref a n' = 2 * oz res a) as -> by (unfold nref; cbn [n' n_addr n_last]; lia). lia.
  - intros p a. rewrite elem_snoc. intros [Hi|[= -> <-]]; [|exists k, n'; by rewrite lookup_insert]. destruct (H3 p a Hi) as (k' & m & E1 & E2).
    exists k', m. rewrite lookup_insert_ne; [done|]. congruence.
  - intros x. rewrite R2. unfold reqs; sm. rewrite (summ_upd _ _ _ _ _ Hk), sumz_app, sumz_one. assert (nq x n = occ x q) as -> by (unfold nq; by rewrite Hq).
    change (nq x n') with 0. cbn [fst]. lia.
  - intros k' m a. destruct (decide (k = k')) as [<-|Hn]; [rewrite lookup_insert; intros [= <-] E|rewrite lookup_insert_ne by done; intros; by eapply Hb, O1].
    apply Hbk. cbn [n' n_addr n_last] in E. tauto.
  - intros k' m p r. destruct (decide (k = k')) as [<-|Hn]; [rewrite lookup_insert; by intros [= <-]|rewrite lookup_insert_ne by done; apply O2].
  - intros p a r. rewrite elem_snoc. intros [Hi|[= -> ->]] Hin; [by apply Hm, (O3 p)|]. exists k. sm. split; [by eapply O2|]. destruct res as [x|]; [by apply Hbk|done].
  - intros r a E. by apply Hm, O4.
  - intros r a E. by apply Hm, O5.
  - intros a z E. destruct (decide (res = Some a)) as [Ea|Ea]; [by rewrite (Hbk _ Ea)|]. assert (heap s !! a = Some z) as E'.
    { destruct res as [x|]; [destruct Hres as (_ & -> & _); rewrite lookup_insert_ne in E by congruence; done|destruct Hres as [-> _]; done]. }
    destruct (O6 _ _ E') as [y Hy]. by rewrite (Hb _ _ Hy).
Qed.
(** refresh: the entry k is created or replaced *)
Lemma inv_refresh s k n' h b l c rf : inv s -> inprog s = [] -> ~ pending s k -> n_queue n' = None ->
  match nodes s !! k with
  | Some n => l = remove1 k (lst s) ++ [k] /\ c = cnt s /\ (forall a, hget h a = hget (heap s) a - nref a n + nref a n')
  | None => l = lst s ++ [k] /\ c = cnt s + 1 /\ (forall a, hget h a = hget (heap s) a + nref a n') end ->
  hpos h -> (forall a k', born s !! a = Some k' -> b !! a = Some k') -> (forall a, n_addr n' = Some a \/ n_last n' = Some a -> b !! a = Some k) ->
  (forall a z, h !! a = Some z -> is_Some (b !! a)) ->
  inv (s_nodes (<[k := n']> (nodes s)) (s_heap h (s_born b (s_lst l (s_cnt c (s_refreshing rf s)))))).
Proof.
  intros (A & H & R & O) Hip Hnp Hq' Hcase Hpos Hb Hbk Hdom. destruct A as [A1 A2 A3 A4 A5 A6], H as [H1 H2 H3], R as [R1 R2], O as [O1 O2 O3 O4 O5 O6]. set (s' := s_nodes _ _).
  assert (Hm : forall r' a', okp s r' a' -> okp s' r' a').
  { intros r' a' Ho. eapply okp_mono; [done|done|]. exact Hb. }
  assert (Hold : forall n, nodes s !! k = Some n -> n_queue n = None).
  { intros n E. destruct (n_queue n) eqn:Eq; [|done]. destruct Hnp. by exists n, l0. }
  assert (Hperm : exists l0, l ≡ₚ k :: l0 /\ k ∉ l0 /\ (forall x, x <> k -> x ∈ l0 <-> x ∈ lst s) /\ NoDup l0 /\ c = Z.of_nat (S (length l0))).
  { destruct (nodes s !! k) as [n|] eqn:E.
    - destruct Hcase as (-> & -> & _). assert (Hin : k ∈ lst s) by (apply A2; exists n; by rewrite (Hold n)). exists (remove1 k (lst s)).
      pose proof (remove1_perm k _ Hin) as Hp. pose proof A1 as A1'. rewrite Hp in A1'. apply NoDup_cons in A1' as [? ?].
      split_and!; [by rewrite Permutation_app_comm|done| |done|].
      + intros x Hx. rewrite Hp at 2. rewrite elem_of_cons. naive_solver.
      + rewrite A3. rewrite (remove1_length k _ Hin). done.
    - destruct Hcase as (-> & -> & _). exists (lst s). split_and!; [by rewrite Permutation_app_comm| |done|done|lia].
      rewrite A2. intros (m & ? & _). congruence. }
  destruct Hperm as (l0 & L1 & L2 & L3 & L4 & L5).
  split_and!; split; subst s'; sm; try done.
  - rewrite L1. by constructor.
  - intros k'. unfold cached; sm. rewrite L1, elem_of_cons. destruct (decide (k = k')) as [<-|Hn]; [rewrite lookup_insert|rewrite lookup_insert_ne by done].
    + split; [intros _; by exists n'|by left].
    + rewrite L3 by done. rewrite A2. split; [intros [?|?]; [congruence|done]|by right].
  - rewrite L1. cbn [length]. done.
  - intros k'. rewrite A5. unfold pending; sm. destruct (decide (k = k')) as [<-|Hn]; [rewrite lookup_insert|by rewrite lookup_insert_ne].
    split; [intros E; by destruct Hnp|]. intros (m & q & [= <-] & ?). congruence.
  - intros k' m p. destruct (decide (k = k')) as [<-|Hn]; [rewrite lookup_insert; intros [= <-]; congruence|rewrite lookup_insert_ne by done; apply A6].
  - intros a. unfold refs; sm. destruct (nodes s !! k) as [n|] eqn:E; destruct Hcase as (_ & _ & ->); rewrite H2; unfold refs; [rewrite (summ_upd _ _ _ _ _ E)|rewrite (summ_new _ _ _ _ E)]; lia.
  - rewrite Hip. intros q a Hi%elem_of_nil. done.
  - intros x. rewrite R2. unfold reqs; sm. assert (Hz : nq x n' = 0) by (unfold nq; by rewrite Hq'). destruct (nodes s !! k) as [n|] eqn:E.
    + rewrite (summ_upd _ _ _ _ _ E), Hz. assert (nq x n = 0) as -> by (unfold nq; by rewrite Hold). lia.
    + rewrite (summ_new _ _ _ _ E), Hz. lia.
  - intros k' m a. destruct (decide (k = k')) as [<-|Hn]; [rewrite lookup_insert; intros [= <-]; by apply Hbk|rewrite lookup_insert_ne by done; intros; by eapply Hb, O1].
  - intros k' m p r. destruct (decide (k = k')) as [<-|Hn]; [rewrite lookup_insert; intros [= <-]; congruence|rewrite lookup_insert_ne by done; apply O2].
  - rewrite Hip. intros p a r Hi%elem_of_nil. done.
  - intros r a E. by apply Hm, O4.
  - intros r a E. by apply Hm, O5.
Qed.
(** flush: one entry *)
Lemma inv_flush1 s k l n : inv s -> inprog s = [] -> lst s = k :: l -> nodes s !! k = Some n ->
  exists h1 h2, unref (heap s) (n_addr n) = Some h1 /\ unref h1 (n_last n) = Some h2 /\
    inv (s_nodes (delete k (nodes s)) (s_lst l (s_cnt (cnt s - 1) (s_heap h2 s)))).
Proof.
  intros (A & H & R & O) Hip Hlk Hk. destruct A as [A1 A2 A3 A4 A5 A6], H as [H1 H2 H3], R as [R1 R2], O as [O1 O2 O3 O4 O5 O6].
  assert (Hle : forall a, nref a n <= hget (heap s) a).
  { intros a. rewrite H2. unfold refs. pose proof (summ_in (nref a) _ _ _ (nref_nonneg a) Hk). pose proof (sumz_nonneg (λ p : nat * option nat, oz p.2 a) (posted s) (λ p, oz_nonneg p.2 a)).
    pose proof (occ_nonneg a (held s)). lia. }
  assert (Hq : n_queue n = None). { assert (Hin : k ∈ lst s) by (rewrite Hlk; by left). apply A2 in Hin as (m & E1 & E2). congruence. }
  destruct (unref (heap s) (n_addr n)) as [h1|] eqn:U1.
  2:{ exfalso. revert U1. apply unref_ok. intros a. specialize (Hle a). unfold nref in Hle. pose proof (oz_nonneg (n_last n) a). lia. }
  destruct (unref_spec _ _ _ H1 U1) as [P1 P2].
  destruct (unref h1 (n_last n)) as [h2|] eqn:U2.
  2:{ exfalso. revert U2. apply unref_ok. intros a. specialize (Hle a). unfold nref in Hle. rewrite P2. lia. }
  destruct (unref_spec _ _ _ P1 U2) as [P3 P4]. exists h1, h2. split_and!; try done.
  rewrite Hlk in A1. apply NoDup_cons in A1 as [N1 N2].
  split; [|split; [|split]]; split; sm; try done.
  - intros k'. unfold cached; sm. pose proof (A2 k') as B. rewrite Hlk, elem_of_cons in B. unfold cached in B. destruct (decide (k = k')) as [<-|Hn]; [rewrite lookup_delete|rewrite lookup_delete_ne by done].
    + split; [done|]. intros (? & ? & _). done.
    + rewrite <- B. split; [by right|intros [?|?]; [congruence|done]].
  - rewrite A3, Hlk. cbn [length]. lia.
  - intros k'. rewrite A5. unfold pending; sm. destruct (decide (k = k')) as [<-|Hn]; [rewrite lookup_delete, Hk|by rewrite lookup_delete_ne].
    split; [|intros (? & ? & ? & _); done]. intros (m & q & [= <-] & E). congruence.
  - intros k' m p. destruct (decide (k = k')) as [<-|Hn]; [by rewrite lookup_delete|rewrite lookup_delete_ne by done; apply A6].
  - intros a. rewrite P4, P2, H2. unfold refs; sm. rewrite (summ_del _ _ _ _ Hk). unfold nref at 3. lia.
  - rewrite Hip. intros q a E%elem_of_nil. done.
  - intros x. rewrite R2. unfold reqs; sm. rewrite (summ_del _ _ _ _ Hk). assert (nq x n = 0) as -> by (unfold nq; by rewrite Hq). lia.
  - intros k' m a. destruct (decide (k = k')) as [<-|Hn]; [by rewrite lookup_delete|rewrite lookup_delete_ne by done; apply O1].
  - intros k' m p r. destruct (decide (k = k')) as [<-|Hn]; [by rewrite lookup_delete|rewrite lookup_delete_ne by done; apply O2].
  - intros a z E. destruct (unref_dom _ _ _ _ _ U2 E) as [y Ey]. destruct (unref_dom _ _ _ _ _ U1 Ey) as [y' Ey']. by eapply O6.
Qed.
(** the whole flush: it removes a prefix [d] of the list; every removed entry was idle for an hour or the cache was full; the
    first of the remaining entries is neither *)
Lemma flush_ok now l : forall s, inv s -> inprog s = [] -> lst s = l ->
  exists d l' m' c' h', flush_loop now l (nodes s) (cnt s) (heap s) = Some (l', m', c', h') /\ inv (s_nodes m' (s_lst l' (s_cnt c' (s_heap h' s)))) /\
    l = d ++ l' /\ c' = cnt s - Z.of_nat (length d) /\ (forall k, m' !! k = if decide (k ∈ d) then None else nodes s !! k) /\
    (forall i k, d !! i = Some k -> exists n, nodes s !! k = Some n /\ (IDLE <= now - n_lt n \/ MAXC <= cnt s - Z.of_nat i)) /\
    (forall k l2, l' = k :: l2 -> exists n, nodes s !! k = Some n /\ now - n_lt n < IDLE /\ c' < MAXC).
Proof.
  induction l as [|k l IH]; intros s I Hip Hl; cbn [flush_loop].
  - exists [], [], (nodes s), (cnt s), (heap s). split_and!; try done; [|cbn; lia]. rewrite <- Hl. by destruct s.
  - assert (Hc : cached s k) by (apply (a_lst _ (proj1 I)); rewrite Hl; by left). destruct Hc as (n & Hk & Hq). rewrite Hk.
    destruct (bool_decide (now - n_lt n < IDLE) && bool_decide (cnt s < MAXC)) eqn:Eb.
    + exists [], (k :: l), (nodes s), (cnt s), (heap s). split_and!; try done; [|cbn; lia|].
      * rewrite <- Hl. by destruct s.
      * intros k' l2 [= <- <-]. exists n. apply andb_true_iff in Eb as [E1%bool_decide_eq_true E2%bool_decide_eq_true]. done.
    + destruct (inv_flush1 s k l n I Hip Hl Hk) as (h1 & h2 & -> & -> & I'). set (s1 := s_nodes _ _) in I'.
      destruct (IH s1 I' Hip eq_refl) as (d & l' & m' & c' & h' & F1 & F2 & F3 & F4 & F5 & F6 & F7).
      assert (Hnk : k ∉ l). { pose proof (a_nd _ (proj1 I)) as N. rewrite Hl in N. by apply NoDup_cons in N as [? _]. }
      assert (Hnd : k ∉ d). { intros E. apply Hnk. rewrite F3. apply elem_of_app. by left. }
      exists (k :: d), l', m', c', h'. split; [exact F1|]. split; [exact F2|]. split; [by rewrite F3|].
      split; [change (cnt s1) with (cnt s - 1) in F4; cbn [length]; lia|]. split_and!.
      * intros x. rewrite F5. change (nodes s1) with (delete k (nodes s)). destruct (decide (x ∈ d)) as [E|E]; [by rewrite decide_True by by right|].
        destruct (decide (x = k)) as [->|Hn]; [rewrite lookup_delete; by rewrite decide_True by by left|].
        rewrite lookup_delete_ne by done. rewrite decide_False; [done|]. rewrite elem_of_cons. tauto.
      * intros [|i] x Hx; cbn in Hx.
        -- injection Hx as <-. exists n. split; [done|]. apply andb_false_iff in Eb as [E%bool_decide_eq_false|E%bool_decide_eq_false]; [left; lia|right; lia].
        -- destruct (F6 _ _ Hx) as (n' & G1 & G2). exists n'. change (nodes s1) with (delete k (nodes s)) in G1. change (cnt s1) with (cnt s - 1) in G2.
           destruct (decide (k = x)) as [<-|Hn]; [by rewrite lookup_delete in G1|]. rewrite lookup_delete_ne in G1 by done. split; [done|]. destruct G2; [by left|right; lia].
      * intros x l2 E. destruct (F7 _ _ E) as (n' & G1 & G2). exists n'. split; [|done]. change (nodes s1) with (delete k (nodes s)) in G1.
        destruct (decide (k = x)) as [<-|Hn]; [by rewrite lookup_delete in G1|]. by rewrite lookup_delete_ne in G1.
Qed.

Lemma step_inv s e : inv s -> normal s e -> match step s e with Crash => False | Ok s' _ => inv s' | Disabled => True end.
Proof.
  intros I Hn. pose proof I as (A & H & R & O).
  assert (Hle : forall k n a, nodes s !! k = Some n -> nref a n <= hget (heap s) a).
  { intros k n a Hk. rewrite (h_refs _ H). unfold refs. pose proof (summ_in (nref a) _ _ _ (nref_nonneg a) Hk). pose proof (sumz_nonneg (λ p : nat * option nat, oz p.2 a) (posted s) (λ p, oz_nonneg p.2 a)).
    pose proof (occ_nonneg a (held s)). lia. }
  assert (Hle1 : forall k n a, nodes s !! k = Some n -> oz (n_addr n) a <= hget (heap s) a).
  { intros k n a Hk. specialize (Hle k n a Hk). unfold nref in Hle. pose proof (oz_nonneg (n_last n) a). lia. }
  assert (Hle2 : forall k n a, nodes s !! k = Some n -> oz (n_last n) a <= hget (heap s) a).
  { intros k n a Hk. specialize (Hle k n a Hk). unfold nref in Hle. pose proof (oz_nonneg (n_addr n) a). lia. }
  destruct e as [k r now ok|k now ok|i|k res|k|i|i|k res now|now]; cbn [step].
  - case_decide as Hr; [done|]. change (nodes (s_asked ((r, k) :: asked s) s)) with (nodes s). destruct (nodes s !! k) as [n|] eqn:Hk.
    + destruct (n_queue n) as [q|] eqn:Hq; [exact (inv_ask_more s k n q r I Hr Hk Hq)|].
      set (a := match n_addr n with Some a => Some a | None => n_last n end).
      change (heap (touch _ k n now ok)) with (heap s). destruct (ref (heap s) a) as [h|] eqn:Eh.
      * pose proof (inv_touch s k n now ok I Hk Hq) as I'. set (n' := Node None (n_addr n) (n_last n) now (if bool_decide (now - n_lv n > FRESH) then now else n_lv n) (n_err n)).
        apply (inv_post (touch s k n now ok) k n' r a h I' Hr); [cbn; by rewrite lookup_insert| |done]. unfold a. cbn [n' n_addr n_last]. destruct (n_addr n); [by left|by right].
      * revert Eh. apply ref_ok. intros b. unfold a. destruct (n_addr n) as [a'|] eqn:Ea; [rewrite <- Ea; by apply (Hle1 k)|by apply (Hle2 k)].
    + exact (inv_ask_new s k r now I Hr Hk).
  - destruct (nodes s !! k) as [n|] eqn:Hk; [|done]. destruct (n_queue n) as [q|] eqn:Hq; [done|]. pose proof (inv_touch s k n now ok I Hk Hq) as I'.
    destruct (n_addr n) as [a|] eqn:Ea; [|done]. destruct (ref (heap (touch s k n now ok)) (Some a)) as [h|] eqn:Eh; [by apply inv_hold|].
    revert Eh. apply ref_ok. intros b. rewrite <- Ea. by apply (Hle1 k).
  - destruct (held s !! i) as [a|] eqn:Hi; [|done]. destruct (unref (heap s) (Some a)) as [h|] eqn:Eh; [by eapply inv_release|].
    revert Eh. apply unref_ok. intros b. rewrite (h_refs _ H). unfold refs. pose proof (summ_nonneg (nref b) (nodes s) (nref_nonneg b)). pose proof (sumz_nonneg (λ p : nat * option nat, oz p.2 b) (posted s) (λ p, oz_nonneg p.2 b)).
    pose proof (occ_nonneg b (held s)). unfold oz at 1. case_bool_decide as Eb; [|cbn; lia]. injection Eb as <-. cbn. apply elem_of_list_lookup_2 in Hi. apply occ_in in Hi. lia.
  - case_decide as Hr; [|done]. apply (a_res _ A) in Hr as Hp. destruct Hp as (n & q & Hk & Hq). rewrite Hk, Hq. destruct (a_pend _ A _ _ _ Hk Hq) as (-> & -> & _).
    destruct res as [a|]; [case_decide as Ha; [done|]|].
    + exact (inv_resolve_ok s k n q (Some a) _ _ I Hr Hk Hq (conj Ha (conj eq_refl eq_refl))).
    + exact (inv_resolve_ok s k n q None _ _ I Hr Hk Hq (conj eq_refl eq_refl)).
  - case_decide as Hr; [|done]. apply (a_res _ A) in Hr as Hp. destruct Hp as (n & q & Hk & Hq). rewrite Hk, Hq. destruct (a_pend _ A _ _ _ Hk Hq) as (-> & -> & _).
    exact (inv_resolve_fail s k n q I Hr Hk Hq).
  - destruct (inprog s !! i) as [[[|r q] a]|] eqn:Hi; [by eapply inv_answer_end| |done]. destruct (ref (heap s) a) as [h|] eqn:Eh; [by eapply inv_answer|].
    revert Eh. apply ref_ok. intros b. destruct a as [a|]; [|rewrite oz_none; unfold hget; destruct (heap s !! b) eqn:E; [apply (h_pos _ H) in E; cbn; lia|done]].
    destruct (h_prog _ H _ _ (elem_of_list_lookup_2 _ _ _ Hi)) as (k & n & Hk & Ha). rewrite <- Ha. by apply (Hle1 k).
  - destruct (posted s !! i) as [[r a]|] eqn:Hi; [|done]. destruct (unref (heap s) a) as [h|] eqn:Eh; [by eapply inv_deliver|].
    revert Eh. apply unref_ok. intros b. rewrite (h_refs _ H). unfold refs. pose proof (summ_nonneg (nref b) (nodes s) (nref_nonneg b)). pose proof (occ_nonneg b (held s)).
    pose proof (sumz_in (λ p : nat * option nat, oz p.2 b) (posted s) (r, a) (λ p, oz_nonneg p.2 b) (elem_of_list_lookup_2 _ _ _ Hi)) as Hs. cbn [snd] in Hs. lia.
  - destruct Hn as [Hip Hnp]. case_decide as Hr; [|done]. destruct (match res with Some a => bool_decide (a ∈ dom (born s)) | None => false end) eqn:Hfr; [done|].
    change (nodes (s_refreshing _ s)) with (nodes s).
    set (nn := match nodes s !! k with Some n => (n, false) | None => (Node None None None now now 0, true) end).
    set (n := nn.1). assert (Hnq : n_queue n = None).
    { unfold n, nn. destruct (nodes s !! k) as [m|] eqn:Hk; cbn; [|done]. destruct (n_queue m) eqn:Eq; [|done]. destruct Hnp. by exists m, l. }
    assert (Hnl : forall a, nref a n <= hget (heap s) a).
    { intros a. unfold n, nn. destruct (nodes s !! k) as [m|] eqn:Hk; cbn; [by apply (Hle k)|]. unfold nref; cbn. rewrite oz_none. unfold hget. destruct (heap s !! a) eqn:E; [apply (h_pos _ H) in E; cbn; lia|cbn; lia]. }
    assert (Hcase : forall n' h, (forall a, hget h a = hget (heap s) a - nref a n + nref a n') ->
      match nodes s !! k with
      | Some n0 => (if nn.2 then lst s else remove1 k (lst s)) ++ [k] = remove1 k (lst s) ++ [k] /\ (if nn.2 then cnt s + 1 else cnt s) = cnt s /\ (forall a, hget h a = hget (heap s) a - nref a n0 + nref a n')
      | None => (if nn.2 then lst s else remove1 k (lst s)) ++ [k] = lst s ++ [k] /\ (if nn.2 then cnt s + 1 else cnt s) = cnt s + 1 /\ (forall a, hget h a = hget (heap s) a + nref a n') end).
    { intros n' h Hh. unfold n, nn in *. destruct (nodes s !! k) as [m|]; cbn in *; split_and!; try done. intros a. rewrite Hh. unfold nref at 1; cbn. rewrite oz_none. lia. }
    assert (Hlast : forall a, n_last n = Some a -> born s !! a = Some k).
    { intros a Ha. unfold n, nn in *. destruct (nodes s !! k) as [m|] eqn:Hk; cbn in *; [|done]. eapply (o_addr _ O); [done|by right]. }
    rewrite (surjective_pairing nn). fold n. rewrite Hnq. cbn [fst snd]. sm.
    destruct (unref (heap s) (n_addr n)) as [h1|] eqn:U1.
    2:{ revert U1. apply unref_ok. intros a. specialize (Hnl a). unfold nref in Hnl. pose proof (oz_nonneg (n_last n) a). lia. }
    destruct (unref_spec _ _ _ (h_pos _ H) U1) as [P1 P2].
    destruct res as [a|].
    + apply bool_decide_eq_false in Hfr. assert (Hha : heap s !! a = None). { destruct (heap s !! a) eqn:E; [|done]. apply (o_heap _ O) in E. by apply elem_of_dom in E. }
      assert (Hh1a : h1 !! a = None). { destruct (h1 !! a) eqn:E; [|done]. destruct (unref_dom _ _ _ _ _ U1 E) as [? ?]. congruence. }
      assert (P1' : hpos (<[a := 1]> h1)). { intros b z. destruct (decide (a = b)) as [->|]; [rewrite lookup_insert; intros [= <-]; lia|rewrite lookup_insert_ne by done; apply P1]. }
      assert (P2' : forall b, hget (<[a := 1]> h1) b = hget h1 b + oz (Some a) b).
      { intros b. rewrite hget_ins. unfold oz. case_decide; [subst b; rewrite bool_decide_true by done; unfold hget; rewrite Hh1a; done|rewrite bool_decide_false by congruence; cbn; lia]. }
      destruct (unref (<[a := 1]> h1) (n_last n)) as [h2|] eqn:U2.
      2:{ revert U2. apply unref_ok. intros b. rewrite P2', P2. specialize (Hnl b). unfold nref in Hnl. pose proof (oz_nonneg (Some a) b). lia. }
      destruct (unref_spec _ _ _ P1' U2) as [P3 P4].
      destruct (ref h2 (Some a)) as [h3|] eqn:U3.
      2:{ revert U3. apply ref_ok. intros b. rewrite P4, P2', P2. specialize (Hnl b). unfold nref in Hnl. lia. }
      destruct (ref_spec _ _ _ P3 U3) as [P5 P6]. pose proof (inv_refresh s k (Node None (Some a) (Some a) (n_lt n) (n_lv n) 0) h3 (<[a := k]> (born s)) _ _ (remove1 k (refreshing s)) I Hip Hnp eq_refl
        (Hcase (Node None (Some a) (Some a) (n_lt n) (n_lv n) 0) h3 ltac:(intros b; rewrite P6, P4, P2', P2; unfold nref; cbn [n_addr n_last]; lia)) P5) as G.
      apply G.
      * intros b k' E. rewrite lookup_insert_ne; [done|]. intros <-. apply Hfr. by eapply elem_of_dom_2.
      * cbn [n_addr n_last]. intros b [[= <-]|[= <-]]; by rewrite lookup_insert.
      * intros b z E. destruct (decide (a = b)) as [<-|Hne]; [by rewrite lookup_insert|]. rewrite lookup_insert_ne by done.
        destruct (ref_dom _ _ _ _ _ U3 E) as [y Ey]. destruct (unref_dom _ _ _ _ _ U2 Ey) as [y' Ey']. rewrite lookup_insert_ne in Ey' by done.
        destruct (unref_dom _ _ _ _ _ U1 Ey') as [y2 Ey2]. by eapply (o_heap _ O).
    + assert (Hd1 : forall b z, h1 !! b = Some z -> is_Some (born s !! b)). { intros b z E. destruct (unref_dom _ _ _ _ _ U1 E) as [y2 Ey2]. by eapply (o_heap _ O). }
      case_decide as He.
      * destruct (unref h1 (n_last n)) as [h2|] eqn:U2.
        2:{ revert U2. apply unref_ok. intros b. rewrite P2. specialize (Hnl b). unfold nref in Hnl. lia. }
        destruct (unref_spec _ _ _ P1 U2) as [P3 P4].
        apply (inv_refresh s k (Node None None None (n_lt n) (n_lv n) (n_err n + 1)) h2 (born s) _ _ (remove1 k (refreshing s)) I Hip Hnp eq_refl
          (Hcase (Node None None None (n_lt n) (n_lv n) (n_err n + 1)) h2 ltac:(intros b; rewrite P4, P2; unfold nref; cbn [n_addr n_last]; rewrite oz_none; lia)) P3); [done|cbn; by intros b [?|?]|].
        intros b z E. destruct (unref_dom _ _ _ _ _ U2 E) as [y Ey]. by eapply Hd1.
      * apply (inv_refresh s k (Node None None (n_last n) (n_lt n) (n_lv n) (n_err n + 1)) h1 (born s) _ _ (remove1 k (refreshing s)) I Hip Hnp eq_refl
          (Hcase (Node None None (n_last n) (n_lt n) (n_lv n) (n_err n + 1)) h1 ltac:(intros b; rewrite P2; unfold nref; cbn [n_addr n_last]; rewrite oz_none; lia)) P1); [done| |done].
        cbn [n_addr n_last]. intros b [?|?]; [done|by apply Hlast].
  - destruct (flush_ok now (lst s) s I Hn eq_refl) as (d & l' & m' & c' & h' & -> & I' & _). exact I'.
Qed.
Lemma reach_i s : reach s -> inv s.
Proof. induction 1 as [|s e s' o _ IH Hn Hs]; [apply inv_init|]. pose proof (step_inv s e IH Hn) as P. by rewrite Hs in P. Qed.

(** ** C47 *)
(** no schedule without the two races fails an assertion or uses a freed address *)
Theorem C47_safe_partial : forall s e, reach s -> normal s e -> step s e <> Crash.
Proof. intros s e Hr Hn E. pose proof (step_inv s e (reach_i s Hr) Hn) as P. by rewrite E in P. Qed.
(** an address object is alive exactly while an entry, an undelivered answer or the program refers to it *)
Theorem C47_refs_partial : forall s a, reach s ->
  (is_Some (heap s !! a) <->
   (exists k n, nodes s !! k = Some n /\ (n_addr n = Some a \/ n_last n = Some a)) \/ (exists r, (r, Some a) ∈ posted s) \/ a ∈ held s).
Proof.
  intros s a Hr. destruct (reach_i s Hr) as (A & H & R & O). pose proof (summ_nonneg (nref a) (nodes s) (nref_nonneg a)) as N1.
  pose proof (sumz_nonneg (λ p : nat * option nat, oz p.2 a) (posted s) (λ p, oz_nonneg p.2 a)) as N2. pose proof (occ_nonneg a (held s)) as N3. pose proof (h_refs _ H a) as E. unfold refs in E. split.
  - intros [z Hz]. pose proof (h_pos _ H _ _ Hz) as Hp. unfold hget in E. rewrite Hz in E. cbn in E.
    destruct (decide (0 < occ a (held s))) as [P|P]; [right; right; by apply occ_in|].
    destruct (decide (0 < sumz (λ p : nat * option nat, oz p.2 a) (posted s))) as [Q|Q].
    + right; left. apply sumz_pos in Q as ([r b] & Q1 & Q2). cbn [snd] in Q2. apply oz_pos in Q2 as ->. by exists r.
    + left. destruct (summ_pos (nref a) (nodes s)) as (k & n & Hk & Hn); [lia|]. exists k, n. split; [done|]. unfold nref in Hn.
      destruct (decide (0 < oz (n_addr n) a)) as [G|G]; [left; by apply oz_pos|right; apply oz_pos; lia].
  - intros Hx. apply hget_live. rewrite E. destruct Hx as [(k & n & Hk & Hn)|[(r & Hi)|Hi]].
    + pose proof (summ_in (nref a) _ _ _ (nref_nonneg a) Hk) as G. unfold nref at 1 in G. pose proof (oz_nonneg (n_addr n) a). pose proof (oz_nonneg (n_last n) a).
      destruct Hn as [Hn|Hn]; rewrite Hn, oz_same in *; lia.
    + pose proof (sumz_in (λ p : nat * option nat, oz p.2 a) _ _ (λ p, oz_nonneg p.2 a) Hi) as G. cbn [snd] in G. rewrite oz_same in G. lia.
    + apply occ_in in Hi. lia.
Qed.
(** no request is answered twice, and only requests are answered *)
Lemma occ_fst {B} r (l : list (nat * B)) : occ r l.*1 = sumz (λ p : nat * B, b2z (bool_decide (p.1 = r))) l.
Proof. induction l as [|[x b] l IH]; [done|]. rewrite fmap_cons, occ_cons, sumz_cons, IH. done. Qed.
Lemma reqs_parts s r : 0 <= sumz (λ p : nat * option nat, b2z (bool_decide (p.1 = r))) (answered s) /\ 0 <= sumz (λ p : nat * option nat, b2z (bool_decide (p.1 = r))) (posted s)
  /\ 0 <= sumz (λ p : list nat * option nat, occ r p.1) (inprog s) /\ 0 <= summ (nq r) (nodes s).
Proof. split_and!; [apply sumz_nonneg; intros; apply b2z_nonneg..|apply sumz_nonneg; intros; apply occ_nonneg|apply summ_nonneg, nq_nonneg]. Qed.
Theorem C47_once_partial : forall s, reach s -> NoDup (answered s).*1 /\ (forall r, r ∈ (answered s).*1 -> r ∈ (asked s).*1).
Proof.
  intros s Hr. destruct (reach_i s Hr) as (A & H & R & O). assert (Hle : forall r, occ r (answered s).*1 <= occ r (asked s).*1).
  { intros r. rewrite (r_req _ R), occ_fst. unfold reqs. pose proof (reqs_parts s r). lia. }
  split.
  - apply occ_nodup. intros r. specialize (Hle r). pose proof (proj1 (occ_nodup _) (r_nd _ R) r). lia.
  - intros r. rewrite !occ_in. specialize (Hle r). lia.
Qed.
(** from every reachable state the library's own steps (the resolver at worst gives up) answer every request *)
Definition internal (e : ev) : Prop := match e with Deliver _ | Answer _ | ResolveFail _ => True | _ => False end.
Definition qw (n : node) : Z := match n_queue n with Some q => 2 * Z.of_nat (length q) + 2 | None => 0 end.
Definition mu (s : st) : Z := Z.of_nat (length (posted s)) + sumz (λ p : list nat * option nat, 2 * Z.of_nat (length p.1) + 1) (inprog s) + summ qw (nodes s).
Lemma qw_nonneg n : 0 <= qw n. Proof. unfold qw. destruct (n_queue n); lia. Qed.
Lemma drain s : inv s -> exists es s' os, Forall internal es /\ run step s es = Ok s' os /\ asked s' = asked s /\ (forall r, r ∈ (asked s).*1 -> r ∈ (answered s').*1).
Proof.
  remember (Z.to_nat (mu s)) as m eqn:Em. revert s Em. induction m as [m IHm] using lt_wf_ind. intros s -> I. pose proof I as (A & H & R & O).
  assert (Hgo : forall e, internal e -> normal s e -> step s e <> Disabled -> (forall s', step s e = Ok s' () -> mu s' < mu s /\ asked s' = asked s) ->
    exists es s' os, Forall internal es /\ run step s es = Ok s' os /\ asked s' = asked s /\ (forall r, r ∈ (asked s).*1 -> r ∈ (answered s').*1)).
  { intros e He Hn Hd Hmu. pose proof (step_inv s e I Hn) as P. destruct (step s e) as [| |s1 []] eqn:Es; [done|done|].
    destruct (Hmu _ eq_refl) as [M1 M2]. destruct (IHm (Z.to_nat (mu s1))) with (s := s1) as (es & s' & os & D1 & D2 & D3 & D4); [|done|done|].
    { assert (0 <= mu s1); [|lia]. unfold mu. pose proof (sumz_nonneg (λ p : list nat * option nat, 2 * Z.of_nat (length p.1) + 1) (inprog s1)) as G. pose proof (summ_nonneg qw (nodes s1) qw_nonneg).
      assert (forall x : list nat * option nat, 0 <= 2 * Z.of_nat (length x.1) + 1) as Hx by (intros; lia). specialize (G Hx). lia. }
    exists (e :: es), s', (() :: os). split_and!; [by constructor|cbn; by rewrite Es, D2|congruence|]. intros r Hr. apply D4. by rewrite M2. }
  destruct (posted s) as [|[r a] ps] eqn:Ep.
  2:{ apply (Hgo (Deliver 0) Logic.I Logic.I); cbn [step]; rewrite Ep; cbn [lookup list_lookup].
      - destruct (unref (heap s) a); done.
      - intros s'. destruct (unref (heap s) a) as [h|]; [|done]. intros [= <-]. split; [|done]. unfold mu; sm. rewrite Ep. cbn [delete list_delete length]. lia. }
  destruct (inprog s) as [|[[|r q] a] ip] eqn:Ei.
  2:{ apply (Hgo (Answer 0) Logic.I Logic.I); cbn [step]; rewrite Ei; cbn [lookup list_lookup]; [done|].
      intros s' [= <-]. split; [|done]. unfold mu; sm. rewrite Ei. cbn [delete list_delete]. rewrite sumz_cons. cbn [fst length]. lia. }
  2:{ apply (Hgo (Answer 0) Logic.I Logic.I); cbn [step]; rewrite Ei; cbn [lookup list_lookup].
      - destruct (ref (heap s) a); done.
      - intros s'. destruct (ref (heap s) a) as [h|]; [|done]. intros [= <-]. split; [|done]. unfold mu; sm. rewrite Ei, Ep. cbn [insert list_insert]. rewrite !sumz_cons. cbn [fst length app]. lia. }
  destruct (resolving s) as [|k rs] eqn:Er.
  2:{ assert (Hk : k ∈ resolving s) by (rewrite Er; by left). apply (a_res _ A) in Hk as Hp. destruct Hp as (n & q & Hn & Hq). destruct (a_pend _ A _ _ _ Hn Hq) as (Ea & El & _).
      apply (Hgo (ResolveFail k) Logic.I Logic.I); cbn [step]; rewrite decide_True by done; rewrite Hn, Hq, Ea, El; cbn [unref]; [done|].
      intros s' [= <-]. split; [|done]. unfold mu; sm. rewrite (summ_del _ _ _ _ Hn), Ei, Ep. cbn [app]. rewrite sumz_cons. cbn [fst]. assert (qw n = 2 * Z.of_nat (length q) + 2) as -> by (unfold qw; by rewrite Hq).
      change (sumz _ []) with 0. lia. }
  exists [], s, []. split_and!; [constructor|done|done|]. intros r Hr. apply occ_in in Hr. rewrite (r_req _ R) in Hr. unfold reqs in Hr. rewrite Ep, Ei in Hr. apply occ_in. rewrite occ_fst.
  assert (Hz : summ (nq r) (nodes s) = 0).
  { destruct (decide (0 < summ (nq r) (nodes s))) as [G|G]; [|pose proof (summ_nonneg (nq r) (nodes s) (nq_nonneg r)); lia].
    apply summ_pos in G as (k & n & Hn & Hq). unfold nq in Hq. destruct (n_queue n) as [q|] eqn:Eq; [|lia]. assert (Hp : pending s k) by (by exists n, q).
    apply (a_res _ A) in Hp. rewrite Er in Hp. by apply elem_of_nil in Hp. }
  rewrite Hz in Hr. change (sumz _ []) with 0 in Hr. change (sumz (λ p : list nat * option nat, occ r p.1) []) with 0 in Hr. lia.
Qed.
Theorem C47_progress_partial : forall s, reach s -> exists es s' os, Forall internal es /\ run step s es = Ok s' os /\ asked s' = asked s /\
  (forall r, r ∈ (asked s).*1 -> r ∈ (answered s').*1).
Proof. intros s Hr. by apply drain, reach_i. Qed.
(** a request is only ever answered with an address that was resolved for the name it asked for *)
Theorem C47_origin_partial : forall s r k a, reach s -> (r, k) ∈ asked s -> (r, Some a) ∈ answered s -> born s !! a = Some k.
Proof.
  intros s r k a Hr H1 H2. destruct (reach_i s Hr) as (A & H & R & O). destruct (o_ans _ O _ _ H2) as (k' & H3 & H4).
  assert (k' = k) as ->; [|done]. pose proof (r_nd _ R) as Hnd. apply elem_of_list_lookup in H1 as [i H1]. apply elem_of_list_lookup in H3 as [j H3].
  assert (i = j) as ->; [|congruence]. eapply (NoDup_lookup (asked s).*1 i j r Hnd); rewrite list_lookup_fmap; [by rewrite H1|by rewrite H3].
Qed.
(** at most one resolver per name, and the reported count is the number of cached names *)
Theorem C47_one_resolver_partial : forall s, reach s -> NoDup (resolving s) /\ (forall k, k ∈ resolving s <-> pending s k) /\ (forall k, pending s k -> ~ cached s k).
Proof. intros s Hr. destruct (reach_i s Hr) as (A & _). split_and!; [apply A|apply A|]. intros k (n & q & H1 & H2) (m & H3 & H4). congruence. Qed.
Theorem C47_count_partial : forall s, reach s -> exists l, NoDup l /\ (forall k, k ∈ l <-> cached s k) /\ cnt s = Z.of_nat (length l).
Proof. intros s Hr. destruct (reach_i s Hr) as (A & _). exists (lst s). split_and!; apply A. Qed.
(** a cached name is answered at once with the entry's address, or else with the last good one, and never starts a resolver *)
Theorem C47_cached_partial : forall s k n r now ok, reach s -> nodes s !! k = Some n -> n_queue n = None -> r ∉ (asked s).*1 ->
  exists s', step s (Find k r now ok) = Ok s' () /\ posted s' = posted s ++ [(r, match n_addr n with Some a => Some a | None => n_last n end)] /\ resolving s' = resolving s.
Proof.
  intros s k n r now ok Hr Hk Hq Ha. pose proof (C47_safe_partial s (Find k r now ok) Hr Logic.I) as Hc. revert Hc. cbn [step]. rewrite decide_False by done.
  change (nodes (s_asked _ s)) with (nodes s). rewrite Hk, Hq. destruct (ref _ _) as [h|]; [|done]. intros _. eexists. split_and!; [done|done|done].
Qed.
(** kgl_flush_addr_cache removes a prefix of the least recently used order: each removed entry was unused for an hour or the
    cache held MAXC entries; the oldest survivor is fresh and the cache below its limit; the rest is untouched *)
Theorem C47_flush_partial : forall s now, reach s -> inprog s = [] -> exists d s', step s (Flush now) = Ok s' () /\ lst s = d ++ lst s' /\
  (forall k, nodes s' !! k = if decide (k ∈ d) then None else nodes s !! k) /\
  (forall i k, d !! i = Some k -> exists n, nodes s !! k = Some n /\ (IDLE <= now - n_lt n \/ MAXC <= cnt s - Z.of_nat i)) /\
  (forall k l, lst s' = k :: l -> exists n, nodes s !! k = Some n /\ now - n_lt n < IDLE /\ cnt s' < MAXC).
Proof.
  intros s now Hr Hip. destruct (flush_ok now (lst s) s (reach_i s Hr) Hip eq_refl) as (d & l' & m' & c' & h' & F1 & F2 & F3 & F4 & F5 & F6 & F7).
  exists d, (s_nodes m' (s_lst l' (s_cnt c' (s_heap h' s)))). cbn [step]. rewrite F1. split_and!; [done|exact F3|exact F5|exact F6|exact F7].
Qed.
(** ** refuted *)
(** an entry is flushed while its refresh job runs and is asked for again: the job then unlinks an entry that is in no list *)
Definition tr_pending : list ev := [Find 0 1 0 true; ResolveOk 0 (Some 7%nat); Answer 0; Answer 0; Deliver 0; Find 0 2 31 true; Deliver 0; Flush 4000; Find 0 3 4001 true].
Theorem C47_refresh_pending_refuted : match run step init tr_pending with Ok s _ => step s (Refresh 0 (Some 8%nat) 4002) = Crash | _ => False end.
Proof. vm_compute. reflexivity. Qed.
(** between publishing the entry and handing out the answers the resolver holds no reference of its own *)
Definition tr_answer : list ev := [Find 0 1 0 true; ResolveOk 0 (Some 7%nat); Flush 4000].
Theorem C47_answer_race_refuted : match run step init tr_answer with Ok s _ => step s (Answer 0) = Crash | _ => False end.
Proof. vm_compute. reflexivity. Qed.
(** a canonical-name request never asks the resolver for the canonical name *)
Theorem C47_cname_refuted : forall t, hints t = (true, false).
Proof. by intros []. Qed.
(** ** a non-trivial execution: two names, three requests, a refresh and a flush, all normal *)
Definition demo : list ev := [Find 0 1 0 true; Find 0 2 1 true; Find 5 3 2 true; ResolveOk 0 (Some 7%nat); Answer 0; Answer 0; Answer 0; Deliver 1; Find 0 4 40 true; FindCache 0 41 true;
  Refresh 0 (Some 8%nat) 42; Deliver 0; Deliver 0; UserRelease 0; ResolveFail 5; Answer 0; Answer 0; Deliver 0; Find 0 6 43 true; Deliver 0; Flush 43].
Definition normalb (s : st) (e : ev) : bool :=
  match e with Refresh k _ _ => match inprog s with [] => match nodes s !! k with Some n => match n_queue n with None => true | _ => false end | None => true end | _ => false end
  | Flush _ => match inprog s with [] => true | _ => false end | _ => true end.
Lemma normalb_ok s e : normalb s e = true -> normal s e.
Proof.
  destruct e; cbn; try done; destruct (inprog s); try done. intros H. split; [done|]. intros (n & q & E1 & E2). rewrite E1, E2 in H. done.
Qed.
Fixpoint runn (s : st) (es : list ev) : option st := match es with [] => Some s | e :: es => if normalb s e then match step s e with Ok s' _ => runn s' es | _ => None end else None end.
Lemma runn_reach es : forall s s', reach s -> runn s es = Some s' -> reach s'.
Proof.
  induction es as [|e es IH]; intros s s' Hr; cbn [runn]; [by intros [= <-]|]. destruct (normalb s e) eqn:En; [|done]. destruct (step s e) as [| |s1 o] eqn:Es; try done.
  apply IH. eapply reach_S; [done|by apply normalb_ok|done].
Qed.
Example demo_ok : match runn init demo with Some s => ((answered s).*1, (answered s).*2, lst s, cnt s, map_to_list (heap s)) = ([6; 3; 4; 2; 1]%nat, [Some 8; None; Some 7; Some 7; Some 7]%nat, [0]%nat, 1, [(8%nat, 2)]) | None => False end.
Proof. vm_compute. reflexivity. Qed.
Example demo_reach : exists s, reach s /\ runn init demo = Some s.
Proof.
  pose proof demo_ok as H. destruct (runn init demo) as [s|] eqn:E; [|contradiction].
  exists s. split; [exact (runn_reach demo init s reach_0 E)|reflexivity].
Qed.
