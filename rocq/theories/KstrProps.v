(** C67: reference counted strings. *)
From Verif Require Import KstrModel.
Local Open Scope Z_scope.

(** * Specification *)
(** the references to string i that threads hold, and those being given back right now *)
Definition held (s : st) (i : nat) : Z := occ i (own s).*2.
Definition going (s : st) (i : nat) : Z := occ i (decs s).*2.
(** no thread is inside kstring_release *)
Definition quiet (s : st) : Prop := decs s = [] /\ frd s = [] /\ frs s = [].
(** the rules of use: allocations succeed; strings are shorter than 2^32, and free of 0 bytes where they are copied; a block that is
    converted has its bytes written; a thread uses, shares, gives away and releases only what it holds; at any time there
    are fewer than 0xfffffff references to a string *)
Definition normal (s : st) (e : ev) : Prop :=
  match e with
  | EFrom t (Some src) okd okh => okd = true /\ okh = true /\ exists a b, src = a ++ 0 :: b /\ 0 ∉ a /\ Z.of_nat (length a) < U32
  | EFrom t None okd okh => True
  | EFrom2 t src n okd okh => okd = true /\ okh = true /\ (n <= length src)%nat /\ 0 ∉ take n src /\ Z.of_nat n < U32
  | EConv t (Some b) n okh => okh = true /\ (n <= length b)%nat /\ None ∉ take n b /\ Z.of_nat n < U32
  | EConv t None n okh => okh = true /\ n = 0%nat
  | ERefs t (Some i) => (t, i) ∈ own s /\ held s i + going s i + 1 < LIM
  | ERel t (Some i) => (t, i) ∈ own s
  | EGetRef t i | ELen t i => (t, i) ∈ own s
  | ERead t i k => (t, i) ∈ own s /\ exists c z, made s !! i = Some (c, z) /\ (Z.of_nat k < Z.of_nat (length c) + b2z z)
  | EGive t u i => (t, i) ∈ own s
  | _ => True
  end.
Inductive reachf (win : bool) (s0 : st) : list ev -> st -> Prop :=
| reach_nil : reachf win s0 [] s0
| reach_snoc tr s e s' o : reachf win s0 tr s -> normal s e -> step win s e = Ok s' o -> reachf win s0 (tr ++ [e]) s'.
Notation reach win := (reachf win init).

(** * Invariant *)
(** the block holds the content *)
Definition holds (b : list (option Z)) (c : list Z) (z : bool) : Prop := exists r, b = (Some <$> (c ++ if z then [0] else [])) ++ r.
Record inv1 (s : st) (i : nat) : Prop := mkinv1 {
  v_new : (nx s <= i)%nat -> hd s !! i = None /\ blk s !! i = None /\ made s !! i = None;
  v_none : hd s !! i = None -> blk s !! i = None /\ held s i = 0 /\ going s i = 0 /\ occ i (frd s).*2 = 0 /\ occ i (frs s).*2 = 0;
  v_some : forall h, hd s !! i = Some h -> exists c z, made s !! i = Some (c, z) /\ len h = Z.of_nat (length c) /\
    ref_ h = held s i + going s i /\ ref_ h < LIM /\
    occ i (frd s).*2 + occ i (frs s).*2 = (if decide (ref_ h = 0) then 1 else 0) /\
    match data h with
    | None => blk s !! i = None /\ c = [] /\ z = false
    | Some d => d = i /\ if decide (occ i (frs s).*2 = 0) then exists b, blk s !! i = Some b /\ holds b c z else blk s !! i = None
    end;
}.
Definition inv (s : st) : Prop := forall i, inv1 s i.

Lemma inv_init : inv init.
Proof. intros i. constructor; cbn; [done|..]; intros; [by repeat split|]. by rewrite lookup_empty in *. Qed.

Lemma occ_snoc i (l : list (nat * nat)) t j : occ i (l ++ [(t, j)]).*2 = occ i l.*2 + b2z (bool_decide (j = i)).
Proof. rewrite fmap_app. rewrite !occ_sumz, sumz_app. cbn [fmap list_fmap snd]. by rewrite sumz_one. Qed.
Lemma occ_perm i (l k : list nat) : l ≡ₚ k -> occ i l = occ i k.
Proof. induction 1; rewrite ?occ_cons; lia || congruence. Qed.
Lemma occ_remove1 i (l : list (nat * nat)) t j : (t, j) ∈ l -> occ i (remove1 (t, j) l).*2 = occ i l.*2 - b2z (bool_decide (j = i)).
Proof.
  intros H. pose proof (remove1_perm _ _ H) as P. apply (fmap_Permutation snd) in P. apply (occ_perm i) in P. rewrite P. cbn [fmap list_fmap snd]. rewrite occ_cons. lia.
Qed.
Lemma occ_in2 i t (l : list (nat * nat)) : (t, i) ∈ l -> 0 < occ i l.*2.
Proof. intros H. apply occ_in. apply elem_of_list_fmap. by exists (t, i). Qed.

Lemma strnlen_free n src : (n <= length src)%nat -> 0 ∉ take n src -> strnlen n src = Some n.
Proof.
  revert src. induction n as [|n IH]; intros [|b src]; cbn [strnlen length take]; try done; [lia|]. intros H1 H2. apply not_elem_of_cons in H2 as [H2 H3].
  rewrite bool_decide_false by done. by rewrite IH by (lia || done).
Qed.
Lemma strlen_free a b : 0 ∉ a -> strlen (a ++ 0 :: b) = Some (length a).
Proof.
  induction a as [|x a IH]; [done|]. intros H. apply not_elem_of_cons in H as [H1 H2]. cbn. rewrite bool_decide_false by done. by rewrite IH.
Qed.
Lemma U32_small z : 0 <= z < U32 -> z mod U32 = z. Proof. apply Z.mod_small. Qed.
Lemma LIM_U32 : LIM < U32. Proof. done. Qed.

(** making a string *)
Definition good (b : option (list (option Z))) (n : nat) (c : list Z * bool) : Prop :=
  n = length c.1 /\ Z.of_nat n < U32 /\ match b with Some b => holds b c.1 c.2 | None => c = ([], false) end.
Lemma conv_ok t b n c s : exists s' , conv t b n c true s = Ok s' (OPtr (Some (nx s))) /\
  hd s' = <[nx s := mkstr (match b with Some _ => Some (nx s) | None => None end) (Z.of_nat n mod U32) 1]> (hd s) /\
  blk s' = (match b with Some b => <[nx s := b]> (blk s) | None => blk s end) /\ nx s' = S (nx s) /\ decs s' = decs s /\ frd s' = frd s /\ frs s' = frs s /\
  own s' = own s ++ [(t, nx s)] /\ made s' = <[nx s := c]> (made s).
Proof. unfold conv. destruct b; eexists; (split; [reflexivity|]); by repeat split. Qed.
Lemma inv_conv t b n c s s' o : inv s -> good b n c -> conv t b n c true s = Ok s' o -> inv s'.
Proof.
  intros HI (-> & G2 & G3) E. destruct (conv_ok t b (length c.1) c s) as (s1 & E1 & Eh & Eb & En & Ed & Ef & Eg & Eo & Em). rewrite E in E1. injection E1 as <- ->.
  rewrite Z.mod_small in Eh by lia.
  intros i. destruct (decide (i = nx s)) as [->|Hn].
  - destruct (HI (nx s)) as [N1 N2 _]. destruct N1 as (N1 & N3 & N4); [lia|]. destruct (N2 N1) as (_ & H1 & H2 & H3 & H4).
    constructor; rewrite ?Eh, ?Eb, ?En, ?Ed, ?Ef, ?Eg, ?Em, ?lookup_insert; [lia|done|]. intros h [= <-]. exists c.1, c.2. unfold held, going in *. cbn [len ref_ data].
    rewrite Eo, Ed, occ_snoc, bool_decide_true by done. split_and!; [by destruct c|done|cbn; lia|done|rewrite H3, H4; done|].
    destruct b as [b|]; [|by subst c]. split; [done|]. rewrite decide_True by done. exists b. by rewrite lookup_insert.
  - destruct (HI i) as [N1 N2 N3]. assert (EB: blk s' !! i = blk s !! i) by (rewrite Eb; destruct b; [by rewrite lookup_insert_ne|done]).
    assert (EO: held s' i = held s i) by (unfold held; rewrite Eo, occ_snoc, bool_decide_false by done; cbn; lia).
    assert (EG: going s' i = going s i) by (unfold going; by rewrite Ed).
    constructor; rewrite ?Eh, ?EB, ?EO, ?EG, ?En, ?Ef, ?Eg, ?Em, ?lookup_insert_ne by done; [intros; apply N1; lia|done|exact N3].
Qed.

Lemma strndup_good win src n : (n <= length src)%nat -> 0 ∉ take n src -> Z.of_nat n < U32 ->
  exists b, strndup win src n = Some b /\ good (Some b) n (take n src, true).
Proof.
  intros H1 H2 H3. unfold strndup. rewrite strnlen_free by done. eexists. split; [done|]. split_and!; [cbn [fst]; rewrite take_length; lia|done|].
  cbn [fst snd]. eexists. rewrite fmap_app, <- app_assoc. reflexivity.
Qed.
Lemma conv_good n (b : list (option Z)) : (n <= length b)%nat -> None ∉ take n b -> Z.of_nat n < U32 -> good (Some b) n (default 0 <$> take n b, false).
Proof.
  intros H1 H2 H3. split_and!; [cbn [fst]; rewrite fmap_length, take_length; lia|done|]. cbn [fst snd]. exists (drop n b). rewrite app_nil_r.
  assert (Some <$> (default 0 <$> take n b) = take n b) as ->; [|by rewrite take_drop].
  clear -H2. induction (take n b) as [|x l IH]; [done|]. apply not_elem_of_cons in H2 as [H2 H3]. cbn [fmap list_fmap]. rewrite IH by done. by destruct x.
Qed.
(** the three ways of making a string, under the rules *)
Lemma make_ok win s e : inv s -> normal s e -> match e with
  | EFrom t (Some src) _ _ => busy s t = false -> exists b n c, step win s e = conv t b n (c, true) true s /\ good b n (c, true) /\ exists r, src = c ++ 0 :: r /\ 0 ∉ c
  | EFrom2 t src n _ _ => busy s t = false -> exists b, step win s e = conv t b n (take n src, true) true s /\ good b n (take n src, true)
  | EConv t b n _ => busy s t = false -> step win s e = conv t b n (match b with Some b => default 0 <$> take n b | None => [] end, false) true s /\
      good b n (match b with Some b => default 0 <$> take n b | None => [] end, false)
  | _ => True end.
Proof.
  intros HI Hn. destruct e as [t [src|] okd okh|t src n okd okh|t b n okh| | | | | | | | |]; try done; cbn [normal] in Hn; cbn [step]; intros ->.
  - destruct Hn as (-> & -> & a & b & -> & H1 & H2). rewrite strlen_free by done.
    destruct (strndup_good win (a ++ 0 :: b) (length a)) as (k & E & G); [rewrite app_length; lia|by rewrite take_app|done|]. unfold from2. rewrite E. rewrite take_app in *.
    eexists _, _, _. split; [reflexivity|]. split; [done|]. by eexists.
  - destruct Hn as (-> & -> & H1 & H2 & H3). destruct (strndup_good win src n) as (k & E & G); [done..|]. unfold from2. rewrite E. eexists. split; [reflexivity|done].
  - destruct b as [b|].
    + destruct Hn as (-> & H1 & H2 & H3). split; [done|]. by apply conv_good.
    + destruct Hn as [-> ->]. split; [done|]. by split.
Qed.

Lemma inv_step win s e s' o : inv s -> normal s e -> step win s e = Ok s' o -> inv s'.
Proof.
  intros HI Hn E. pose proof (make_ok win s e HI Hn) as M. destruct e as [t [src|] okd okh|t src n okd okh|t b n okh|t [i|]|t [i|]|t i|t i|t i|t i|t i|t i k|t u i]; cbn [step] in E, M.
  - destruct (busy s t) eqn:B; [done|]. destruct M as (b & n & c & M & G & _); [done|]. rewrite M in E. by eapply inv_conv.
  - destruct (busy s t); [done|]. by injection E as <- <-.
  - destruct (busy s t) eqn:B; [done|]. destruct M as (b & M & G); [done|]. rewrite M in E. by eapply inv_conv.
  - destruct (busy s t) eqn:B; [done|]. destruct M as (M & G); [done|]. rewrite M in E. by eapply inv_conv.
  - destruct (busy s t); [done|]. destruct (hd s !! i) as [h|] eqn:Eh; [|done]. injection E as <- <-. cbn [normal] in Hn. destruct Hn as [Hn Hl].
    intros j. destruct (HI j) as [N1 N2 N3]. unfold held, going in *. constructor; unfold held, going; cbn [hd blk nx decs frd frs own made upd s_own].
    + intros Hj. destruct (N1 Hj) as (A & B & C). rewrite lookup_insert_ne by congruence. done.
    + destruct (decide (j = i)) as [->|Hj]; [by rewrite lookup_insert|]. rewrite lookup_insert_ne, occ_snoc, bool_decide_false, Z.add_0_r by done. exact N2.
    + intros h'. destruct (decide (j = i)) as [->|Hj].
      * rewrite lookup_insert. intros [= <-]. destruct (N3 h Eh) as (c & z & A1 & A2 & A3 & A4 & A5 & A6). exists c, z. cbn [data len ref_]. rewrite occ_snoc, bool_decide_true by done.
        pose proof (occ_nonneg i (own s).*2). pose proof (occ_nonneg i (decs s).*2). pose proof (occ_in2 i t _ Hn). pose proof LIM_U32. rewrite Z.mod_small by lia.
        rewrite decide_False in A5 by lia. rewrite decide_False by lia. cbn [b2z]. split_and!; try done; lia.
      * rewrite lookup_insert_ne, occ_snoc, bool_decide_false, Z.add_0_r by done. exact (N3 h').
  - destruct (busy s t); [done|]. by injection E as <- <-.
  - destruct (busy s t); [done|]. destruct (hd s !! i) as [h|] eqn:Eh; [|done]. case_bool_decide as Hr; [|done]. injection E as <- <-. cbn [normal] in Hn.
    intros j. destruct (HI j) as [N1 N2 N3]. unfold held, going in *. constructor; unfold held, going; cbn [hd blk nx decs frd frs own made].
    + exact N1.
    + intros Hj. destruct (N2 Hj) as (A & B & C & D). rewrite occ_remove1, occ_snoc by done. rewrite bool_decide_false by congruence. cbn. split_and!; [done|lia|lia|tauto..].
    + intros h' Hj. destruct (N3 h' Hj) as (c & z & A1 & A2 & A3 & A4 & A5 & A6). exists c, z. rewrite occ_remove1, occ_snoc by done. split_and!; try done. lia.
  - destruct (busy s t); [done|]. by injection E as <- <-.
  - case_bool_decide as Hd; [|done]. destruct (hd s !! i) as [h|] eqn:Eh; [|done]. injection E as <- <-.
    intros j. destruct (HI j) as [N1 N2 N3]. unfold held, going in *. constructor; unfold held, going; cbn [hd blk nx decs frd frs own made].
    + intros Hj. destruct (N1 Hj) as (A & B & C). rewrite lookup_insert_ne by congruence. done.
    + destruct (decide (j = i)) as [->|Hj]; [by rewrite lookup_insert|]. rewrite lookup_insert_ne by done. intros Hh. destruct (N2 Hh) as (A & B & C & D & F).
      rewrite occ_remove1, bool_decide_false by done. case_bool_decide; rewrite ?occ_snoc, ?(bool_decide_false (i = j)) by done; cbn; split_and!; lia || done.
    + intros h'. rewrite occ_remove1 by done. pose proof (occ_nonneg i (own s).*2). pose proof (occ_in2 i t _ Hd). pose proof LIM_U32. destruct (decide (j = i)) as [->|Hj].
      * rewrite lookup_insert. intros [= <-]. destruct (N3 h Eh) as (c & z & A1 & A2 & A3 & A4 & A5 & A6). exists c, z. cbn [data len ref_]. rewrite (bool_decide_true (i = i)) by done.
        rewrite Z.mod_small by lia. rewrite decide_False in A5 by lia. cbn [b2z]. split_and!; try done; try lia.
        case_bool_decide as Hz; [rewrite decide_True, occ_snoc, bool_decide_true by done; cbn|rewrite decide_False by done]; lia.
      * rewrite lookup_insert_ne, (bool_decide_false (i = j)), Z.sub_0_r by done. intros Hh. specialize (N3 h' Hh).
        case_bool_decide; rewrite ?occ_snoc, ?(bool_decide_false (i = j)), ?Z.add_0_r by done; exact N3.
  - case_bool_decide as Hd; [|done]. destruct (hd s !! i) as [h|] eqn:Eh; [|done].
    destruct (HI i) as [_ _ Ni]. destruct (Ni h Eh) as (c & z & A1 & A2 & A3 & A4 & A5 & A6). pose proof (occ_in2 i t _ Hd). pose proof (occ_nonneg i (frs s).*2).
    assert (Hr: ref_ h = 0) by (destruct (decide (ref_ h = 0)); [done|lia]). rewrite decide_True in A5 by done. rewrite decide_True in A6 by lia.
    set (bk := match data h with Some d => delete d (blk s) | None => blk s end).
    assert (E2: s' = mkst (hd s) bk (nx s) (decs s) (remove1 (t, i) (frd s)) (frs s ++ [(t, i)]) (own s) (made s)).
    { unfold bk. destruct (data h); [destruct (blk s !! _)|]; congruence. }
    clear E. subst s'. assert (Eb: forall j, j <> i -> bk !! j = blk s !! j).
    { intros j Hj. unfold bk. destruct (data h); [|done]. destruct A6 as [-> _]. by rewrite lookup_delete_ne. }
    assert (Ei: bk !! i = None). { unfold bk. destruct (data h); [|tauto]. destruct A6 as [-> _]. by rewrite lookup_delete. }
    intros j. destruct (HI j) as [N1 N2 N3]. unfold held, going in *. constructor; unfold held, going; cbn [hd blk nx decs frd frs own made]; rewrite ?occ_snoc, ?occ_remove1 by done.
    + intros Hj. destruct (N1 Hj) as (A & B & C). rewrite Eb by congruence. done.
    + intros Hh. assert (j <> i) by congruence. rewrite Eb, bool_decide_false, Z.add_0_r, Z.sub_0_r by done. by apply N2.
    + intros h' Hh. destruct (decide (j = i)) as [->|Hj].
      * rewrite Eh in Hh. injection Hh as <-. exists c, z. rewrite bool_decide_true by done. cbn [b2z]. rewrite Hr in *. rewrite decide_True by done. split_and!; try done; try lia.
        rewrite Ei. destruct (data h); [|tauto]. rewrite decide_False by lia. by destruct A6.
      * rewrite Eb, bool_decide_false, Z.add_0_r, Z.sub_0_r by done. by apply N3.
  - case_bool_decide as Hd; [|done]. destruct (hd s !! i) as [h|] eqn:Eh; [|done]. injection E as <- <-.
    destruct (HI i) as [_ _ Ni]. destruct (Ni h Eh) as (c & z & A1 & A2 & A3 & A4 & A5 & A6). pose proof (occ_in2 i t _ Hd). pose proof (occ_nonneg i (frd s).*2).
    assert (Hr: ref_ h = 0) by (destruct (decide (ref_ h = 0)); [done|lia]). rewrite decide_True in A5 by done. rewrite decide_False in A6 by lia. unfold held, going in *.
    pose proof (occ_nonneg i (own s).*2). pose proof (occ_nonneg i (decs s).*2).
    intros j. destruct (HI j) as [N1 N2 N3]. constructor; unfold held, going in *; cbn [hd blk nx decs frd frs own made]; rewrite ?occ_remove1 by done.
    + intros Hj. destruct (N1 Hj) as (A & B & C). rewrite lookup_delete_None. auto.
    + destruct (decide (j = i)) as [->|Hj].
      * intros _. rewrite bool_decide_true by done. cbn [b2z]. split_and!; try lia. destruct (data h); tauto.
      * rewrite lookup_delete_ne, bool_decide_false, Z.sub_0_r by done. exact N2.
    + intros h'. destruct (decide (j = i)) as [->|Hj]; [by rewrite lookup_delete|]. rewrite lookup_delete_ne, bool_decide_false, Z.sub_0_r by done. apply N3.
  - destruct (busy s t); [done|]. destruct (hd s !! i); [|done]. by injection E as <- <-.
  - destruct (busy s t); [done|]. destruct (hd s !! i); [|done]. by injection E as <- <-.
  - destruct (busy s t); [done|]. destruct (hd s !! i) as [h|]; [|done]. destruct (data h); [|done]. destruct (blk s !! _); [|done]. destruct (_ !! k); [|done]. by injection E as <- <-.
  - destruct (busy s t); [done|]. injection E as <- <-. cbn [normal] in Hn. intros j. destruct (HI j) as [N1 N2 N3].
    assert (EO: forall s1, own s1 = remove1 (t, i) (own s) ++ [(u, i)] -> held s1 j = held s j).
    { intros s1 E1. unfold held. rewrite E1, occ_snoc, occ_remove1 by done. lia. }
    constructor; cbn [hd blk nx decs frd frs own made s_own]; [exact N1|..]; rewrite EO by done; [exact N2|exact N3].
Qed.
Lemma reachf_inv win s0 tr s : inv s0 -> reachf win s0 tr s -> inv s.
Proof. intros H0. induction 1; [done|]. by eapply inv_step. Qed.
Lemma reach_inv' win tr s : reach win tr s -> inv s.
Proof. apply reachf_inv, inv_init. Qed.

(** a string somebody holds *)
Lemma held_some s t i : inv s -> (t, i) ∈ own s -> exists h c z b, hd s !! i = Some h /\ made s !! i = Some (c, z) /\ len h = Z.of_nat (length c) /\
  ref_ h = held s i + going s i /\ 0 < ref_ h < LIM /\
  match data h with None => c = [] /\ z = false | Some d => d = i /\ blk s !! i = Some b /\ holds b c z end.
Proof.
  intros HI Ho. apply occ_in2 in Ho. destruct (HI i) as [_ N2 N3]. destruct (hd s !! i) as [h|] eqn:Eh.
  - destruct (N3 h eq_refl) as (c & z & A1 & A2 & A3 & A4 & A5 & A6). unfold held, going in *. pose proof (occ_nonneg i (decs s).*2). pose proof (occ_nonneg i (frd s).*2). pose proof (occ_nonneg i (frs s).*2).
    rewrite decide_False in A5 by lia. destruct (data h) eqn:Ed.
    + destruct A6 as [-> A6]. rewrite decide_True in A6 by lia. destruct A6 as (b & A6 & A7). exists h, c, z, b. rewrite Ed. split_and!; done || lia.
    + exists h, c, z, []. rewrite Ed. split_and!; tauto || lia.
  - destruct (N2 eq_refl) as (_ & A & _). unfold held in A. lia.
Qed.

(** * Theorems *)
(** no thread ever touches freed memory, frees twice, fails the assertion or reads outside a string *)
Theorem C67_safe_partial win tr s e : reach win tr s -> normal s e -> step win s e <> Crash.
Proof.
  intros H Hn. apply reach_inv' in H as HI. pose proof (make_ok win s e HI Hn) as M. destruct e as [t [src|] okd okh|t src n okd okh|t b n okh|t [i|]|t [i|]|t i|t i|t i|t i|t i|t i k|t u i]; cbn [step normal] in *.
  1-4: destruct (busy s t) eqn:B; try done.
  - destruct M as (b & n & c & M & _); [done|]. rewrite M. destruct (conv_ok t b n (c, true) s) as (? & -> & _). done.
  - destruct M as (b & M & _); [done|]. rewrite M. destruct (conv_ok t b n (take n src, true) s) as (? & -> & _). done.
  - destruct M as (M & _); [done|]. rewrite M. by destruct (conv_ok t b n (match b with Some b => default 0 <$> take n b | None => [] end, false) s) as (? & -> & _).
  - destruct (busy s t); [done|]. destruct Hn as [Hn _]. by destruct (held_some s t i HI Hn) as (h & c & z & b & -> & _).
  - by destruct (busy s t).
  - destruct (busy s t); [done|]. destruct (held_some s t i HI Hn) as (h & c & z & b & -> & _ & _ & _ & Hr & _). rewrite bool_decide_true by lia. done.
  - by destruct (busy s t).
  - case_bool_decide as Hd; [|done]. destruct (hd s !! i) eqn:Eh; [done|]. destruct (HI i) as [_ N2 _]. destruct (N2 Eh) as (_ & _ & A & _). apply occ_in2 in Hd. unfold going in A. lia.
  - case_bool_decide as Hd; [|done]. apply occ_in2 in Hd. pose proof (occ_nonneg i (frs s).*2). destruct (HI i) as [_ N2 N3]. destruct (hd s !! i) as [h|].
    + destruct (N3 h eq_refl) as (c & z & _ & _ & _ & _ & A5 & A6). destruct (data h) as [d|]; [|done]. destruct A6 as [-> A6]. rewrite decide_True in A6 by (destruct (decide (ref_ h = 0)); lia). by destruct A6 as (b & -> & _).
    + destruct (N2 eq_refl) as (_ & _ & _ & A & _). lia.
  - case_bool_decide as Hd; [|done]. destruct (hd s !! i) eqn:Eh; [done|]. destruct (HI i) as [_ N2 _]. destruct (N2 Eh) as (_ & _ & _ & _ & A). apply occ_in2 in Hd. lia.
  - destruct (busy s t); [done|]. by destruct (held_some s t i HI Hn) as (h & c & z & b & -> & _).
  - destruct (busy s t); [done|]. by destruct (held_some s t i HI Hn) as (h & c & z & b & -> & _).
  - destruct (busy s t); [done|]. destruct Hn as (Hn & c' & z' & Hm & Hk). destruct (held_some s t i HI Hn) as (h & c & z & b & -> & Hm2 & _ & _ & _ & Hd). rewrite Hm in Hm2. injection Hm2 as -> ->.
    destruct (data h) as [d|]; [|destruct Hd as [-> ->]; cbn in Hk; lia]. destruct Hd as (-> & -> & r & ->).
    destruct (_ !! k) eqn:Ek; [done|]. apply lookup_ge_None in Ek. rewrite app_length, fmap_length, app_length in Ek. destruct z; cbn in Hk, Ek; lia.
  - by destruct (busy s t).
Qed.

(** what was asked for is what everybody who holds the string reads, for as long as anybody holds it *)
Lemma made_kept win s0 tr s i c : inv s0 -> reachf win s0 tr s -> made s0 !! i = Some c -> made s !! i = Some c.
Proof.
  intros HI H Hm. induction H as [|tr s e s' o H IH Hn E]; [done|].
  pose proof (reachf_inv _ _ _ _ HI H) as HI'. assert (K: made s' = made s \/ exists c', made s' = <[nx s := c']> (made s)).
  { pose proof (make_ok win s e HI' Hn) as M. destruct e as [t [src|] okd okh|t src n okd okh|t b n okh|t [j|]|t [j|]|t j|t j|t j|t j|t j|t j k|t u j]; cbn [step] in *.
    - destruct (busy s t) eqn:B; [done|]. destruct M as (b & n & c2 & M & _); [done|]. rewrite M in E. destruct (conv_ok t b n (c2, true) s) as (? & E2 & M2). rewrite E in E2. injection E2 as <- _. right. eexists. apply M2.
    - destruct (busy s t); [done|]. left. congruence.
    - destruct (busy s t) eqn:B; [done|]. destruct M as (b & M & _); [done|]. rewrite M in E. destruct (conv_ok t b n (take n src, true) s) as (? & E2 & M2). rewrite E in E2. injection E2 as <- _. right. eexists. apply M2.
    - destruct (busy s t) eqn:B; [done|]. destruct M as (M & _); [done|]. rewrite M in E. destruct (conv_ok t b n (match b with Some b => default 0 <$> take n b | None => [] end, false) s) as (? & E2 & M2). rewrite E in E2. injection E2 as <- _. right. eexists. apply M2.
    - left. destruct (busy s t); [done|]. destruct (hd s !! j); [|done]. injection E as <- _. done.
    - left. destruct (busy s t); [done|]. congruence.
    - left. destruct (busy s t); [done|]. destruct (hd s !! j); [|done]. destruct (bool_decide _); [|done]. by injection E as <- _.
    - left. destruct (busy s t); [done|]. congruence.
    - left. destruct (bool_decide _); [|done]. destruct (hd s !! j); [|done]. by injection E as <- _.
    - left. destruct (bool_decide _); [|done]. destruct (hd s !! j) as [h|]; [|done]. destruct (data h); [destruct (blk s !! _); [|done]|]; by injection E as <- _.
    - left. destruct (bool_decide _); [|done]. destruct (hd s !! j); [|done]. by injection E as <- _.
    - left. destruct (busy s t); [done|]. destruct (hd s !! j); [|done]. by injection E as <- _.
    - left. destruct (busy s t); [done|]. destruct (hd s !! j); [|done]. by injection E as <- _.
    - left. destruct (busy s t); [done|]. destruct (hd s !! j) as [h|]; [|done]. destruct (data h); [|done]. destruct (blk s !! _); [|done]. destruct (_ !! k); [|done]. by injection E as <- _.
    - left. destruct (busy s t); [done|]. by injection E as <- _. }
  destruct K as [-> | [c' ->]]; [done|]. rewrite lookup_insert_ne; [done|]. intros <-. destruct (HI' (nx s)) as [N1 _ _]. destruct N1 as (_ & _ & N1); [lia|]. congruence.
Qed.
Lemma read_held win s i t k o s' c z : inv s -> made s !! i = Some (c, z) -> (t, i) ∈ own s -> step win s (ERead t i k) = Ok s' o -> (Z.of_nat k < Z.of_nat (length c) + b2z z) ->
  o = OByte (Some (nth k c 0)).
Proof.
  intros HI Hm Ho E Hk. destruct (held_some s t i HI Ho) as (h & c' & z' & b & Eh & Hm2 & _ & _ & _ & Hd). rewrite Hm in Hm2. injection Hm2 as <- <-.
  cbn [step] in E. destruct (busy s t); [done|]. rewrite Eh in E. destruct (data h) as [d|]; [|done]. destruct Hd as (-> & Eb & r & ->). rewrite Eb in E.
  assert (K: ((Some <$> (c ++ if z then [0] else [])) ++ r) !! k = Some (Some (nth k c 0))).
  { rewrite lookup_app_l by (rewrite fmap_length, app_length; destruct z; cbn in *; lia). rewrite list_lookup_fmap. destruct (decide (k < length c)%nat) as [Hl|Hl].
    - rewrite lookup_app_l by done. destruct (lookup_lt_is_Some_2 c k Hl) as [x Hx]. rewrite Hx. cbn. do 2 f_equal. symmetry. by apply nth_lookup_Some.
    - destruct z; cbn [b2z] in Hk; [|lia]. assert (k = length c) as -> by lia. rewrite lookup_app_r, Nat.sub_diag by lia. cbn. by rewrite nth_overflow by lia. }
  rewrite K in E. by injection E as _ <-.
Qed.
Definition asked (e : ev) : list Z * bool :=
  match e with
  | EFrom t (Some src) _ _ => (take (default 0%nat (strlen src)) src, true)
  | EFrom2 t src n _ _ => (take n src, true)
  | EConv t (Some b) n _ => (default 0 <$> take n b, false)
  | _ => ([], false)
  end.
Theorem C67_content_partial win tr s e s1 i tr2 s2 : reach win tr s -> normal s e -> (match e with ERefs _ _ => False | _ => True end) -> step win s e = Ok s1 (OPtr (Some i)) -> reachf win s1 tr2 s2 ->
  let (c, z) := asked e in
  (forall t s3 o, (t, i) ∈ own s2 -> step win s2 (ELen t i) = Ok s3 o -> o = OVal (Z.of_nat (length c))) /\
  (forall t k s3 o, (t, i) ∈ own s2 -> (k < length c)%nat -> step win s2 (ERead t i k) = Ok s3 o -> o = OByte (c !! k)) /\
  (z = true -> forall t s3 o, (t, i) ∈ own s2 -> step win s2 (ERead t i (length c)) = Ok s3 o -> o = OByte (Some 0)).
Proof.
  intros H Hn Hk E H2. apply reach_inv' in H as HI. pose proof (inv_step _ _ _ _ _ HI Hn E) as HI1. pose proof (reachf_inv _ _ _ _ HI1 H2) as HI2.
  assert (K: made s1 !! i = Some (asked e)).
  { pose proof (make_ok win s e HI Hn) as M. destruct e as [t [src|] okd okh|t src n okd okh|t b n okh|t [j|]|t [j|]|t j|t j|t j|t j|t j|t j k|t u j]; try done; cbn [step] in *.
    - destruct (busy s t) eqn:B; [done|]. destruct M as (b & n & c2 & M & _ & r & -> & Hz); [done|]. rewrite M in E. destruct (conv_ok t b n (c2, true) s) as (? & E2 & M2). rewrite E in E2. injection E2 as <- ->.
      destruct M2 as (_ & _ & _ & _ & _ & _ & _ & ->). rewrite lookup_insert. cbn [asked]. rewrite strlen_free by done. change (Some (c2, true) = Some (take (length c2) (c2 ++ 0 :: r), true)). by rewrite take_app.
    - by destruct (busy s t).
    - destruct (busy s t) eqn:B; [done|]. destruct M as (b & M & _); [done|]. rewrite M in E. destruct (conv_ok t b n (take n src, true) s) as (? & E2 & M2). rewrite E in E2. injection E2 as <- ->.
      destruct M2 as (_ & _ & _ & _ & _ & _ & _ & ->). by rewrite lookup_insert.
    - destruct (busy s t) eqn:B; [done|]. destruct M as (M & _); [done|]. rewrite M in E. destruct (conv_ok t b n (match b with Some b => default 0 <$> take n b | None => [] end, false) s) as (? & E2 & M2). rewrite E in E2. injection E2 as <- ->.
      destruct M2 as (_ & _ & _ & _ & _ & _ & _ & ->). rewrite lookup_insert. by destruct b.
    - destruct (busy s t); [done|]. destruct (hd s !! j); [|done]. by destruct (bool_decide _).
    - by destruct (busy s t).
    - destruct (bool_decide _); [|done]. by destruct (hd s !! j).
    - destruct (bool_decide _); [|done]. destruct (hd s !! j) as [h|]; [|done]. destruct (data h); [by destruct (blk s !! _)|done].
    - destruct (bool_decide _); [|done]. by destruct (hd s !! j).
    - destruct (busy s t); [done|]. by destruct (hd s !! j).
    - destruct (busy s t); [done|]. by destruct (hd s !! j).
    - destruct (busy s t); [done|]. destruct (hd s !! j) as [h|]; [|done]. destruct (data h); [|done]. destruct (blk s !! _); [|done]. by destruct (_ !! k).
    - by destruct (busy s t). }
  destruct (asked e) as [c z]. pose proof (made_kept _ _ _ _ _ _ HI1 H2 K) as Hm. split_and!.
  - intros t s3 o Ho E3. destruct (held_some s2 t i HI2 Ho) as (h & c' & z' & b & Eh & Hm2 & Hl & _). rewrite Hm in Hm2. injection Hm2 as <- <-.
    cbn [step] in E3. destruct (busy s2 t); [done|]. rewrite Eh in E3. injection E3 as _ <-. by rewrite Hl.
  - intros t k s3 o Ho Hl E3. rewrite (read_held _ _ _ _ _ _ _ _ _ HI2 Hm Ho E3) by (destruct z; cbn; lia). destruct (lookup_lt_is_Some_2 c k Hl) as [x Hx]. rewrite Hx.
    do 2 f_equal. by apply nth_lookup_Some.
  - intros -> t s3 o Ho E3. rewrite (read_held _ _ _ _ _ _ _ _ _ HI2 Hm Ho E3) by (cbn; lia). by rewrite nth_overflow by lia.
Qed.
(** a string that is made is new, and its maker holds the only reference *)
Theorem C67_make win tr s e s1 i : reach win tr s -> normal s e -> (match e with ERefs _ _ => False | _ => True end) -> step win s e = Ok s1 (OPtr (Some i)) ->
  hd s !! i = None /\ held s i = 0 /\ held s1 i = 1 /\ (forall j, j <> i -> hd s1 !! j = hd s !! j /\ blk s1 !! j = blk s !! j) /\
  (match e with EFrom t _ _ _ | EFrom2 t _ _ _ _ | EConv t _ _ _ => (t, i) ∈ own s1 | _ => False end).
Proof.
  intros H Hn Hk E. apply reach_inv' in H as HI.
  assert (K: exists t b n c, conv t b n c true s = Ok s1 (OPtr (Some i)) /\ match e with EFrom u _ _ _ | EFrom2 u _ _ _ _ | EConv u _ _ _ => u = t | _ => False end).
  { pose proof (make_ok win s e HI Hn) as M. destruct e as [t [src|] okd okh|t src n okd okh|t b n okh|t [j|]|t [j|]|t j|t j|t j|t j|t j|t j k|t u j]; try done; cbn [step] in *.
    - destruct (busy s t) eqn:B; [done|]. destruct M as (b & n & c2 & M & _); [done|]. rewrite M in E. by eexists _, _, _, _.
    - by destruct (busy s t).
    - destruct (busy s t) eqn:B; [done|]. destruct M as (b & M & _); [done|]. rewrite M in E. by eexists _, _, _, _.
    - destruct (busy s t) eqn:B; [done|]. destruct M as (M & _); [done|]. rewrite M in E. by eexists _, _, _, _.
    - destruct (busy s t); [done|]. destruct (hd s !! j); [|done]. by destruct (bool_decide _).
    - by destruct (busy s t).
    - destruct (bool_decide _); [|done]. by destruct (hd s !! j).
    - destruct (bool_decide _); [|done]. destruct (hd s !! j) as [h|]; [|done]. destruct (data h); [by destruct (blk s !! _)|done].
    - destruct (bool_decide _); [|done]. by destruct (hd s !! j).
    - destruct (busy s t); [done|]. by destruct (hd s !! j).
    - destruct (busy s t); [done|]. by destruct (hd s !! j).
    - destruct (busy s t); [done|]. destruct (hd s !! j) as [h|]; [|done]. destruct (data h); [|done]. destruct (blk s !! _); [|done]. by destruct (_ !! k).
    - by destruct (busy s t). }
  destruct K as (t & b & n & c & K & Kt). destruct (conv_ok t b n c s) as (? & E2 & Eh & Eb & _ & _ & _ & _ & Eo & _). rewrite K in E2. injection E2 as <- ->.
  destruct (HI (nx s)) as [N1 N2 _]. destruct N1 as (N1 & _); [lia|]. destruct (N2 N1) as (_ & A & _). split_and!; [done|done|..].
  - unfold held in *. rewrite Eo, occ_snoc, bool_decide_true, A by done. done.
  - intros j Hj. rewrite Eh, Eb, lookup_insert_ne by done. split; [done|]. destruct b; [by rewrite lookup_insert_ne|done].
  - destruct e; try done; subst; rewrite Eo; apply elem_of_app; right; by left.
Qed.
(** kstring_get_ref: the number of references *)
Theorem C67_count win tr s t i s' o : reach win tr s -> (t, i) ∈ own s -> step win s (EGetRef t i) = Ok s' o -> o = OVal (held s i + going s i).
Proof.
  intros H Ho E. apply reach_inv' in H as HI. destruct (held_some s t i HI Ho) as (h & c & z & b & Eh & _ & _ & Hr & _). cbn [step] in E. destruct (busy s t); [done|]. rewrite Eh in E. injection E as _ <-. by rewrite Hr.
Qed.
(** the memory of a string exists as long as a reference does, and is gone when the last release is over *)
Theorem C67_lifetime win tr s i : reach win tr s -> (0 < held s i -> is_Some (hd s !! i)) /\
  (held s i = 0 -> (forall t, (t, i) ∉ decs s ++ frd s ++ frs s) -> hd s !! i = None /\ blk s !! i = None).
Proof.
  intros H. apply reach_inv' in H as HI. destruct (HI i) as [_ N2 N3]. split.
  - intros Hp. destruct (hd s !! i); [by eexists|]. destruct (N2 eq_refl) as (_ & A & _). lia.
  - intros H0 Hq. assert (Z: forall l : list (nat * nat), (forall t, (t, i) ∉ l) -> occ i l.*2 = 0).
    { intros l Hl. pose proof (occ_nonneg i l.*2). destruct (decide (0 < occ i l.*2)) as [Hp|]; [|lia]. apply occ_in, elem_of_list_fmap in Hp as ([t j] & E & Hp). cbn in E. subst j. by destruct (Hl t). }
    destruct (hd s !! i) as [h|] eqn:Eh; [|by destruct (N2 eq_refl) as (-> & _)]. destruct (N3 h eq_refl) as (c & z & _ & _ & A3 & _ & A5 & _). unfold held, going in *.
    rewrite (Z (decs s)), H0 in A3 by (intros t Ht; apply (Hq t); rewrite !elem_of_app; auto). rewrite (Z (frd s)), (Z (frs s)), decide_True in A5 by (done || (intros t Ht; apply (Hq t); rewrite !elem_of_app; auto)). lia.
Qed.
(** when nobody holds anything and no release is under way, all memory is given back *)
Theorem C67_no_leak win tr s : reach win tr s -> quiet s -> own s = [] -> hd s = ∅ /\ blk s = ∅.
Proof.
  intros H (Q1 & Q2 & Q3) Ho. assert (K: forall i, hd s !! i = None /\ blk s !! i = None).
  { intros i. eapply C67_lifetime; [done|unfold held; by rewrite Ho|]. intros t. rewrite Q1, Q2, Q3. by apply not_elem_of_nil. }
  split; apply map_eq; intros i; rewrite lookup_empty; apply K.
Qed.
(** exactly the release that gives back the last reference frees: the bytes and the header are freed by no other step *)
Theorem C67_freed_by_last win tr s e s' o i : reach win tr s -> normal s e -> step win s e = Ok s' o ->
  (is_Some (hd s !! i) -> hd s' !! i = None -> exists t, e = EFreeS t i /\ held s i = 0 /\ going s i = 0) /\
  (is_Some (blk s !! i) -> blk s' !! i = None -> exists t, e = EFreeD t i /\ held s i = 0 /\ going s i = 0).
Proof.
  intros H Hn E. apply reach_inv' in H as HI. destruct (HI i) as [N1 N2 N3].
  assert (K: forall t b n c, conv t b n c true s = Ok s' o -> (is_Some (hd s !! i) -> is_Some (hd s' !! i)) /\ (is_Some (blk s !! i) -> is_Some (blk s' !! i))).
  { intros t b n c E2. destruct (conv_ok t b n c s) as (s2 & E3 & Eh & Eb & _). rewrite E2 in E3. injection E3 as <- _. rewrite Eh, Eb. split.
    - intros Hs. destruct (decide (nx s = i)) as [->|]; [rewrite lookup_insert; by eexists|by rewrite lookup_insert_ne].
    - intros Hs. destruct b; [|done]. destruct (decide (nx s = i)) as [->|]; [rewrite lookup_insert; by eexists|by rewrite lookup_insert_ne]. }
  assert (Q: forall s2, (is_Some (hd s !! i) -> is_Some (hd s2 !! i)) /\ (is_Some (blk s !! i) -> is_Some (blk s2 !! i)) ->
    (is_Some (hd s !! i) -> hd s2 !! i = None -> exists t, e = EFreeS t i /\ held s i = 0 /\ going s i = 0) /\
    (is_Some (blk s !! i) -> blk s2 !! i = None -> exists t, e = EFreeD t i /\ held s i = 0 /\ going s i = 0)).
  { intros s2 [Q1 Q2]. split; intros A B; [apply Q1 in A|apply Q2 in A]; rewrite B in A; by destruct A. }
  assert (R: hd s' = hd s -> blk s' = blk s -> (is_Some (hd s !! i) -> is_Some (hd s' !! i)) /\ (is_Some (blk s !! i) -> is_Some (blk s' !! i))) by (by intros -> ->).
  pose proof (make_ok win s e HI Hn) as M. destruct e as [t [src|] okd okh|t src n okd okh|t b n okh|t [j|]|t [j|]|t j|t j|t j|t j|t j|t j k|t u j]; cbn [step] in *.
  - destruct (busy s t) eqn:B; [done|]. destruct M as (b & n & c2 & M & _); [done|]. rewrite M in E. by eapply Q, K.
  - destruct (busy s t); [done|]. injection E as <- _. by apply Q.
  - destruct (busy s t) eqn:B; [done|]. destruct M as (b & M & _); [done|]. rewrite M in E. by eapply Q, K.
  - destruct (busy s t) eqn:B; [done|]. destruct M as (M & _); [done|]. rewrite M in E. by eapply Q, K.
  - destruct (busy s t); [done|]. destruct (hd s !! j) eqn:Eh; [|done]. injection E as <- _. apply Q. split; [|done]. cbn. intros Hs. destruct (decide (j = i)) as [->|]; [rewrite lookup_insert; by eexists|by rewrite lookup_insert_ne].
  - destruct (busy s t); [done|]. injection E as <- _. by apply Q.
  - destruct (busy s t); [done|]. destruct (hd s !! j); [|done]. destruct (bool_decide _); [|done]. injection E as <- _. by apply Q.
  - destruct (busy s t); [done|]. injection E as <- _. by apply Q.
  - destruct (bool_decide _); [|done]. destruct (hd s !! j) eqn:Eh; [|done]. injection E as <- _. apply Q. split; [|done]. cbn. intros Hs. destruct (decide (j = i)) as [->|]; [rewrite lookup_insert; by eexists|by rewrite lookup_insert_ne].
  - case_bool_decide as Hd; [|done]. destruct (hd s !! j) as [h|] eqn:Eh; [|done]. destruct (HI j) as [_ _ Nj]. destruct (Nj h Eh) as (c & z & _ & _ & A3 & _ & A5 & A6). apply occ_in2 in Hd. pose proof (occ_nonneg j (frs s).*2).
    destruct (data h) as [d|]; [destruct (blk s !! d); [|done]|]; injection E as <- _; cbn [hd blk]; [|by apply Q]. split; [intros A B; rewrite B in A; by destruct A|].
    destruct A6 as [-> _]. destruct (decide (j = i)) as [->|]; [|rewrite lookup_delete_ne by done; intros A B; rewrite B in A; by destruct A]. intros _ _. exists t. split; [done|].
    destruct (decide (ref_ h = 0)) as [Hr|]; [|lia]. unfold held, going in *. pose proof (occ_nonneg i (own s).*2). pose proof (occ_nonneg i (decs s).*2). lia.
  - case_bool_decide as Hd; [|done]. destruct (hd s !! j) as [h|] eqn:Eh; [|done]. destruct (HI j) as [_ _ Nj]. destruct (Nj h Eh) as (c & z & _ & _ & A3 & _ & A5 & A6). apply occ_in2 in Hd. pose proof (occ_nonneg j (frd s).*2).
    injection E as <- _; cbn [hd blk]. split; [|intros A B; rewrite B in A; by destruct A].
    destruct (decide (j = i)) as [->|]; [|rewrite lookup_delete_ne by done; intros A B; rewrite B in A; by destruct A]. intros _ _. exists t. split; [done|].
    destruct (decide (ref_ h = 0)) as [Hr|]; [|lia]. unfold held, going in *. pose proof (occ_nonneg i (own s).*2). pose proof (occ_nonneg i (decs s).*2). lia.
  - destruct (busy s t); [done|]. destruct (hd s !! j); [|done]. injection E as <- _. by apply Q.
  - destruct (busy s t); [done|]. destruct (hd s !! j); [|done]. injection E as <- _. by apply Q.
  - destruct (busy s t); [done|]. destruct (hd s !! j) as [h|]; [|done]. destruct (data h); [|done]. destruct (blk s !! _); [|done]. destruct (_ !! k); [|done]. injection E as <- _. by apply Q.
  - destruct (busy s t); [done|]. injection E as <- _. by apply Q.
Qed.
(** the number of references follows the calls: refs adds one, release takes one, a gift changes nothing *)
Theorem C67_refs win tr s t i s' o : reach win tr s -> normal s (ERefs t (Some i)) -> step win s (ERefs t (Some i)) = Ok s' o ->
  o = OPtr (Some i) /\ held s' i = held s i + 1 /\ (t, i) ∈ own s' /\ forall j, j <> i -> held s' j = held s j.
Proof.
  intros H Hn E. cbn [step] in E. destruct (busy s t); [done|]. destruct (hd s !! i); [|done]. injection E as <- <-. unfold held. cbn [own s_own upd].
  split_and!; [done|rewrite occ_snoc, bool_decide_true by done; done|apply elem_of_app; right; by left|]. intros j Hj. rewrite occ_snoc, bool_decide_false by done. cbn. lia.
Qed.
(** a null string is accepted everywhere and nothing happens *)
Theorem C67_null win s t okd okh : busy s t = false -> step win s (ERefs t None) = Ok s (OPtr None) /\ step win s (ERel t None) = Ok s ONone /\ step win s (EFrom t None okd okh) = Ok s (OPtr None).
Proof. intros B. cbn [step]. by rewrite B. Qed.

(** a thread that is inside kstring_release finishes in at most 3 steps of its own, whatever the others do *)
Definition mine (t i : nat) (e : ev) : bool := match e with EDec u j | EFreeD u j | EFreeS u j => Nat.eqb u t && Nat.eqb j i | _ => false end.
Definition left_ (s : st) (t i : nat) : Z := 3 * occ i (omap (fun p => if Nat.eqb p.1 t then Some p.2 else None) (decs s)) + 2 * occ i (omap (fun p => if Nat.eqb p.1 t then Some p.2 else None) (frd s)) + occ i (omap (fun p => if Nat.eqb p.1 t then Some p.2 else None) (frs s)).
Theorem C67_progress win tr s t i : reach win tr s -> (t, i) ∈ decs s ++ frd s ++ frs s -> exists e s' o, mine t i e = true /\ normal s e /\ step win s e = Ok s' o /\ left_ s' t i < left_ s t i.
Proof.
  intros H Hin. rewrite !elem_of_app in Hin.
  assert (P: forall l, (t, i) ∈ l -> occ i (omap (fun p => if Nat.eqb p.1 t then Some p.2 else None) (remove1 (t, i) l)) = occ i (omap (fun p => if Nat.eqb p.1 t then Some p.2 else None) l) - 1).
  { intros l Hl. pose proof (remove1_perm _ _ Hl) as Pm. assert (Q: forall l k : list (nat * nat), l ≡ₚ k -> occ i (omap (fun p => if Nat.eqb p.1 t then Some p.2 else None) l) = occ i (omap (fun p => if Nat.eqb p.1 t then Some p.2 else None) k)).
    { clear. intros l k. induction 1 as [|x l k _ IH|x y l|]; [done| | |congruence].
      - cbn [omap list_omap]. destruct (Nat.eqb x.1 t); rewrite ?occ_cons; lia.
      - cbn [omap list_omap]. destruct (Nat.eqb x.1 t), (Nat.eqb y.1 t); rewrite ?occ_cons; lia. }
    rewrite (Q _ _ Pm). cbn [omap list_omap fst snd]. rewrite Nat.eqb_refl, occ_cons, bool_decide_true by done. cbn. lia. }
  assert (A: forall l, occ i (omap (fun p => if Nat.eqb p.1 t then Some p.2 else None) (l ++ [(t, i)])) = occ i (omap (fun p => if Nat.eqb p.1 t then Some p.2 else None) l) + 1).
  { intros l. rewrite omap_app. rewrite occ_sumz, sumz_app. cbn [omap list_omap fst snd]. rewrite Nat.eqb_refl, sumz_one, bool_decide_true by done. done. }
  destruct Hin as [Hin|[Hin|Hin]].
  - pose proof (C67_safe_partial win tr s (EDec t i) H I) as Sf. exists (EDec t i). cbn [step] in *. rewrite bool_decide_true in * by done. destruct (hd s !! i); [|done]. eexists _, _. split; [cbn; by rewrite !Nat.eqb_refl|]. split; [done|]. split; [reflexivity|].
    unfold left_. cbn [decs frd frs]. rewrite P by done. case_bool_decide; rewrite ?A; lia.
  - pose proof (C67_safe_partial win tr s (EFreeD t i) H I) as Sf. exists (EFreeD t i). cbn [step] in *. rewrite bool_decide_true in * by done. destruct (hd s !! i) as [h|]; [|done].
    destruct (data h); [destruct (blk s !! _); [|done]|]; eexists _, _; (split; [cbn; by rewrite !Nat.eqb_refl|]; split; [done|]; split; [reflexivity|]); unfold left_; cbn [decs frd frs]; rewrite P by done; rewrite A; lia.
  - pose proof (C67_safe_partial win tr s (EFreeS t i) H I) as Sf. exists (EFreeS t i). cbn [step] in *. rewrite bool_decide_true in * by done. destruct (hd s !! i) as [h|]; [|done].
    eexists _, _. split; [cbn; by rewrite !Nat.eqb_refl|]. split; [done|]. split; [reflexivity|]. unfold left_. cbn [decs frd frs]. rewrite P by done. lia.
Qed.

(** * A case that meets the hypotheses: two threads share a string; thread 2's release is overtaken by thread 1's *)
Definition normalb (s : st) (e : ev) : bool :=
  match e with
  | EFrom t (Some src) okd okh => okd && okh && match strlen src with Some n => Z.of_nat n <? U32 | None => false end
  | EFrom2 t src n okd okh => okd && okh && bool_decide (n <= length src)%nat && bool_decide (~ 0 ∈ take n src) && (Z.of_nat n <? U32)
  | EConv t (Some b) n okh => okh && bool_decide (n <= length b)%nat && bool_decide (~ None ∈ take n b) && (Z.of_nat n <? U32)
  | EConv t None n okh => okh && bool_decide (n = 0%nat)
  | ERefs t (Some i) => bool_decide ((t, i) ∈ own s) && (held s i + going s i + 1 <? LIM)
  | ERel t (Some i) => bool_decide ((t, i) ∈ own s)
  | EGetRef t i | ELen t i => bool_decide ((t, i) ∈ own s)
  | ERead t i k => bool_decide ((t, i) ∈ own s) && match made s !! i with Some (c, z) => Z.of_nat k <? Z.of_nat (length c) + b2z z | None => false end
  | EGive t u i => bool_decide ((t, i) ∈ own s)
  | _ => true
  end.
Lemma strlen_split src n : strlen src = Some n -> exists a b, src = a ++ 0 :: b /\ 0 ∉ a /\ length a = n.
Proof.
  revert n. induction src as [|x src IH]; intros n; [done|]. cbn [strlen]. case_bool_decide as E.
  - intros [= <-]. subst. exists [], src. split_and!; [done|apply not_elem_of_nil|done].
  - destruct (strlen src) as [m|] eqn:Es; [|done]. intros [= <-]. destruct (IH m eq_refl) as (a & b & -> & H1 & H2). exists (x :: a), b. split_and!; [done|apply not_elem_of_cons; split; [congruence|done]|cbn; lia].
Qed.
Lemma normalb_ok s e : normalb s e = true -> normal s e.
Proof.
  destruct e as [t [src|] okd okh|t src n okd okh|t [b|] n okh|t [i|]|t [i|]|t i|t i|t i|t i|t i|t i k|t u i]; cbn [normalb normal]; intros H; repeat (apply andb_prop in H as [H ?]); repeat match goal with K : bool_decide _ = true |- _ => apply bool_decide_eq_true in K | K : (_ <? _) = true |- _ => apply Z.ltb_lt in K end; try done.
  - destruct (strlen src) as [n|] eqn:E; [|done]. apply strlen_split in E as (a & b & -> & E1 & E2). split_and!; [done..|]. exists a, b. split_and!; [done..|]. apply Z.ltb_lt in H0. lia.
  - destruct (made s !! i) as [[c z]|] eqn:E; [|done]. apply Z.ltb_lt in H0. split; [done|]. by exists c, z.
Qed.
Fixpoint keepsb (win : bool) (s : st) (es : list ev) : bool :=
  match es with [] => true | e :: es => normalb s e && match step win s e with Ok s' _ => keepsb win s' es | _ => false end end.
Lemma keepsb_reach win s0 es tr s : reachf win s0 tr s -> keepsb win s es = true -> exists s' os, run (step win) s es = Ok s' os /\ reachf win s0 (tr ++ es) s'.
Proof.
  revert tr s. induction es as [|e es IH]; intros tr s H; [intros _; exists s, []; by rewrite app_nil_r|]. cbn [keepsb run]. intros [H1 H2]%andb_prop.
  destruct (step win s e) as [| |s1 o] eqn:E; try done. destruct (IH (tr ++ [e]) s1) as (s' & os & -> & H'); [econstructor; [done|by apply normalb_ok|done]|done|].
  eexists _, _. split; [reflexivity|]. by rewrite (cons_middle e tr es), app_assoc.
Qed.
Definition demo : list ev := [EFrom 1 (Some [107; 103; 108; 0; 9]) true true; ERefs 1 (Some 0%nat); EGetRef 1 0; EGive 1 2 0; ELen 2 0; ERead 2 0 2; ERel 2 (Some 0%nat); ERel 1 (Some 0%nat); EDec 1 0; EDec 2 0; EFreeD 2 0; EFreeS 2 0;
  EConv 1 (Some [Some 5; Some 0; None]) 2 true; ERead 1 1 1; ERel 1 (Some 1%nat); EDec 1 1; EFreeD 1 1; EFreeS 1 1].
Example C67_demo win : exists s, reach win demo s.
Proof. destruct (keepsb_reach win init demo [] init) as (s & os & _ & H); [constructor|by destruct win; vm_compute|]. by exists s. Qed.
Example C67_demo_out : match run (step false) init demo with
  | Ok s os => os = [OPtr (Some 0%nat); OPtr (Some 0%nat); OVal 2; ONone; OVal 3; OByte (Some 108); ONone; ONone; ONone; ONone; ONone; ONone; OPtr (Some 1%nat); OByte (Some 0); ONone; ONone; ONone; ONone]
      /\ own s = [] /\ map_to_list (hd s) = [] /\ map_to_list (blk s) = []
  | _ => False end.
Proof. vm_compute. by split_and!. Qed.

(** * What does not hold *)
(** kstring_from2 of bytes that contain a 0: the string says it has 4 bytes, but only 2 were allocated: reading the third is outside
    the block (Windows: inside, but never written) *)
Theorem C67_nul_refuted : match run (step false) init [EFrom2 1 [97; 0; 98; 99] 4 true true] with
  | Ok s _ => step false s (ELen 1 0) = Ok s (OVal 4) /\ step false s (ERead 1 0 2) = Crash | _ => False end /\
  match run (step true) init [EFrom2 1 [97; 0; 98; 99] 4 true true] with
  | Ok s _ => step true s (ELen 1 0) = Ok s (OVal 4) /\ step true s (ERead 1 0 2) = Ok s (OByte None) | _ => False end.
Proof. by vm_compute. Qed.
(** a string of 2^32 bytes has length 0 *)
Theorem C67_long_refuted win b : Z.of_nat (length b) = U32 -> exists s, step win init (EConv 1 (Some b) (length b) true) = Ok s (OPtr (Some 0%nat)) /\ step win s (ELen 1 0) = Ok s (OVal 0).
Proof. intros H. cbn [step busy init decs frd frs app existsb]. unfold conv. rewrite H, Z.mod_same by done. eexists. split; [reflexivity|]. cbn. by rewrite lookup_insert. Qed.
(** an allocation that fails: the header: a write through a null pointer; the bytes: a string of length 2 without bytes *)
Theorem C67_no_memory_refuted win : step win init (EFrom2 1 [97; 98] 2 true false) = Crash /\
  match run (step win) init [EFrom2 1 [97; 98] 2 false true] with Ok s _ => step win s (ELen 1 0) = Ok s (OVal 2) /\ step win s (ERead 1 0 0) = Crash | _ => False end.
Proof. by destruct win; vm_compute. Qed.
(** n more references to a string *)
Lemma many_refs win n s h : busy s 1 = false -> hd s !! 0%nat = Some h -> 0 <= ref_ h < U32 ->
  exists s' os, run (step win) s (replicate n (ERefs 1 (Some 0%nat))) = Ok s' os /\ busy s' 1 = false /\ hd s' !! 0%nat = Some (mkstr (data h) (len h) ((ref_ h + Z.of_nat n) mod U32)) /\
    own s' = own s ++ replicate n (1%nat, 0%nat) /\ decs s' = decs s /\ frd s' = frd s /\ frs s' = frs s /\ blk s' = blk s.
Proof.
  revert s h. induction n as [|n IH]; intros s h B Eh Hr.
  - exists s, []. rewrite Z.add_0_r, Z.mod_small by done. cbn [replicate]. rewrite app_nil_r. destruct h. by split_and!.
  - cbn [replicate run step]. rewrite B, Eh. destruct (IH (s_own (own s ++ [(1, 0)]%nat) (upd 0 (mkstr (data h) (len h) ((ref_ h + 1) mod U32)) s)) (mkstr (data h) (len h) ((ref_ h + 1) mod U32))) as (s' & os & E & B' & Eh' & Eo & Ed & Ef & Es & Eb).
    + done. + cbn. by rewrite lookup_insert. + cbn [ref_]. by apply Z.mod_pos_bound.
    + rewrite E. eexists _, _. split; [reflexivity|]. rewrite Eh', Eo, Ed, Ef, Es, Eb. cbn [data len ref_ own s_own upd decs frd frs blk]. rewrite <- app_assoc, Zplus_mod_idemp_l. split_and!; try done. do 2 f_equal. f_equal. lia.
Qed.
(** 0xfffffff references: the next release stops the program *)
Lemma limit_refs win n : Z.of_nat n = LIM - 1 -> exists s os, run (step win) init (EFrom2 1 [97] 1 true true :: replicate n (ERefs 1 (Some 0%nat))) = Ok s os /\ (1, 0)%nat ∈ own s /\ step win s (ERel 1 (Some 0%nat)) = Crash.
Proof.
  intros Hl. destruct (step win init (EFrom2 1 [97] 1 true true)) as [| |s0 o] eqn:E; [by destruct win..|].
  assert (Hh: hd s0 !! 0%nat = Some (mkstr (Some 0%nat) 1 1) /\ busy s0 1 = false /\ own s0 = [(1, 0)]%nat) by (destruct win; injection E as <- <-; done). destruct Hh as (Hh & Hb & Ho).
  destruct (many_refs win n s0 _ Hb Hh) as (s & os & E2 & B & Eh & Eo & _); [done|]. cbn [run]. rewrite E, E2. eexists _, _. split; [reflexivity|].
  split; [rewrite Eo, Ho; apply elem_of_app; left; by left|]. cbn [step]. rewrite B, Eh. cbn [ref_ data len]. by rewrite Hl.
Qed.
Theorem C67_limit_refuted win : exists s os, run (step win) init (EFrom2 1 [97] 1 true true :: replicate (Z.to_nat (LIM - 1)) (ERefs 1 (Some 0%nat))) = Ok s os /\ (1, 0)%nat ∈ own s /\ step win s (ERel 1 (Some 0%nat)) = Crash.
Proof. apply limit_refs. apply Z2Nat.id. by apply Z.leb_le. Qed.
(** 2^32 more references: the counter is 1 again, and one release frees the string all the others hold *)
Lemma wrap_refs win n : Z.of_nat (S n) = U32 -> exists s os, run (step win) init (EFrom2 1 [97] 1 true true :: replicate (S n) (ERefs 1 (Some 0%nat)) ++ [ERel 1 (Some 0%nat); EDec 1 0; EFreeD 1 0; EFreeS 1 0]) = Ok s os /\
  (1, 0)%nat ∈ own s /\ step win s (ERead 1 0 0) = Crash.
Proof.
  intros Hl. destruct (step win init (EFrom2 1 [97] 1 true true)) as [| |s0 o] eqn:E; [by destruct win..|].
  assert (Hh: hd s0 !! 0%nat = Some (mkstr (Some 0%nat) 1 1) /\ busy s0 1 = false /\ own s0 = [(1, 0)]%nat /\ decs s0 = [] /\ frd s0 = [] /\ frs s0 = [] /\ is_Some (blk s0 !! 0%nat)) by (destruct win; injection E as <- <-; split_and!; by eauto).
  destruct Hh as (Hh & Hb & Ho & Hd & Hf & Hs & bb & Hk).
  destruct (many_refs win (S n) s0 _ Hb Hh) as (s & os & E2 & B & Eh & Eo & Ed & Ef & Es & Eb); [done|]. cbn [run]. rewrite E, run_app, E2. cbn [ref_ data len] in Eh. rewrite Hl in Eh. change ((1 + U32) mod U32) with 1 in Eh.
  rewrite Hd in Ed. rewrite Hf in Ef. rewrite Hs in Es. rewrite Ho in Eo. rewrite <- Eb in Hk. destruct s as [sh sb sn sd sf ss so sm]. cbn [hd blk decs frd frs own] in *. subst sd sf ss so.
  cbn [run step]. rewrite B. cbn [hd]. rewrite Eh. cbn [ref_]. rewrite bool_decide_true by done. cbn [decs app hd blk nx frd frs own made]. rewrite bool_decide_true by (by left). rewrite Eh. cbn [data len ref_].
  rewrite (bool_decide_true ((1 - 1) mod U32 = 0)) by done. cbn [decs frd frs hd blk nx own made app]. rewrite bool_decide_true by (by left). rewrite lookup_insert. cbn [data]. rewrite Hk. cbn [decs frd frs hd blk nx own made].
  rewrite bool_decide_true by (by left). rewrite lookup_insert. eexists _, _. split; [reflexivity|]. cbn [own]. split.
  - cbn [app remove1 replicate]. rewrite decide_True by done. by left.
  - cbn. by rewrite lookup_delete.
Qed.
Theorem C67_wrap_refuted win : exists n s os, Z.of_nat n = U32 /\ run (step win) init (EFrom2 1 [97] 1 true true :: replicate n (ERefs 1 (Some 0%nat)) ++ [ERel 1 (Some 0%nat); EDec 1 0; EFreeD 1 0; EFreeS 1 0]) = Ok s os /\
  (1, 0)%nat ∈ own s /\ step win s (ERead 1 0 0) = Crash.
Proof.
  assert (H: exists n, Z.of_nat (S n) = U32). { exists (Z.to_nat (U32 - 1)). rewrite Nat2Z.inj_succ, Z2Nat.id by (by apply Z.leb_le). done. }
  destruct H as [n Hn]. destruct (wrap_refs win n Hn) as (s & os & H). by exists (S n), s, os.
Qed.
