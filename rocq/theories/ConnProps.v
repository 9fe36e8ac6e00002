(** C71: what a connection owns is given back exactly once, when it is destroyed, and in an order that is safe. *)
From stdpp Require Import sorting.
From Verif Require Import ConnModel.

(** * Specification *)
(** the rules of use: a connection is used only until it is destroyed; UNIX addresses come from kconnection_new; one connect per connection;
    TLS only on an open TCP socket, once, accepting only on a connection of a server; destroyed only when no request is pending *)
Definition usable (s : st) (c : nat) (P : conn -> Prop) : Prop := exists x, conns s !! c = Some x /\ c_closing x = false /\ P x.
Definition normal (s : st) (e : ev) : Prop :=
  match e with
  | ENew v a len => if bool_decide (fam a = UNIX) then v = New /\ SZ_UN <= len else SZ_I <= len
  | EAccept _ f _ got _ _ => got = true -> f <> UNIX
  | EUdp _ _ | EShut _ _ => True
  | EHalf c _ _ => usable s c (fun x => c_fd x = None)
  | ESsl c acc _ => usable s c (fun x => c_ssl x = None /\ is_Some (c_fd x) /\ c_isudp x = false /\ (acc = true -> is_Some (c_un x)))
  | EHs c => usable s c (fun x => is_Some (c_ssl x) /\ is_Some (c_fd x))
  | EBind c | EShutF c | EErr c => usable s c (fun _ => True)
  | EList c _ => usable s c (fun x => c_sel x = true)
  | ESni c _ _ => is_Some (conns s !! c)
  | EDestroy c _ => usable s c (fun x => c_listed x = false /\ (c_hs x = true -> c_sel x = true))
  | EReal c => usable s c (fun x => c_listed x = false)
  end.
Inductive reachf (s0 : st) : list ev -> st -> Prop :=
| reach_nil : reachf s0 [] s0
| reach_snoc tr s e s' o : reachf s0 tr s -> normal s e -> step s e = Ok s' o -> reachf s0 (tr ++ [e]) s'.
Notation reach := (reachf init).
(** what connection c was given *)
Definition things (c : nat) (l : list (nat * kind * nat)) : list (kind * nat) := omap (fun x => if bool_decide (x.1.1 = c) then Some (x.1.2, x.2) else None) l.
(** what connections not destroyed were given *)
Definition held (s : st) : list (nat * kind * nat) := filter (fun x => x.1.1 ∉ gone s) (made s).
(** the order of giving back: the descriptor before the SSL object on it, that before the SNI object (its context), that before the server it was
    made for; the memory last *)
Definition rank (k : kind) : nat := match k with KFd => 0 | KSsl => 1 | KSess => 2 | KSni => 3 | KUdp => 4 | KRef => 4 | KPool => 5 | KConn => 6 end.

(** * The invariant *)
Definition rid (x : kind * nat) : option nat := if bool_decide (x.1 = KRef) then None else Some x.2.
Definition mid (x : nat * kind * nat) : option nat := rid (x.1.2, x.2).
Definition isref (srv : nat) (x : kind * nat) : bool := bool_decide (x = (KRef, srv)).
Definition cnt (srv : nat) (l : list (kind * nat)) : nat := length (filter (fun x => isref srv x = true) l).
Definition strip (l : list (nat * kind * nat)) : list (kind * nat) := (fun x => (x.1.2, x.2)) <$> l.
Record Inv0 (s : st) : Prop := mkInv0 {
  z_live : forall r, r ∈ live s <-> r ∈ omap rid (strip (held s));
  z_refs : forall srv, ref_of s srv = cnt srv (strip (held s));
  z_nd : NoDup (omap mid (made s));
  z_lt : forall r, r ∈ omap mid (made s) -> r < nxt s;
  z_log : forall k r, (k, r) ∈ log s -> exists c, (c, k, r) ∈ made s /\ c ∈ gone s;
  z_lognd : NoDup (omap rid (log s)) }.
Definition okc (x : conn) : Prop := (c_hs x = true -> is_Some (c_ssl x) /\ is_Some (c_fd x)) /\ (c_acc x = true -> is_Some (c_un x) /\ c_isudp x = false) /\ (c_closing x = true -> c_hs x = true) /\ (fam (c_addr x) = UNIX -> c_ptr x = true) /\ (is_Some (c_ssl x) -> c_isudp x = false).
Record Inv1 (s : st) : Prop := mkInv1 {
  o_own : forall c x, conns s !! c = Some x -> things c (made s) ≡ₚ owned c x /\ c ∉ gone s /\ given s !! c = Some (c_addr x) /\ okc x;
  o_made : forall c k r, (c, k, r) ∈ made s -> c < nxt s /\ (c ∈ gone s \/ is_Some (conns s !! c));
  o_gone : forall c, c ∈ gone s -> c < nxt s;
  o_lt : forall c x, conns s !! c = Some x -> c < nxt s;
  o_con : forall c a b, (c, a, b) ∈ conlog s -> given s !! c = Some a /\ (fam a = UNIX -> b = None) /\ c < nxt s }.

Lemma held_alloc s c k : c ∉ gone s -> held (alloc c k s) = held s ++ [(c, k, nxt s)].
Proof. intros H. unfold held. cbn [made gone alloc]. rewrite filter_app. f_equal. by rewrite filter_cons_True. Qed.
Lemma strip_app l1 l2 : strip (l1 ++ l2) = strip l1 ++ strip l2. Proof. apply fmap_app. Qed.
Lemma cnt_app srv l1 l2 : cnt srv (l1 ++ l2) = cnt srv l1 + cnt srv l2. Proof. unfold cnt. by rewrite filter_app, app_length. Qed.
Lemma cnt_perm srv l1 l2 : l1 ≡ₚ l2 -> cnt srv l1 = cnt srv l2. Proof. unfold cnt. by intros ->. Qed.
Lemma cnt_cons srv x l : cnt srv (x :: l) = (if isref srv x then 1 else 0) + cnt srv l.
Proof. unfold cnt. rewrite filter_cons. destruct (isref srv x); [rewrite decide_True by done|rewrite decide_False by done]; done. Qed.
Lemma cnt_nil srv : cnt srv [] = 0. Proof. done. Qed.
Lemma isref_no srv k r : k <> KRef -> isref srv (k, r) = false. Proof. intros H. unfold isref. apply bool_decide_eq_false_2. by injection 1. Qed.
Lemma isref_yes srv r : isref srv (KRef, r) = bool_decide (srv = r). Proof. unfold isref. case_bool_decide as E1; case_bool_decide as E2; try done; [by injection E1|by subst]. Qed.
Lemma mid_strip l : omap rid (strip l) = omap mid l.
Proof. induction l as [|x l IH]; [done|]. change (omap rid (strip (x :: l))) with (match mid x with Some y => y :: omap rid (strip l) | None => omap rid (strip l) end). by rewrite IH. Qed.
Lemma held_sub s r : r ∈ omap rid (strip (held s)) -> r ∈ omap mid (made s).
Proof. rewrite mid_strip. intros (x & Hx & E)%elem_of_list_omap. apply elem_of_list_omap. exists x. split; [|done]. by apply elem_of_list_filter in Hx as [_ Hx]. Qed.
Lemma inv0_alloc s c k : Inv0 s -> c ∉ gone s -> k <> KRef -> Inv0 (alloc c k s).
Proof.
  intros I Hc Hk. assert (R: rid (k, nxt s) = Some (nxt s)) by (unfold rid; cbn; by rewrite bool_decide_eq_false_2).
  constructor.
  - intros r. rewrite held_alloc, strip_app, omap_app, elem_of_app by done. cbn [live alloc strip fmap list_fmap omap list_omap fst snd]. rewrite R, elem_of_union, elem_of_singleton, elem_of_list_singleton, (z_live _ I). tauto.
  - intros srv. rewrite held_alloc, strip_app, cnt_app by done. change (ref_of (alloc c k s) srv) with (ref_of s srv). rewrite (z_refs _ I). unfold strip at 3. cbn [fmap list_fmap fst snd]. rewrite cnt_cons, isref_no, cnt_nil by done. lia.
  - cbn [made alloc]. rewrite omap_app. cbn. unfold mid at 2. cbn [fst snd]. rewrite R. apply NoDup_app. split_and!; [apply (z_nd _ I)| |apply NoDup_singleton]. intros r Hr%(z_lt _ I) ->%elem_of_list_singleton. lia.
  - intros r. cbn [made alloc nxt]. rewrite omap_app, elem_of_app. cbn. unfold mid at 2. cbn [fst snd]. rewrite R. intros [Hr%(z_lt _ I)| ->%elem_of_list_singleton]; lia.
  - intros k' r H. destruct (z_log _ I k' r H) as (c' & H1 & H2). exists c'. split; [|done]. cbn [made alloc]. apply elem_of_app. by left.
  - exact (z_lognd _ I).
Qed.
Lemma held_ref s c srv : c ∉ gone s -> held (add_ref c srv s) = held s ++ [(c, KRef, srv)].
Proof. intros H. unfold held. cbn [made gone add_ref]. rewrite filter_app. f_equal. by rewrite filter_cons_True. Qed.
Lemma inv0_ref s c srv : Inv0 s -> c ∉ gone s -> Inv0 (add_ref c srv s).
Proof.
  intros I Hc. constructor.
  - intros r. rewrite held_ref, strip_app, omap_app by done. cbn. rewrite app_nil_r. apply (z_live _ I).
  - intros v. rewrite held_ref, strip_app, cnt_app by done. unfold ref_of, add_ref. cbn [refs]. unfold strip at 2. cbn [fmap list_fmap fst snd]. rewrite cnt_cons, isref_yes, cnt_nil. destruct (decide (v = srv)) as [-> |N].
    + rewrite lookup_insert, bool_decide_eq_true_2 by done. cbn [default from_option id]. rewrite <- (z_refs _ I). unfold ref_of. lia.
    + rewrite lookup_insert_ne, bool_decide_eq_false_2 by congruence. rewrite <- (z_refs _ I). unfold ref_of. lia.
  - cbn [made add_ref]. rewrite omap_app. cbn. rewrite app_nil_r. apply (z_nd _ I).
  - intros r. cbn [made add_ref]. rewrite omap_app. cbn. rewrite app_nil_r. apply (z_lt _ I).
  - intros k' r H. destruct (z_log _ I k' r H) as (c' & H1 & H2). exists c'. split; [|done]. cbn [made add_ref]. apply elem_of_app. by left.
  - exact (z_lognd _ I).
Qed.
Lemma inv0_set s c x : Inv0 s -> Inv0 (set_conn c x s).
Proof. intros []. by constructor. Qed.
Lemma inv0_try s : Inv0 s -> Inv0 (try_ssl s).
Proof. intros []. constructor; try done. intros r H. cbn [nxt try_ssl]. specialize (z_lt0 r H). lia. Qed.
(** giving back *)
Lemma frees_ok s l : NoDup (omap rid l) -> (forall r, r ∈ omap rid l -> r ∈ live s) -> (forall srv, cnt srv l <= ref_of s srv) ->
  exists s', frees s l = Some s' /\ nxt s' = nxt s /\ conns s' = conns s /\ made s' = made s /\ gone s' = gone s /\ given s' = given s /\ conlog s' = conlog s /\ log s' = log s ++ l /\
    (forall r, r ∈ live s' <-> r ∈ live s /\ r ∉ omap rid l) /\ (forall srv, ref_of s' srv = ref_of s srv - cnt srv l).
Proof.
  revert s. induction l as [|[k r] l IH]; intros s N L C.
  - exists s. cbn. rewrite app_nil_r. split_and!; try done; [|intros; lia]. intros r. split; [|tauto]. intros H. split; [done|apply not_elem_of_nil].
  - destruct (decide (k = KRef)) as [-> |Hk].
    + cbn in N, L. pose proof (C r) as Cr. rewrite cnt_cons, isref_yes, bool_decide_eq_true_2 in Cr by done. destruct (ref_of s r) as [|n] eqn:Er; [lia|].
      cbn [frees free1]. rewrite Er. set (s1 := mkst _ _ (<[r := n]> (refs s)) _ _ _ _ _ _).
      assert (R1: forall srv, ref_of s1 srv = ref_of s srv - (if bool_decide (srv = r) then 1 else 0)).
      { intros srv. unfold ref_of, s1. cbn [refs]. case_bool_decide as E; [subst srv; rewrite lookup_insert; fold (ref_of s r); rewrite Er; cbn; lia|rewrite lookup_insert_ne by done; lia]. }
      assert (R2: forall srv, cnt srv ((KRef, r) :: l) = (if bool_decide (srv = r) then 1 else 0) + cnt srv l).
      { intros srv. by rewrite cnt_cons, isref_yes. }
      destruct (IH s1) as (s' & E & E1 & E2 & E3 & E4 & E5 & E6 & E7 & E8 & E9); [done|done| |].
      { intros srv. specialize (C srv). rewrite R1. rewrite R2 in C. lia. }
      exists s'. split; [done|]. split_and!; try done; [rewrite E7; unfold s1; cbn [log]; by rewrite <- app_assoc|]. intros srv. rewrite E9, R1, R2. lia.
    + assert (R: rid (k, r) = Some r) by (unfold rid; cbn; by rewrite bool_decide_eq_false_2). cbn [omap list_omap] in N, L. rewrite R in N, L. apply NoDup_cons in N as [N1 N2].
      assert (Hr: r ∈ live s) by (apply L; by left).
      set (s1 := mkst (nxt s) (live s ∖ {[r]}) (refs s) (conns s) (made s) (gone s) (log s ++ [(k, r)]) (given s) (conlog s)).
      assert (F: frees s ((k, r) :: l) = frees s1 l). { cbn [frees]. destruct k; cbn [free1]; try done; by rewrite bool_decide_eq_true_2. }
      assert (R2: forall srv, cnt srv ((k, r) :: l) = cnt srv l). { intros srv. by rewrite cnt_cons, isref_no. }
      destruct (IH s1) as (s' & E & E1 & E2 & E3 & E4 & E5 & E6 & E7 & E8 & E9); [done| | |].
      { intros r' Hr'. cbn [live s1]. apply elem_of_difference. split; [apply L; by right|]. intros ->%elem_of_singleton. done. }
      { intros srv. specialize (C srv). by rewrite R2 in C. }
      exists s'. split; [by rewrite F|]. split_and!; try done; [rewrite E7; unfold s1; cbn [log]; by rewrite <- app_assoc| |intros srv; by rewrite E9, R2].
      intros r'. rewrite E8. cbn [live s1 omap list_omap]. rewrite R, elem_of_difference, elem_of_singleton, elem_of_cons. tauto.
Qed.
Lemma things_app c l1 l2 : things c (l1 ++ l2) = things c l1 ++ things c l2. Proof. apply omap_app. Qed.
Lemma things_all c l : Forall (fun x => x.1.1 = c) l -> things c l = strip l.
Proof. induction 1 as [|x l E F IH]; [done|]. unfold things. cbn. rewrite bool_decide_eq_true_2 by done. cbn. f_equal. exact IH. Qed.
Lemma things_none c l : Forall (fun x => x.1.1 <> c) l -> things c l = [].
Proof. induction 1 as [|x l E F IH]; [done|]. unfold things. cbn. rewrite bool_decide_eq_false_2 by done. exact IH. Qed.
Lemma elem_things c k r l : (k, r) ∈ things c l <-> (c, k, r) ∈ l.
Proof.
  unfold things. rewrite elem_of_list_omap. split.
  - intros ([[c' k'] r'] & H & E). cbn in E. case_bool_decide as Ec; [|done]. injection E as -> ->. by subst.
  - intros H. exists (c, k, r). split; [done|]. cbn. by rewrite bool_decide_eq_true_2.
Qed.
Lemma split_held g c l : c ∉ g -> strip (filter (fun x => x.1.1 ∉ g) l) ≡ₚ things c l ++ strip (filter (fun x => x.1.1 ∉ g ++ [c]) l).
Proof.
  intros Hc. induction l as [|x l IH]; [done|]. destruct (decide (x.1.1 = c)) as [E|N].
  - rewrite filter_cons_True by (by rewrite E). rewrite filter_cons_False by (rewrite E; intros H; apply H, elem_of_app; right; by left).
    change (things c (x :: l)) with (match (if bool_decide (x.1.1 = c) then Some (x.1.2, x.2) else None) with Some y => y :: things c l | None => things c l end).
    rewrite bool_decide_eq_true_2 by done. cbn [app strip fmap list_fmap]. constructor. exact IH.
  - change (things c (x :: l)) with (match (if bool_decide (x.1.1 = c) then Some (x.1.2, x.2) else None) with Some y => y :: things c l | None => things c l end).
    rewrite bool_decide_eq_false_2 by done. destruct (decide (x.1.1 ∈ g)) as [G|G].
    + rewrite filter_cons_False by (intros H; by apply H). rewrite filter_cons_False by (intros H; apply H, elem_of_app; by left). exact IH.
    + rewrite filter_cons_True by done. rewrite filter_cons_True by (rewrite elem_of_app, elem_of_list_singleton; tauto). cbn [strip fmap list_fmap]. etrans; [apply perm_skip, IH|]. apply Permutation_middle.
Qed.
Lemma nd_filter (P : nat * kind * nat -> Prop) `{forall x, Decision (P x)} l : NoDup (omap mid l) -> NoDup (omap mid (filter P l)).
Proof.
  induction l as [|x l IH]; [done|]. intros N. change (omap mid (x :: l)) with (match mid x with Some y => y :: omap mid l | None => omap mid l end) in N. rewrite filter_cons. destruct (mid x) as [y|] eqn:M.
  - apply NoDup_cons in N as [N1 N2]. destruct (decide (P x)); [|auto]. change (omap mid (x :: filter P l)) with (match mid x with Some y => y :: omap mid (filter P l) | None => omap mid (filter P l) end). rewrite M. constructor; [|auto].
    intros (z & Hz & E)%elem_of_list_omap. apply N1, elem_of_list_omap. exists z. split; [|done]. by apply elem_of_list_filter in Hz as [_ Hz].
  - destruct (decide (P x)); [|auto]. change (omap mid (x :: filter P l)) with (match mid x with Some y => y :: omap mid (filter P l) | None => omap mid (filter P l) end). rewrite M. auto.
Qed.
Lemma nd_inj l x y r : NoDup (omap mid l) -> x ∈ l -> y ∈ l -> mid x = Some r -> mid y = Some r -> x = y.
Proof.
  intros N Hx Hy Mx My. induction l as [|z l IH]; [by apply elem_of_nil in Hx|]. change (omap mid (z :: l)) with (match mid z with Some y => y :: omap mid l | None => omap mid l end) in N.
  assert (Hin: forall w, w ∈ l -> mid w = Some r -> r ∈ omap mid l) by (intros w Hw Mw; apply elem_of_list_omap; by exists w).
  apply elem_of_cons in Hx as [-> |Hx], Hy as [-> |Hy]; try done.
  - rewrite Mx in N. apply NoDup_cons in N as [N _]. exfalso. eauto.
  - rewrite My in N. apply NoDup_cons in N as [N _]. exfalso. eauto.
  - apply IH; try done. destruct (mid z); [by apply NoDup_cons in N as [_ N]|done].
Qed.
Lemma rid_mid c k r : mid (c, k, r) = rid (k, r). Proof. done. Qed.
Lemma elem_rid (l : list (kind * nat)) (r : nat) : r ∈ omap rid l <-> exists k, (k, r) ∈ l /\ k <> KRef.
Proof.
  rewrite elem_of_list_omap. split.
  - intros ([k r'] & H & E). unfold rid in E. cbn in E. case_bool_decide; [done|]. injection E as ->. by exists k.
  - intros (k & H & N). exists (k, r). split; [done|]. unfold rid. cbn. by rewrite bool_decide_eq_false_2.
Qed.
Lemma destroy_ok s c x x' : Inv0 s -> Inv1 s -> conns s !! c = Some x -> owned c x' = owned c x -> c_listed x' = false ->
  exists s', real_destroy c x' s = Ok s' None /\ Inv0 s' /\ Inv1 s' /\ log s' = log s ++ owned c x /\ gone s' = gone s ++ [c] /\ made s' = made s /\ conns s' = delete c (conns s) /\ nxt s' = nxt s /\ conlog s' = conlog s /\ given s' = given s.
Proof.
  intros I J X E L. destruct (o_own _ J c x X) as (O & G & A & K). unfold real_destroy. rewrite L, E.
  assert (SP: strip (held s) ≡ₚ owned c x ++ strip (filter (fun x => x.1.1 ∉ gone s ++ [c]) (made s))) by (rewrite <- O; by apply split_held).
  assert (ND: NoDup (omap rid (owned c x ++ strip (filter (fun x => x.1.1 ∉ gone s ++ [c]) (made s))))).
  { rewrite <- SP, mid_strip. apply nd_filter, (z_nd _ I). }
  rewrite omap_app in ND. apply NoDup_app in ND as (ND1 & ND2 & ND3).
  destruct (frees_ok s (owned c x)) as (s1 & F & E1 & E2 & E3 & E4 & E5 & E6 & E7 & E8 & E9); [done| | |].
  { intros r Hr. apply (z_live _ I). rewrite SP, omap_app, elem_of_app. by left. }
  { intros srv. rewrite (z_refs _ I), (cnt_perm _ _ _ SP), cnt_app. lia. }
  rewrite F. eexists. split; [done|]. cbn [log gone made conns nxt conlog given]. rewrite E1, E2, E3, E4, E5, E6, E7. split_and!; try done.
  - constructor; cbn [live held made gone log nxt refs]; unfold held; cbn [made gone].
    + intros r. rewrite E8, (z_live _ I), SP, omap_app, elem_of_app. split; [tauto|]. intros H. split; [by right|]. intros H2. by apply (ND2 r).
    + intros srv. change (ref_of _ srv) with (ref_of s1 srv). rewrite E9, (z_refs _ I), (cnt_perm _ _ _ SP), cnt_app. lia.
    + apply (z_nd _ I).
    + apply (z_lt _ I).
    + intros k r [H|H]%elem_of_app.
      * destruct (z_log _ I k r H) as (c' & H1 & H2). exists c'. split; [done|]. apply elem_of_app. by left.
      * exists c. split; [|apply elem_of_app; right; by left]. apply elem_things. by rewrite O.
    + rewrite omap_app. apply NoDup_app. split_and!; [apply (z_lognd _ I)| |done]. intros r (k1 & H1 & N1)%elem_rid (k2 & H2 & N2)%elem_rid.
      destruct (z_log _ I k1 r H1) as (c1 & M1 & G1). assert (M2: (c, k2, r) ∈ made s) by (apply elem_things; by rewrite O).
      assert (EE: (c1, k1, r) = (c, k2, r)). { apply (nd_inj (made s) _ _ r); [apply (z_nd _ I)|done|done| |]; rewrite rid_mid; unfold rid; cbn; by rewrite bool_decide_eq_false_2. }
      injection EE as -> _. done.
  - constructor; cbn [conns made gone given nxt conlog].
    + intros c' y H. apply lookup_delete_Some in H as [N H]. destruct (o_own _ J c' y H) as (O' & G' & A' & K'). split_and!; try done; try apply K'. rewrite elem_of_app, elem_of_list_singleton. intros [?|?]; congruence.
    + intros c' k r H. destruct (o_made _ J c' k r H) as [H1 H2]. split; [done|]. destruct (decide (c' = c)) as [-> |N]; [left; apply elem_of_app; right; by left|]. destruct H2 as [H2|H2]; [left; apply elem_of_app; by left|right; by rewrite lookup_delete_ne].
    + intros c' [H| ->%elem_of_list_singleton]%elem_of_app; [by apply (o_gone _ J)|exact (o_lt _ J c x X)].
    + intros c' y H. apply lookup_delete_Some in H as [N H]. exact (o_lt _ J c' y H).
    + exact (o_con _ J).
Qed.
(** a connection gets something *)
Lemma inv1_grow s s' c x x' l : Inv1 s -> conns s !! c = Some x -> conns s' = <[c := x']> (conns s) -> made s' = made s ++ l -> Forall (fun y => y.1.1 = c) l ->
  gone s' = gone s -> given s' = given s -> nxt s <= nxt s' -> (forall y, y ∈ conlog s' -> y ∈ conlog s \/ y.1 = (c, c_addr x) /\ (fam (c_addr x) = UNIX -> y.2 = None)) ->
  owned c x' ≡ₚ owned c x ++ strip l -> c_addr x' = c_addr x -> okc x' -> Inv1 s'.
Proof.
  intros J X EC EM F EG EV EN EL EO EA K. destruct (o_own _ J c x X) as (O & G & A & K0). constructor.
  - intros c' y H. rewrite EC in H. rewrite EM, EG, EV. destruct (decide (c' = c)) as [-> |N].
    + rewrite lookup_insert in H. injection H as <-. split_and!; try done; try apply K; [|by rewrite A, EA]. rewrite things_app, O, (things_all c l F). by symmetry.
    + rewrite lookup_insert_ne in H by done. destruct (o_own _ J c' y H) as (O' & G' & A' & K'). split_and!; try done; try apply K'. rewrite things_app, (things_none c' l), app_nil_r; [done|]. eapply Forall_impl; [exact F|]. cbn. congruence.
  - intros c' k r. rewrite EM, EG, EC, elem_of_app. intros [H|H].
    + destruct (o_made _ J c' k r H) as [H1 H2]. split; [lia|]. destruct H2 as [H2|H2]; [by left|right]. destruct (decide (c' = c)) as [-> |N]; [by rewrite lookup_insert|by rewrite lookup_insert_ne].
    + rewrite Forall_forall in F. specialize (F _ H). cbn in F. subst c'. pose proof (o_lt _ J c x X). split; [lia|]. right. by rewrite lookup_insert.
  - intros c'. rewrite EG. intros H%(o_gone _ J). lia.
  - intros c' y H. rewrite EC in H. destruct (decide (c' = c)) as [-> |N]; [pose proof (o_lt _ J c x X); lia|]. rewrite lookup_insert_ne in H by done. pose proof (o_lt _ J c' y H). lia.
  - intros c' a b H. rewrite EV. apply EL in H as [H|[H1 H2]].
    + destruct (o_con _ J c' a b H) as (Y1 & Y2 & Y3). split_and!; try done. lia.
    + cbn in H1, H2. injection H1 as -> ->. split_and!; try done. pose proof (o_lt _ J c x X). lia.
Qed.
Lemma new_ok s a ptr c s1 : Inv0 s -> Inv1 s -> (fam a = UNIX -> ptr = true) -> internal_new a ptr s = (c, s1) ->
  Inv0 s1 /\ Inv1 s1 /\ c = nxt s /\ conns s1 = <[c := mkconn a ptr (S c) None None false false false None false None false false false false]> (conns s) /\ gone s1 = gone s /\ log s1 = log s /\ made s1 = made s ++ [(c, KConn, c); (c, KPool, S c)] /\ nxt s1 = 2 + nxt s /\ conlog s1 = conlog s.
Proof.
  intros I J P H. unfold internal_new in H. injection H as <- <-. set (c := nxt s).
  assert (G: c ∉ gone s) by (intros H%(o_gone _ J); unfold c in H; lia).
  assert (X: conns s !! c = None). { destruct (conns s !! c) as [x|] eqn:E; [|done]. pose proof (o_lt _ J c x E) as H. unfold c in H. lia. }
  split; [|split].
  - assert (I2: Inv0 (alloc c KPool (alloc c KConn s))) by (apply inv0_alloc; [by apply inv0_alloc|done|done]). destruct I2. constructor; done.
  - constructor; cbn [conns made gone given nxt conlog alloc].
    + intros c' x H. destruct (decide (c' = c)) as [-> |N].
      * rewrite lookup_insert in H. injection H as <-. rewrite lookup_insert. split_and!; try done; try (by intros [? ?]). rewrite !things_app, (things_none c (made s)).
        -- unfold things. cbn. rewrite bool_decide_eq_true_2 by done. cbn. constructor.
        -- apply Forall_forall. intros [[c' k] r] Hin E. cbn in E. rewrite E in Hin. destruct (o_made _ J _ k r Hin) as [Hl _]. cbn in Hl. unfold c in Hl. lia.
      * rewrite lookup_insert_ne in H by done. rewrite lookup_insert_ne by done. destruct (o_own _ J c' x H) as (O & G' & A & K). split_and!; try done; try apply K. rewrite !things_app. rewrite (things_none c' [(c, KConn, c)]), (things_none c' [(c, KPool, S c)]), !app_nil_r; [done| |]; (constructor; [cbn; congruence|constructor]).
    + intros c' k r [[H|H]%elem_of_app|H]%elem_of_app.
      * destruct (o_made _ J c' k r H) as [H1 H2]. split; [lia|]. destruct H2 as [H2|H2]; [by left|right]. destruct (decide (c' = c)) as [-> |N]; [by rewrite lookup_insert|by rewrite lookup_insert_ne].
      * apply elem_of_list_singleton in H as [= -> -> ->]. split; [lia|]. right. by rewrite lookup_insert.
      * apply elem_of_list_singleton in H as [= -> -> ->]. split; [lia|]. right. by rewrite lookup_insert.
    + intros c' H%(o_gone _ J). lia.
    + intros c' x H. destruct (decide (c' = c)) as [-> |N]; [unfold c; lia|]. rewrite lookup_insert_ne in H by done. pose proof (o_lt _ J c' x H). lia.
    + intros c' a' b H. destruct (o_con _ J c' a' b H) as (Y1 & Y2 & Y3). rewrite lookup_insert_ne by (unfold c; lia). split_and!; try done. lia.
  - cbn [conns made gone log nxt conlog alloc]. split_and!; try done. by rewrite <- app_assoc.
Qed.
Definition before (a b : kind * nat) : Prop := rank a.1 < rank b.1.
Lemma owned_sorted c x : StronglySorted before (owned c x).
Proof. unfold owned. destruct (c_fd x), (c_ssl x) as [[? ?]|], (c_sni x), (c_un x), (c_isudp x); cbn; repeat constructor. Qed.
Ltac okt K1 K2 K5 := repeat split; cbn [set_fd set_ssl set_sni set_un set_bits c_hs c_ssl c_fd c_acc c_un c_isudp c_closing c_addr c_ptr] in *; try done; intros; try (by apply K1); try (by apply K2); try (by apply K5); try (by eauto).
(** what a step does to the ghost lists *)
Definition Eff (s s' : st) : Prop := exists m l g, made s' = made s ++ m /\ log s' = log s ++ l /\ gone s' = gone s ++ g /\
  (g = [] /\ l = [] \/ exists c, g = [c] /\ l ≡ₚ things c (made s') /\ StronglySorted before l).
Lemma eff_grow s s' m : made s' = made s ++ m -> log s' = log s -> gone s' = gone s -> Eff s s'.
Proof. intros E1 E2 E3. exists m, [], []. rewrite !app_nil_r. split_and!; try done. by left. Qed.
Lemma destroy_step s s1 c x x' m : Inv0 s1 -> Inv1 s1 -> conns s1 !! c = Some x -> owned c x' = owned c x -> c_listed x' = false -> made s1 = made s ++ m -> log s1 = log s -> gone s1 = gone s ->
  exists s', real_destroy c x' s1 = Ok s' None /\ Inv0 s' /\ Inv1 s' /\ Eff s s' /\ gone s' = gone s ++ [c].
Proof.
  intros I J X E L M1 M2 M3. destruct (destroy_ok s1 c x x' I J X E L) as (s' & E1 & I' & J' & EL & EG & EM & EC & EN & _). exists s'. split_and!; try done; [|by rewrite EG, M3].
  exists m, (owned c x), [c]. rewrite EM, EL, EG, M1, M2, M3. split_and!; try done. right. exists c. split_and!; try done; [|apply owned_sorted]. rewrite <- M1. symmetry. apply (o_own _ J c x X).
Qed.
Definition good (s : st) (r : res st (option nat)) : Prop := r = Disabled \/ exists s' o, r = Ok s' o /\ Inv0 s' /\ Inv1 s' /\ Eff s s'.
Lemma good_ok s s' o : Inv0 s' -> Inv1 s' -> Eff s s' -> good s (Ok s' o). Proof. right. eauto 10. Qed.
Lemma good_destroy s c x x' : Inv0 s -> Inv1 s -> conns s !! c = Some x -> owned c x' = owned c x -> c_listed x' = false -> good s (real_destroy c x' s).
Proof. intros I J X E L. destruct (destroy_step s s c x x' [] I J X E L) as (s' & E1 & I' & J' & EF & _); try done; [by rewrite app_nil_r|]. right. eauto 10. Qed.
Lemma good_upd s c x x' : Inv0 s -> Inv1 s -> conns s !! c = Some x -> owned c x' = owned c x -> c_addr x' = c_addr x -> okc x' -> good s (Ok (set_conn c x' s) None).
Proof.
  intros I J X E A K. apply good_ok; [by apply inv0_set| |apply (eff_grow _ _ []); cbn; by rewrite ?app_nil_r].
  apply (inv1_grow s _ c x x' [] J X); try done; cbn; rewrite ?app_nil_r; auto. by rewrite E.
Qed.
Lemma usable_get s c P : usable s c P -> exists x, conns s !! c = Some x /\ c_closing x = false /\ P x. Proof. done. Qed.
Lemma step_new s v a len : Inv0 s -> Inv1 s -> normal s (ENew v a len) -> good s (step s (ENew v a len)).
Proof.
  intros I J N. cbn [normal] in N. cbn [step]. assert (H: exists p, kconnection_new v a len s = Some (internal_new a p s) /\ (fam a = UNIX -> p = true)).
  { case_bool_decide as E; destruct v; cbn [kconnection_new]; try (by destruct N); rewrite ?(bool_decide_eq_true_2 _ E), ?(bool_decide_eq_false_2 _ E).
    - destruct N as [_ N]. rewrite bool_decide_eq_true_2 by done. by exists true.
    - rewrite bool_decide_eq_true_2 by done. exists false. by split.
    - exists false. by split.
    - exists false. by split. }
  destruct H as (p & -> & Hp). destruct (internal_new a p s) as [c s1] eqn:E. destruct (new_ok s a p c s1 I J Hp E) as (I1 & J1 & _ & _ & G & L & M & _). apply good_ok; try done. by apply (eff_grow _ _ _ M).
Qed.
Lemma step_half s c b ok : Inv0 s -> Inv1 s -> normal s (EHalf c b ok) -> good s (step s (EHalf c b ok)).
Proof.
  intros I J (x & X & Cl & Fd). cbn [step]. rewrite X. destruct (o_own _ J c x X) as (O & G & A & K). destruct K as (K1 & K2 & K3 & K4 & K5).
  destruct (bool_decide (fam (c_addr x) = UNIX) && negb (c_ptr x)) eqn:E.
  { apply andb_true_iff in E as [E1 E2]. apply bool_decide_eq_true in E1. by rewrite (K4 E1) in E2. }
  set (b' := if bool_decide (fam (c_addr x) = UNIX) then None else b). cbv zeta. set (s1 := mkst _ _ _ _ _ _ _ _ _). assert (I1: Inv0 s1) by (destruct I; by constructor).
  assert (Hlog: forall y, y ∈ conlog s1 -> y ∈ conlog s \/ y.1 = (c, c_addr x) /\ (fam (c_addr x) = UNIX -> y.2 = None)).
  { intros y [H| ->%elem_of_list_singleton]%elem_of_app; [by left|right]. split; [done|]. intros Hu. cbn. unfold b'. by rewrite bool_decide_eq_true_2. }
  destruct ok.
  - apply good_ok; [apply inv0_set, inv0_alloc; done| |by apply (eff_grow _ _ [(c, KFd, nxt s)])].
    apply (inv1_grow s _ c x (set_fd x (Some (nxt s))) [(c, KFd, nxt s)] J X); try done; [by repeat constructor|cbn; lia| |].
    + unfold owned. cbn [set_fd c_fd c_ssl c_sni c_un c_isudp c_pool strip fmap list_fmap fst snd]. rewrite Fd. apply Permutation_cons_append.
    + okt K1 K2 K5.
  - apply good_ok; [by apply inv0_set| |apply (eff_grow _ _ []); cbn; by rewrite ?app_nil_r].
    apply (inv1_grow s _ c x (set_fd x None) [] J X); try done; cbn [nxt set_conn made s1]; rewrite ?app_nil_r; auto.
    + unfold owned. cbn [set_fd c_fd c_ssl c_sni c_un c_isudp c_pool]. by rewrite Fd.
    + okt K1 K2 K5; exfalso; (destruct K1 as [_ [? ?]]; [done|congruence]).
Qed.
Lemma ssl_ok s c x acc a : Inv0 s -> Inv1 s -> conns s !! c = Some x -> c_ssl x = None -> c_isudp x = false -> (acc = true -> is_Some (c_un x)) ->
  exists r s', new_ssl c x acc a s = Some (r, s') /\ Inv0 s' /\ Inv1 s' /\ log s' = log s /\ gone s' = gone s /\ (exists m, made s' = made s ++ m) /\ (r = false -> conns s' = conns s).
Proof.
  intros I J X Ss Us Ac. destruct (o_own _ J c x X) as (O & G & A & K). destruct K as (K1 & K2 & K3 & K4 & K5). destruct a; cbn [new_ssl].
  - exists false, s. split_and!; try done. exists []. by rewrite app_nil_r.
  - exists false, (try_ssl s). split_and!; try done; [by apply inv0_try| |exists []; cbn; by rewrite app_nil_r].
    destruct J. constructor; cbn [conns made gone given nxt conlog try_ssl]; try done.
    + intros c' k r H. destruct (o_made0 c' k r H) as [? ?]. split; [lia|done].
    + intros c' H. specialize (o_gone0 c' H). lia.
    + intros c' y H. specialize (o_lt0 c' y H). lia.
    + intros c' a b H. destruct (o_con0 c' a b H) as (? & ? & ?). split_and!; try done. lia.
  - unfold ssl_init. rewrite Ss. eexists true, _. split; [done|]. split_and!; try done.
    + apply inv0_set, inv0_alloc; [by apply inv0_alloc|done|done].
    + apply (inv1_grow s _ c x (set_ssl x (Some (nxt s, S (nxt s))) acc) [(c, KSsl, nxt s); (c, KSess, S (nxt s))] J X); try done.
      * cbn. by rewrite <- app_assoc.
      * by repeat constructor.
      * cbn. lia.
      * intros y H. by left.
      * unfold owned. cbn [set_ssl c_fd c_ssl c_sni c_un c_isudp c_pool strip fmap list_fmap fst snd]. rewrite Ss. cbn [app]. destruct (c_fd x); cbn [app]; [apply perm_skip|]; (etrans; [|apply Permutation_app_comm]); done.
      * okt K1 K2 K5.
    + exists [(c, KSsl, nxt s); (c, KSess, S (nxt s))]. cbn. by rewrite <- app_assoc.
Qed.
Lemma step_accept s srv f n got ctx a : Inv0 s -> Inv1 s -> normal s (EAccept srv f n got ctx a) -> good s (step s (EAccept srv f n got ctx a)).
Proof.
  intros I J N. cbn [normal] in N. cbn [step]. destruct got; cbn [negb]; [|apply good_ok; try done; apply (eff_grow _ _ []); by rewrite ?app_nil_r]. specialize (N eq_refl).
  unfold kconnection_new. rewrite (bool_decide_eq_false_2 _ N). rewrite bool_decide_eq_true_2 by (unfold SZ_I, SZ_ACC; lia).
  destruct (internal_new (mkaddr f n) false s) as [c s1] eqn:E. destruct (new_ok s (mkaddr f n) false c s1 I J (fun H => False_rect _ (N H)) E) as (I1 & J1 & Ec & EC & EG & EL & EM & EN & _).
  rewrite EC, lookup_insert. set (x := mkconn _ _ _ _ _ _ _ _ _ _ _ _ _ _ _). cbv zeta.
  assert (X1: conns s1 !! c = Some x) by (by rewrite EC, lookup_insert). destruct (o_own _ J1 c x X1) as (O & G & A & K).
  set (x2 := set_un (set_fd x (Some (nxt s1))) false (Some srv)). set (s3 := add_ref c srv (set_conn c x2 (with_fd c x s1))).
  assert (I3: Inv0 s3) by (apply inv0_ref; [apply inv0_set, inv0_set, inv0_alloc; done|done]).
  assert (M3: made s3 = made s1 ++ [(c, KFd, nxt s1); (c, KRef, srv)]) by (cbn; by rewrite <- app_assoc).
  assert (J3: Inv1 s3).
  { apply (inv1_grow s1 _ c x x2 [(c, KFd, nxt s1); (c, KRef, srv)] J1 X1); try done.
    - cbn [s3 add_ref conns set_conn with_fd alloc]. by rewrite insert_insert.
    - by repeat constructor.
    - cbn. lia.
    - intros y H. by left.
    - unfold owned. cbn. apply (Permutation_app_comm [_; _] [_; _]). }
  assert (X3: conns s3 !! c = Some x2) by (cbn [s3 add_ref conns set_conn]; by rewrite lookup_insert).
  destruct ctx.
  - destruct (ssl_ok s3 c x2 true a I3 J3 X3) as (r & s4 & -> & I4 & J4 & L4 & G4 & (m & M4) & C4); try done. destruct r.
    + apply good_ok; try done. apply (eff_grow _ _ ([(c, KConn, c); (c, KPool, S c)] ++ [(c, KFd, nxt s1); (c, KRef, srv)] ++ m)); [rewrite M4, M3, EM, <- !app_assoc; done|rewrite L4; exact EL|rewrite G4; exact EG].
    + destruct (destroy_step s s4 c x2 x2 ([(c, KConn, c); (c, KPool, S c)] ++ [(c, KFd, nxt s1); (c, KRef, srv)] ++ m)) as (s' & -> & I' & J' & F' & _); try done; [by rewrite (C4 eq_refl)|rewrite M4, M3, EM, <- !app_assoc; done|rewrite L4; exact EL|rewrite G4; exact EG|]. right. eauto 10.
  - apply good_ok; try done. apply (eff_grow _ _ ([(c, KConn, c); (c, KPool, S c)] ++ [(c, KFd, nxt s1); (c, KRef, srv)])); [rewrite M3, EM, <- !app_assoc; done|exact EL|exact EG].
Qed.
Lemma step_udp s pkt ok : Inv0 s -> Inv1 s -> good s (step s (EUdp pkt ok)).
Proof.
  intros I J. cbn [step]. destruct (internal_new (mkaddr V4 0) false s) as [c s1] eqn:E. destruct (new_ok s (mkaddr V4 0) false c s1 I J (fun H => False_rect _ ltac:(done)) E) as (I1 & J1 & Ec & EC & EG & EL & EM & EN & _).
  rewrite EC, lookup_insert. set (x0 := mkconn _ _ _ _ _ _ _ _ _ _ _ _ _ _ _). cbv zeta. set (x := set_un x0 true None).
  assert (X1: conns s1 !! c = Some x0) by (by rewrite EC, lookup_insert). destruct (o_own _ J1 c x0 X1) as (O & G & A & K).
  destruct ok; cbn [negb].
  - destruct pkt.
    + apply good_ok; [apply inv0_set, inv0_alloc; [apply inv0_set, inv0_alloc; done|done|done]| |].
      * apply (inv1_grow s1 _ c x0 (set_bits (set_un (set_fd x (Some (nxt s1))) true (Some (S (nxt s1)))) false false true false false false) [(c, KFd, nxt s1); (c, KUdp, S (nxt s1))] J1 X1); try done.
        -- cbn [conns set_conn alloc with_fd]. by rewrite insert_insert.
        -- cbn. by rewrite <- app_assoc.
        -- by repeat constructor.
        -- cbn. lia.
        -- intros y H. by left.
        -- unfold owned. cbn. apply (Permutation_app_comm [_; _] [_; _]).
        -- split_and!; cbn; try done. by intros [? ?].
      * apply (eff_grow _ _ ([(c, KConn, c); (c, KPool, S c)] ++ [(c, KFd, nxt s1); (c, KUdp, S (nxt s1))])); [cbn [made set_conn alloc with_fd nxt]; rewrite EM, <- !app_assoc; done|exact EL|exact EG].
    + apply good_ok; [apply inv0_set, inv0_set, inv0_alloc; done| |].
      * apply (inv1_grow s1 _ c x0 (set_bits (set_fd x (Some (nxt s1))) false false true false false false) [(c, KFd, nxt s1)] J1 X1); try done.
        -- cbn [conns set_conn alloc with_fd]. by rewrite insert_insert.
        -- by repeat constructor.
        -- cbn. lia.
        -- intros y H. by left.
        -- unfold owned. cbn. apply (Permutation_cons_append [_; _]).
        -- split_and!; cbn; try done. by intros [? ?].
      * apply (eff_grow _ _ ([(c, KConn, c); (c, KPool, S c)] ++ [(c, KFd, nxt s1)])); [cbn [made set_conn alloc with_fd nxt]; rewrite EM, <- !app_assoc; done|exact EL|exact EG].
  - destruct (destroy_step s s1 c x0 x [(c, KConn, c); (c, KPool, S c)]) as (s' & -> & I' & J' & F' & _); try done. right. eauto 10.
Qed.
Lemma step_good s e : Inv0 s -> Inv1 s -> normal s e -> good s (step s e).
Proof.
  intros I J N. destruct e as [v a len|c b ok|srv f n got ctx a|pkt ok|c|c b|c|c acc a|c|c name obj|c|c want|c want|c].
  - by apply step_new.
  - by apply step_half.
  - by apply step_accept.
  - by apply step_udp.
  - destruct N as (x & X & Cl & _). cbn [step]. rewrite X. destruct (o_own _ J c x X) as (O & G & A & K). by apply (good_upd s c x).
  - destruct N as (x & X & Cl & _). cbn [step]. rewrite X. destruct (o_own _ J c x X) as (O & G & A & K). by apply (good_upd s c x).
  - destruct N as (x & X & Cl & _). cbn [step]. rewrite X. destruct (o_own _ J c x X) as (O & G & A & K). by apply (good_upd s c x).
  - destruct N as (x & X & Cl & S1 & S2 & S3 & S4). cbn [step]. rewrite X. destruct (ssl_ok s c x acc a I J X S1 S3 S4) as (r & s' & -> & I' & J' & L & G & (m & M) & _). apply good_ok; try done. by apply (eff_grow _ _ m).
  - destruct N as (x & X & Cl & [p S1] & S2). cbn [step]. rewrite X, S1. destruct (o_own _ J c x X) as (O & G & A & K). destruct K as (K1 & K2 & K3 & K4 & K5). apply (good_upd s c x); try done; okt K1 K2 K5.
  - destruct N as (x & X). cbn [step]. rewrite X. destruct (o_own _ J c x X) as (O & G & A & K). destruct K as (K1 & K2 & K3 & K4 & K5).
    assert (Hs: good s (Ok s None)) by (apply good_ok; try done; apply (eff_grow _ _ []); by rewrite ?app_nil_r).
    destruct (c_hs x) eqn:Hh; cbn [negb]; [|by left]. destruct (c_acc x) eqn:Ha; cbn [negb]; [|done]. destruct (c_sni x) eqn:Sn; [done|]. destruct (K2 eq_refl) as [[u Hu] Hi]. rewrite Hu. destruct (name && obj); [|done].
    apply good_ok; [apply inv0_set, inv0_alloc; done| |by apply (eff_grow _ _ [(c, KSni, nxt s)])].
    apply (inv1_grow s _ c x (set_sni x (Some (nxt s))) [(c, KSni, nxt s)] J X); try done; [by repeat constructor|cbn; lia|by left| |].
    + unfold owned. cbn [set_sni c_fd c_ssl c_sni c_un c_isudp c_pool strip fmap list_fmap fst snd]. rewrite Sn. cbn [app]. destruct (c_fd x), (c_ssl x) as [[? ?]|]; cbn [app]; repeat apply perm_skip; apply Permutation_cons_append.
    + okt K1 K2 K5.
  - destruct N as (x & X & Cl & _). cbn [step]. rewrite X. destruct (o_own _ J c x X) as (O & G & A & K). destruct (c_hs x) eqn:Hh; [by apply (good_upd s c x); try done; unfold okc in *; cbn; rewrite Hh in K|]. apply good_ok; try done. apply (eff_grow _ _ []); by rewrite ?app_nil_r.
  - destruct N as (x & X & Cl & Li & Se). cbn [step]. rewrite X. destruct (o_own _ J c x X) as (O & G & A & K). destruct K as (K1 & K2 & K3 & K4 & K5).
    destruct (match c_ssl x with Some _ => c_hs x | None => false end && negb (c_shut x) && negb (c_err x)) eqn:E; [|by apply (good_destroy s c x)].
    assert (Hh: c_hs x = true) by (destruct (c_ssl x), (c_hs x); done). destruct (K1 Hh) as [S1 [fd S2]]. rewrite S2. destruct want; [|by apply (good_destroy s c x)]. rewrite (Se Hh), Li. cbn [andb negb].
    apply (good_upd s c x); try done; okt K1 K2 K5.
  - cbn [step]. destruct (conns s !! c) as [x|] eqn:X; [|by left]. destruct (c_closing x) eqn:Cl; cbn [negb]; [|by left]. destruct want; [apply good_ok; try done; apply (eff_grow _ _ []); by rewrite ?app_nil_r|]. by apply (good_destroy s c x).
  - destruct N as (x & X & Cl & Li). cbn [step]. rewrite X. by apply (good_destroy s c x).
Qed.
Lemma inv_init : Inv0 init /\ Inv1 init.
Proof.
  split; constructor; cbn [init live refs conns made gone log given conlog nxt].
  - intros r. cbn. split; [set_solver|]. intros H. by apply elem_of_nil in H.
  - intros srv. unfold ref_of. cbn [refs init]. by rewrite lookup_empty.
  - constructor.
  - intros r H. by apply elem_of_nil in H.
  - intros k r H. by apply elem_of_nil in H.
  - constructor.
  - intros c x H. by rewrite lookup_empty in H.
  - intros c k r H. by apply elem_of_nil in H.
  - intros c H. by apply elem_of_nil in H.
  - intros c x H. by rewrite lookup_empty in H.
  - intros c a b H. by apply elem_of_nil in H.
Qed.
Lemma inv_step s e s' o : Inv0 s -> Inv1 s -> normal s e -> step s e = Ok s' o -> Inv0 s' /\ Inv1 s' /\ Eff s s'.
Proof. intros I J N H. destruct (step_good s e I J N) as [E|(s1 & o1 & E & I1 & J1 & F)]; rewrite H in E; [done|]. injection E as <- <-. done. Qed.
Lemma inv_reach tr s : reach tr s -> Inv0 s /\ Inv1 s.
Proof. induction 1 as [|tr s e s' o R [I J] N H]; [apply inv_init|]. destruct (inv_step s e s' o I J N H) as (I' & J' & _). done. Qed.

(** * C71 *)
(** no assertion fails, nothing is freed twice, no destroyed connection is used, nothing is read outside its object *)
Theorem C71_safe_partial tr s e : reach tr s -> normal s e -> step s e <> Crash.
Proof. intros R N. destruct (inv_reach tr s R) as [I J]. destruct (step_good s e I J N) as [E|(s1 & o1 & E & _)]; by rewrite E. Qed.
(** a resource is in use exactly while the connection it was made for is not destroyed *)
Theorem C71_exact tr s r : reach tr s -> (r ∈ live s <-> exists c k, (c, k, r) ∈ made s /\ k <> KRef /\ c ∉ gone s).
Proof.
  intros R. destruct (inv_reach tr s R) as [I J]. rewrite (z_live _ I), elem_rid. unfold strip, held. split.
  - intros (k & H & N). apply elem_of_list_fmap in H as ([[c k'] r'] & E & H). injection E as -> ->. apply elem_of_list_filter in H as [H1 H2]. exists c, k'. done.
  - intros (c & k & H1 & N & H2). exists k. split; [|done]. apply elem_of_list_fmap. exists (c, k, r). split; [done|]. by apply elem_of_list_filter.
Qed.
(** a server has one reference for each accepted connection not destroyed *)
Theorem C71_refs tr s srv : reach tr s -> ref_of s srv = length (filter (fun x => x.1.2 = KRef /\ x.2 = srv) (filter (fun x => x.1.1 ∉ gone s) (made s))).
Proof.
  intros R. destruct (inv_reach tr s R) as [I J]. rewrite (z_refs _ I). unfold cnt, held. generalize (filter (fun x => x.1.1 ∉ gone s) (made s)). intros l. induction l as [|[[c k] r] l IH]; [done|].
  cbn [strip fmap list_fmap fst snd]. rewrite !filter_cons. cbn [fst snd]. unfold isref at 1. destruct (decide (k = KRef /\ r = srv)) as [[-> ->]|N].
  - rewrite decide_True by (by apply bool_decide_eq_true_2). cbn [length]. by f_equal.
  - rewrite decide_False; [exact IH|]. intros H%bool_decide_eq_true. injection H as -> ->. by apply N.
Qed.
(** nothing is given back twice, and only as what it was made *)
Theorem C71_once tr s : reach tr s -> NoDup (omap (fun x => if bool_decide (x.1 = KRef) then None else Some x.2) (log s)) /\ forall k r, (k, r) ∈ log s -> exists c, (c, k, r) ∈ made s /\ c ∈ gone s.
Proof. intros R. destruct (inv_reach tr s R) as [I J]. split; [apply (z_lognd _ I)|apply (z_log _ I)]. Qed.
(** each step gives back nothing, or all the things of one connection, in the safe order *)
Theorem C71_destroy tr s e s' o : reach tr s -> normal s e -> step s e = Ok s' o ->
  gone s' = gone s /\ log s' = log s \/ exists c l, gone s' = gone s ++ [c] /\ log s' = log s ++ l /\ l ≡ₚ things c (made s') /\ StronglySorted (fun a b => rank a.1 < rank b.1) l.
Proof.
  intros R N H. destruct (inv_reach tr s R) as [I J]. destruct (inv_step s e s' o I J N H) as (_ & _ & m & l & g & E1 & E2 & E3 & D). destruct D as [[-> ->]|(c & -> & D1 & D2)]; [left; by rewrite E2, E3, !app_nil_r|right]. by exists c, l.
Qed.
(** a connection has at most one resource of each kind *)
Theorem C71_one_each tr s c k r1 r2 : reach tr s -> c ∉ gone s -> (c, k, r1) ∈ made s -> (c, k, r2) ∈ made s -> r1 = r2.
Proof.
  intros R G H1 H2. destruct (inv_reach tr s R) as [I J]. destruct (o_made _ J c k r1 H1) as [_ [?|[x X]]]; [done|]. destruct (o_own _ J c x X) as (O & _).
  apply elem_things in H1, H2. rewrite O in H1, H2. clear -H1 H2. pose proof (owned_sorted c x) as S. induction S as [|y l S IH F]; [by apply elem_of_nil in H1|]. rewrite Forall_forall in F.
  apply elem_of_cons in H1 as [E1|H1], H2 as [E2|H2]; [congruence| | |auto].
  - specialize (F _ H2). subst y. unfold before in F. cbn in F. lia.
  - specialize (F _ H1). subst y. unfold before in F. cbn in F. lia.
Qed.
(** connections are made for the address given and connect to it *)
Theorem C71_address tr s c a b : reach tr s -> (c, a, b) ∈ conlog s -> given s !! c = Some a /\ (fam a = UNIX -> b = None).
Proof. intros R H. destruct (inv_reach tr s R) as [I J]. destruct (o_con _ J c a b H) as (? & ? & _). done. Qed.
Theorem C71_given tr s v a len s' o : reach tr s -> step s (ENew v a len) = Ok s' o -> exists c, o = Some c /\ given s' !! c = Some a /\ c ∉ gone s' /\ (c, KConn, c) ∈ made s'.
Proof.
  intros R H. destruct (inv_reach tr s R) as [I J]. cbn [step] in H. assert (Hk: exists p, kconnection_new v a len s = Some (internal_new a p s)).
  { destruct v; cbn [kconnection_new] in *; [|by exists false|by exists false]. repeat case_bool_decide; try done; [by exists true|by exists false]. }
  destruct Hk as [p Hk]. rewrite Hk in H. unfold internal_new in H. injection H as <- <-. exists (nxt s). split; [done|]. cbn [given gone made alloc]. rewrite lookup_insert. split; [done|]. split; [intros G%(o_gone _ J); lia|]. apply elem_of_app. left. apply elem_of_app. right. by left.
Qed.
(** who destroys: the calls that are to, and creations that fail, on the connection they had made *)
Lemma gone_real c x s s' o : real_destroy c x s = Ok s' o -> gone s' = gone s ++ [c] /\ conns s' = delete c (conns s) /\ o = None /\ log s' = log s ++ owned c x.
Proof.
  unfold real_destroy. destruct (c_listed x); [done|]. destruct (frees s (owned c x)) as [s1|] eqn:F; [|done]. intros H. injection H as <- <-. cbn [gone conns log].
  assert (G: gone s1 = gone s /\ conns s1 = conns s /\ log s1 = log s ++ owned c x).
  { revert s F. generalize (owned c x). intros l. induction l as [|[k r] l IH]; intros s F; cbn [frees] in F; [injection F as ->; by rewrite app_nil_r|].
    destruct (free1 s (k, r)) as [s2|] eqn:F1; [|done]. destruct (IH s2 F) as (G1 & G2 & G3). rewrite G1, G2, G3.
    assert (E: gone s2 = gone s /\ conns s2 = conns s /\ log s2 = log s ++ [(k, r)]). { destruct k; cbn [free1] in F1; try (case_bool_decide; [|done]; injection F1 as <-; done). destruct (ref_of s r); [done|]. injection F1 as <-. done. }
    destruct E as (-> & -> & ->). split_and!; try done. by rewrite <- app_assoc. }
  destruct G as (-> & -> & ->). done.
Qed.
Theorem C71_who tr s e s' o c : reach tr s -> normal s e -> step s e = Ok s' o -> c ∈ gone s' -> c ∉ gone s ->
  match e with EDestroy d _ | EReal d => d = c | EShut d w => d = c /\ w = false | EAccept _ _ _ _ _ _ | EUdp _ _ => o = None /\ nxt s <= c | _ => False end.
Proof.
  intros R N H G1 G0. destruct (inv_reach tr s R) as [I J].
  assert (HR: forall d x s1, gone s1 = gone s -> real_destroy d x s1 = Ok s' o -> d = c /\ o = None).
  { intros d x s1 Es E. apply gone_real in E as (E & _ & -> & _). rewrite E, Es in G1. apply elem_of_app in G1 as [?|G1]; [done|]. by apply elem_of_list_singleton in G1. }
  destruct e as [v a len|d b ok|srv f n got ctx a|pkt ok|d|d b|d|d acc a|d|d name obj|d|d want|d want|d]; cbn [step] in H.
  - destruct v; cbn [kconnection_new] in H; repeat case_bool_decide; try done; injection H as <- _; by apply G0.
  - destruct (conns s !! d) as [x|]; [|done]. destruct (_ && _); [done|]. destruct ok; injection H as <- _; by apply G0.
  - destruct got; cbn [negb] in H; [|injection H as <- _; by destruct G0]. unfold kconnection_new in H. cbn [fam] in H. destruct (bool_decide (f = UNIX)); [by rewrite bool_decide_eq_false_2 in H by (unfold SZ_UN, SZ_ACC; lia)|].
    rewrite bool_decide_eq_true_2 in H by (unfold SZ_I, SZ_ACC; lia). destruct (internal_new (mkaddr f n) false s) as [d s1] eqn:E. assert (Ed: d = nxt s /\ gone s1 = gone s) by (by injection E as <- <-). destruct Ed as [-> Eg].
    destruct (conns s1 !! nxt s) as [x|] eqn:X; [|done]. cbv zeta in H. destruct ctx; [|injection H as <- _; cbn [gone add_ref set_conn with_fd alloc] in G1; by rewrite Eg in G1].
    destruct (new_ssl _ _ _ _ _) as [[[|] s4]|] eqn:E4; [| |done].
    + injection H as <- _. assert (G4: gone s4 = gone s1). { destruct a; cbn [new_ssl] in E4; [done|done|]. destruct (ssl_init _ _ _ _) as [s5|] eqn:E5; [|done]. injection E4 as <-. unfold ssl_init in E5. destruct (c_ssl _); [done|]. by injection E5 as <-. } rewrite G4, Eg in G1. done.
    + assert (G4: gone s4 = gone s1). { destruct a; cbn [new_ssl] in E4; [by injection E4 as <-|by injection E4 as <-|]. by destruct (ssl_init _ _ _ _). } destruct (HR _ _ _ (eq_trans G4 Eg) H) as [-> ->]. by split.
  - destruct (internal_new (mkaddr V4 0) false s) as [d s1] eqn:E. assert (Ed: d = nxt s /\ gone s1 = gone s) by (by injection E as <- <-). destruct Ed as [-> Eg]. destruct (conns s1 !! nxt s) as [x|] eqn:X; [|done]. cbv zeta in H. destruct ok; cbn [negb] in H.
    + destruct pkt; injection H as <- _; cbn [gone set_conn with_fd alloc] in G1; rewrite Eg in G1; done.
    + destruct (HR _ _ _ Eg H) as [-> ->]. by split.
  - destruct (conns s !! d) as [x|]; [|done]. injection H as <- _. by apply G0.
  - destruct (conns s !! d) as [x|]; [|done]. injection H as <- _. by apply G0.
  - destruct (conns s !! d) as [x|]; [|done]. injection H as <- _. by apply G0.
  - destruct (conns s !! d) as [x|]; [|done]. destruct (new_ssl _ _ _ _ _) as [[r s4]|] eqn:E4; [|done]. injection H as <- _. apply G0. destruct a; cbn [new_ssl] in E4; [by injection E4 as _ <-|by injection E4 as _ <-|].
    destruct (ssl_init _ _ _ _) as [s5|] eqn:E5; [|done]. injection E4 as _ <-. unfold ssl_init in E5. destruct (c_ssl x); [done|]. by injection E5 as <-.
  - destruct (conns s !! d) as [x|]; [|done]. destruct (c_ssl x); [|done]. injection H as <- _. by apply G0.
  - destruct (conns s !! d) as [x|]; [|done]. destruct (negb (c_hs x)); [done|]. destruct (negb (c_acc x)); [injection H as <- _; by apply G0|]. destruct (c_sni x); [injection H as <- _; by apply G0|]. destruct (c_un x); [|done]. destruct (name && obj); injection H as <- _; by apply G0.
  - destruct (conns s !! d) as [x|]; [|done]. destruct (c_hs x); injection H as <- _; by apply G0.
  - destruct (conns s !! d) as [x|]; [|done]. destruct (_ && _ && _); [|by apply (HR d x s)]. destruct (c_fd x); [|done]. destruct want; [|by apply (HR d x s)]. destruct (_ && _); [|done]. injection H as <- _. by destruct G0.
  - destruct (conns s !! d) as [x|]; [|done]. destruct (negb (c_closing x)); [done|]. destruct want; [injection H as <- _; by destruct G0|]. split; [|done]. by apply (HR d _ s eq_refl H).
  - destruct (conns s !! d) as [x|]; [|done]. by apply (HR d x s).
Qed.
(** and they do destroy: kconnection_real_destroy at once; kconnection_destroy at once unless a TLS shutdown is to be waited for, and then
    when the wait is over *)
Theorem C71_destroys tr s e s' o c : reach tr s -> normal s e -> step s e = Ok s' o ->
  match e with
  | EReal d => d = c -> c ∈ gone s' /\ conns s' !! c = None
  | EDestroy d w => d = c -> c ∈ gone s' /\ conns s' !! c = None \/ w = true /\ c ∉ gone s' /\ exists x, conns s !! c = Some x /\ c_hs x = true /\ c_shut x = false /\ c_err x = false /\ exists x', conns s' !! c = Some x' /\ c_closing x' = true
  | EShut d w => d = c -> if w then s' = s else c ∈ gone s' /\ conns s' !! c = None
  | _ => True
  end.
Proof.
  intros R N H. destruct (inv_reach tr s R) as [I J].
  assert (HR: forall x, real_destroy c x s = Ok s' o -> c ∈ gone s' /\ conns s' !! c = None).
  { intros x E. apply gone_real in E as (-> & -> & _). split; [apply elem_of_app; right; by left|apply lookup_delete]. }
  destruct e; try done; intros ->; cbn [step] in H.
  - destruct (conns s !! c) as [x|] eqn:X; [|done]. destruct (_ && _ && _) eqn:B; [|left; eauto]. destruct (c_fd x); [|done]. destruct want; [|left; eauto]. destruct (c_sel x && negb (c_listed x)); [|done]. injection H as <- _. right.
    split; [done|]. split; [apply (o_own _ J c x X)|]. exists x. split; [done|]. cbn [conns set_conn]. rewrite lookup_insert. destruct (c_ssl x); [|done]. destruct (c_hs x), (c_shut x), (c_err x); try done. split_and!; try done. by eexists.
  - destruct (conns s !! c) as [x|] eqn:X; [|done]. destruct (negb (c_closing x)); [done|]. destruct want; [by injection H|eauto].
  - destruct (conns s !! c) as [x|] eqn:X; [|done]. eauto.
Qed.
(** a step that leaves the connections as they were leaves nothing behind *)
Lemma held_same s s' m g : Inv1 s -> Inv1 s' -> made s' = made s ++ m -> gone s' = gone s ++ g -> conns s' = conns s -> held s' = held s.
Proof.
  intros J J' EM EG EC. unfold held. rewrite EM, filter_app. assert (Hm: filter (fun x => x.1.1 ∉ gone s') m = []).
  { destruct (filter (fun x => x.1.1 ∉ gone s') m) as [|[[c k] r] l] eqn:F; [done|]. exfalso.
    assert (Hin: (c, k, r) ∈ filter (fun x => x.1.1 ∉ gone s') m) by (rewrite F; by left). apply elem_of_list_filter in Hin as [Hg Hin]. cbn in Hg.
    assert (Hm: (c, k, r) ∈ made s') by (rewrite EM; apply elem_of_app; by right). destruct (o_made _ J' c k r Hm) as [_ [?|[x X]]]; [done|].
    destruct (o_own _ J' c x X) as (O' & _). rewrite EC in X. destruct (o_own _ J c x X) as (O & _). rewrite <- O, EM, things_app in O'. assert (L: length (things c m) = 0).
    { apply Permutation_length in O'. rewrite app_length in O'. lia. }
    apply nil_length_inv in L. apply elem_things in Hin. rewrite L in Hin. by apply elem_of_nil in Hin. }
  rewrite Hm, app_nil_r.
  assert (Q: forall l : list (nat * kind * nat), (forall y, y ∈ l -> y ∈ made s) -> filter (fun x => x.1.1 ∉ gone s') l = filter (fun x => x.1.1 ∉ gone s) l).
  { induction l as [|[[c k] r] l IH]; intros Hl; [done|]. rewrite !filter_cons. rewrite IH by (intros y Hy; apply Hl; by right). cbn [fst]. destruct (decide (c ∉ gone s)) as [G|G].
    - rewrite decide_True; [done|]. intros G'. destruct (o_made _ J c k r (Hl _ (elem_of_list_here _ _))) as [_ [?|[x X]]]; [done|]. rewrite <- EC in X. by destruct (o_own _ J' c x X) as (_ & ? & _).
    - rewrite decide_False; [done|]. intros G'. apply G. intros Hc. apply G'. rewrite EG. apply elem_of_app. by left. }
  apply Q. done.
Qed.
Theorem C71_null tr s e s' : reach tr s -> normal s e -> step s e = Ok s' None -> match e with EAccept _ _ _ _ _ _ | EUdp _ _ => True | _ => False end ->
  conns s' = conns s /\ (forall r, r ∈ live s' <-> r ∈ live s) /\ forall srv, ref_of s' srv = ref_of s srv.
Proof.
  intros R N H E. destruct (inv_reach tr s R) as [I J]. destruct (inv_step s e s' None I J N H) as (I' & J' & m & l & g & EM & _ & EG & _).
  assert (EC: conns s' = conns s).
  { assert (F: conns s !! nxt s = None). { destruct (conns s !! nxt s) as [x|] eqn:X; [|done]. pose proof (o_lt _ J _ x X). lia. }
    destruct e as [|d b ok|srv f n got ctx a|pkt ok| | | | | | | | | |]; try done; cbn [step] in H.
    - destruct got; cbn [negb] in H; [|by injection H as <-]. unfold kconnection_new in H. cbn [fam] in H. destruct (bool_decide (f = UNIX)); [by rewrite bool_decide_eq_false_2 in H by (unfold SZ_UN, SZ_ACC; lia)|].
      rewrite bool_decide_eq_true_2 in H by (unfold SZ_I, SZ_ACC; lia). destruct (internal_new (mkaddr f n) false s) as [d s1] eqn:E1. injection E1 as Ed Es.
      assert (Ec: exists y, conns s1 = <[d := y]> (conns s)) by (rewrite <- Es, <- Ed; by eexists). destruct Ec as [y Ec]. rewrite Ec, lookup_insert in H. cbv zeta in H. destruct ctx; [|done].
      destruct (new_ssl _ _ _ _ _) as [[[|] s4]|] eqn:E4; [done| |done]. apply gone_real in H as (_ & -> & _). rewrite <- Ed.
      destruct a; cbn [new_ssl] in E4; [injection E4 as <-|injection E4 as <-|by destruct (ssl_init _ _ _ _)]; cbn [conns try_ssl add_ref set_conn with_fd alloc]; rewrite Ec, Ed, !insert_insert; by apply delete_insert; rewrite <- Ed.
    - destruct (internal_new (mkaddr V4 0) false s) as [d s1] eqn:E1. injection E1 as Ed Es.
      assert (Ec: exists y, conns s1 = <[d := y]> (conns s)) by (rewrite <- Es, <- Ed; by eexists). destruct Ec as [y Ec]. rewrite Ec, lookup_insert in H. cbv zeta in H. destruct ok; cbn [negb] in H; [by destruct pkt|].
      apply gone_real in H as (_ & -> & _). rewrite Ec. apply delete_insert. by rewrite <- Ed. }
  pose proof (held_same s s' m g J J' EM EG EC) as Hh. split; [done|]. split; [intros r; by rewrite (z_live _ I), (z_live _ I'), Hh|intros srv; by rewrite (z_refs _ I), (z_refs _ I'), Hh].
Qed.
(** when every connection is destroyed nothing is left *)
Theorem C71_all_gone tr s : reach tr s -> (forall c, conns s !! c = None) -> live s = ∅ /\ forall srv, ref_of s srv = 0.
Proof.
  intros R N. destruct (inv_reach tr s R) as [I J]. assert (Hh: held s = []).
  { unfold held. destruct (filter (fun x => x.1.1 ∉ gone s) (made s)) as [|[[c k] r] l] eqn:F; [done|]. exfalso. assert (Hin: (c, k, r) ∈ filter (fun x => x.1.1 ∉ gone s) (made s)) by (rewrite F; by left).
    apply elem_of_list_filter in Hin as [Hg Hin]. destruct (o_made _ J c k r Hin) as [_ [?|[x X]]]; [done|]. by rewrite N in X. }
  split; [|intros srv; by rewrite (z_refs _ I), Hh]. apply elem_of_equiv_empty_L. intros r Hr. apply (z_live _ I) in Hr. rewrite Hh in Hr. by apply elem_of_nil in Hr.
Qed.

(** * Non-vacuity and what does not hold *)
Definition usableb (s : st) (c : nat) (P : conn -> bool) : bool := match conns s !! c with Some x => negb (c_closing x) && P x | None => false end.
Definition someb {A} (x : option A) : bool := match x with Some _ => true | None => false end.
Definition normalb (s : st) (e : ev) : bool :=
  match e with
  | ENew v a len => if bool_decide (fam a = UNIX) then match v with New => bool_decide (SZ_UN <= len) | _ => false end else bool_decide (SZ_I <= len)
  | EAccept _ f _ got _ _ => negb got || negb (bool_decide (f = UNIX))
  | EUdp _ _ | EShut _ _ => true
  | EHalf c _ _ => usableb s c (fun x => negb (someb (c_fd x)))
  | ESsl c acc _ => usableb s c (fun x => negb (someb (c_ssl x)) && someb (c_fd x) && negb (c_isudp x) && (negb acc || someb (c_un x)))
  | EHs c => usableb s c (fun x => someb (c_ssl x) && someb (c_fd x))
  | EBind c | EShutF c | EErr c => usableb s c (fun _ => true)
  | EList c _ => usableb s c c_sel
  | ESni c _ _ => someb (conns s !! c)
  | EDestroy c _ => usableb s c (fun x => negb (c_listed x) && (negb (c_hs x) || c_sel x))
  | EReal c => usableb s c (fun x => negb (c_listed x))
  end.
Lemma usableb_ok s c (P : conn -> bool) (Q : conn -> Prop) : (forall x, P x = true -> Q x) -> usableb s c P = true -> usable s c Q.
Proof. unfold usableb, usable. intros H. destruct (conns s !! c) as [x|]; [|done]. intros [H1 H2]%andb_true_iff. exists x. split; [done|]. split; [by destruct (c_closing x)|auto]. Qed.
Lemma someb_ok {A} (x : option A) : someb x = true -> is_Some x. Proof. by destruct x. Qed.
Lemma someb_no {A} (x : option A) : negb (someb x) = true -> x = None. Proof. by destruct x. Qed.
Lemma normalb_ok s e : normalb s e = true -> normal s e.
Proof.
  destruct e; cbn [normalb normal]; intros H; try done; try (revert H; apply usableb_ok; intros x Hx).
  - case_bool_decide; [destruct v; try done; split; [done|]|]; by apply bool_decide_eq_true in H.
  - by apply someb_no.
  - intros ->. cbn in H. by apply negb_true_iff, bool_decide_eq_false in H.
  - done.
  - done.
  - done.
  - apply andb_true_iff in Hx as [[[H1 H2]%andb_true_iff H3]%andb_true_iff H4]. split_and!; [by apply someb_no|by apply someb_ok|by destruct (c_isudp x)|]. intros ->. by apply someb_ok.
  - apply andb_true_iff in Hx as [H1 H2]. by split; apply someb_ok.
  - by apply someb_ok.
  - done.
  - apply andb_true_iff in Hx as [H1 H2]. split; [by destruct (c_listed x)|]. intros E. by rewrite E in H2.
  - by destruct (c_listed x).
Qed.
Fixpoint run (chk : bool) (s : st) (l : list ev) : option st :=
  match l with [] => Some s | e :: l => if negb chk || normalb s e then match step s e with Ok s' _ => run chk s' l | _ => None end else None end.
Lemma run_reach tr s l s' : reach tr s -> run true s l = Some s' -> reach (tr ++ l) s'.
Proof.
  revert tr s. induction l as [|e l IH]; intros tr s R H; cbn [run negb orb] in H.
  - injection H as <-. by rewrite app_nil_r.
  - destruct (normalb s e) eqn:N; [|done]. destruct (step s e) as [| |s1 o] eqn:E; try done. rewrite cons_middle, app_assoc. apply (IH _ s1); [|done]. apply (reach_snoc _ _ _ _ _ o R); [|done]. by apply normalb_ok.
Qed.
(** a server accepts a TLS connection (0) and one whose SSL object cannot be made (5); a UDP socket (10) and a client on a UNIX path (14); the client
    and the TLS connection are closed, the latter after waiting for the shutdown *)
Definition demo : list ev :=
  [EAccept 9 V4 5 true true Fine; EAccept 9 V6 6 true true NoFd; EBind 0; EHs 0; ESni 0 true true; ESni 0 true true; EUdp true true; ENew New (mkaddr UNIX 3) 110; EHalf 14 None true; EList 0 true; EList 0 false; EReal 14; EDestroy 0 true; EShut 0 true; EShut 0 false].
Theorem C71_demo : exists s, reach demo s /\ log s = [(KFd, 7); (KRef, 9); (KPool, 6); (KConn, 5); (KFd, 16); (KPool, 15); (KConn, 14); (KFd, 2); (KSsl, 3); (KSess, 4); (KSni, 9); (KRef, 9); (KPool, 1); (KConn, 0)] /\
  live s = {[10; 11; 12; 13]} /\ ref_of s 9 = 0 /\ conlog s = [(14, mkaddr UNIX 3, None)].
Proof.
  destruct (run true init demo) as [s|] eqn:E; [|by vm_compute in E]. exists s. split; [exact (run_reach [] _ _ _ (reach_nil _) E)|].
  assert (E2: option_map (fun s => (log s, bool_decide (live s = {[10; 11; 12; 13]}), ref_of s 9, conlog s)) (run true init demo) = Some ([(KFd, 7); (KRef, 9); (KPool, 6); (KConn, 5); (KFd, 16); (KPool, 15); (KConn, 14); (KFd, 2); (KSsl, 3); (KSess, 4); (KSni, 9); (KRef, 9); (KPool, 1); (KConn, 0)], true, 0, [(14, mkaddr UNIX 3, None)])) by (vm_compute; reflexivity).
  rewrite E in E2. cbn [option_map] in E2. injection E2 as G1 G2 G3 G4. apply bool_decide_eq_true in G2. split_and!; done.
Qed.
(** accepting a connection on a UNIX server reads past the end of the listener's memory *)
Theorem C71_accept_unix_refuted : forall s srv n ctx a, step s (EAccept srv UNIX n true ctx a) = Crash.
Proof. intros. cbn [step negb kconnection_new fam]. rewrite bool_decide_eq_true_2 by done. by rewrite bool_decide_eq_false_2 by (unfold SZ_UN, SZ_ACC; lia). Qed.
(** a UNIX address given to kconnection_new3 (or _new2) is followed as a pointer it is not *)
Theorem C71_new3_unix_refuted : exists s, step init (ENew New3 (mkaddr UNIX 3) 110) = Ok s (Some 0) /\ forall b ok, step s (EHalf 0 b ok) = Crash.
Proof. eexists. split; [done|]. intros b ok. cbn [step conns]. by rewrite lookup_insert. Qed.
(** connecting again (after the first connect failed later) loses the first descriptor: the connection is destroyed, its descriptor stays open *)
Theorem C71_reconnect_refuted : exists s, run false init [ENew New (mkaddr V4 1) 32; EHalf 0 None true; EHalf 0 None true; EReal 0] = Some s /\ conns s !! 0 = None /\ live s = {[2]}.
Proof.
  destruct (run false init [ENew New (mkaddr V4 1) 32; EHalf 0 None true; EHalf 0 None true; EReal 0]) as [s|] eqn:E; [|by vm_compute in E]. exists s. split; [done|].
  assert (E2: option_map (fun s => (someb (conns s !! 0), bool_decide (live s = {[2]}))) (run false init [ENew New (mkaddr V4 1) 32; EHalf 0 None true; EHalf 0 None true; EReal 0]) = Some (false, true)) by (vm_compute; reflexivity).
  rewrite E in E2. cbn [option_map] in E2. injection E2 as G1 G2. apply bool_decide_eq_true in G2. split; [|done]. by destruct (conns s !! 0).
Qed.
