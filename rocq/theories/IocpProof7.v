(** Accept sockets of the Windows backend; the invariant of all reachable states. *)
From Verif Require Export IocpProof6.
Local Open Scope Z_scope.

Definition own (s : sys) (o : nat) : option nat := objs s !! o ≫= acs.
Definition nosock (l : list obs) : Prop := Forall (λ e, match e with OSock _ _ | OHand _ | OSockClose _ => False | _ => True end) l.
Lemma nosock_gone l n : nosock l -> gone l n = 0%nat.
Proof. induction 1 as [|e l He Hl IH]; [done|]. unfold gone in *. rewrite filter_cons. destruct (decide _) as [Hd|]; [|done]. by destruct e. Qed.
Lemma nosock_sock l o n : nosock l -> OSock o n ∉ l.
Proof. intros H Hi. by apply (proj1 (Forall_forall _ _) H) in Hi. Qed.
Lemma own_acs s o n : own s o = Some n <-> exists x, objs s !! o = Some x /\ acs x = Some n.
Proof. unfold own. destruct (objs s !! o) as [x|]; cbn; [|naive_solver]. split; [eauto|]. by intros (y & [= <-] & ?). Qed.
Lemma Sk_intro s :
  (forall o n, own s o = Some n -> OSock o n ∈ hist s /\ gone (hist s) n = 0%nat) ->
  (forall o n, OSock o n ∈ hist s -> gone (hist s) n = 1%nat \/ (gone (hist s) n = 0%nat /\ own s o = Some n)) ->
  (forall o o' n, OSock o n ∈ hist s -> OSock o' n ∈ hist s -> o = o') ->
  (forall o n, OSock o n ∈ hist s -> (n < nsk s)%nat) -> (forall n, (nsk s <= n)%nat -> gone (hist s) n = 0%nat) -> Sk s.
Proof.
  intros H1 H2 H3 H4 H5. constructor; try done.
  - intros o x n E1 E2. apply H1. apply own_acs. eauto.
  - intros o n H. rewrite <- own_acs. by apply H2.
Qed.
Lemma Sk_own1 s o n : Sk s -> own s o = Some n -> OSock o n ∈ hist s /\ gone (hist s) n = 0%nat.
Proof. intros HS (x & E1 & E2)%own_acs. by eapply (sk_acs _ HS). Qed.
Lemma Sk_own2 s o n : Sk s -> OSock o n ∈ hist s -> gone (hist s) n = 1%nat \/ (gone (hist s) n = 0%nat /\ own s o = Some n).
Proof. intros HS H. rewrite own_acs. by eapply (sk_own _ HS). Qed.
Lemma Sk_same s s' l : Sk s -> (forall o, own s' o = own s o) -> hist s' = hist s ++ l -> nosock l -> nsk s' = nsk s -> Sk s'.
Proof.
  intros HS Ho Eh Hl En.
  assert (Hs : forall o n, OSock o n ∈ hist s' <-> OSock o n ∈ hist s).
  { intros o n. rewrite Eh, elem_of_app. pose proof (nosock_sock l o n Hl). tauto. }
  assert (Hg : forall n, gone (hist s') n = gone (hist s) n) by (intros n; rewrite Eh, gone_app, (nosock_gone l n Hl); lia).
  apply Sk_intro.
  - intros o n. rewrite Ho, Hs, Hg. by apply Sk_own1.
  - intros o n. rewrite Ho, Hs, Hg. by apply Sk_own2.
  - intros o o' n. rewrite !Hs. apply (sk_uniq _ HS).
  - intros o n. rewrite Hs, En. apply (sk_lt _ HS).
  - intros n. rewrite Hg, En. apply (sk_gone _ HS).
Qed.
(** the socket [n] of [o] goes *)
Lemma Sk_go s s' o n h1 e h2 : Sk s -> own s o = Some n -> own s' o = None -> (forall o', o' <> o -> own s' o' = own s o') ->
  hist s' = hist s ++ h1 ++ e :: h2 -> nosock h1 -> nosock h2 -> (e = OHand n \/ e = OSockClose n) -> nsk s' = nsk s -> Sk s'.
Proof.
  intros HS Eo Eo' Hoo Eh Hh1 Hh2 He En. destruct (Sk_own1 _ _ _ HS Eo) as [Hn Hg0].
  assert (Hs : forall o n, OSock o n ∈ hist s' <-> OSock o n ∈ hist s).
  { intros q m. rewrite Eh, !elem_of_app, elem_of_cons. pose proof (nosock_sock h1 q m Hh1). pose proof (nosock_sock h2 q m Hh2). destruct He as [-> | ->]; naive_solver. }
  assert (Hg : forall m, gone (hist s') m = (gone (hist s) m + if decide (m = n) then 1 else 0)%nat).
  { intros m. rewrite Eh, !gone_app, (nosock_gone h1 m Hh1). change (e :: h2) with ([e] ++ h2). rewrite gone_app, (nosock_gone h2 m Hh2).
    assert (gone [e] m = if decide (m = n) then 1%nat else 0%nat) as ->; [|lia]. unfold gone. rewrite filter_cons, filter_nil.
    destruct He as [-> | ->]; cbn [is_gone]; (destruct (decide (m = n)) as [->|Hm]; [by rewrite bool_decide_true by done|by rewrite bool_decide_false by congruence]). }
  apply Sk_intro.
  - intros q m Em. assert (q <> o) by (intros ->; congruence). rewrite Hoo in Em by done. destruct (Sk_own1 _ _ _ HS Em) as [Hm Hgm]. rewrite Hs, Hg. split; [done|].
    rewrite decide_False; [lia|]. intros ->. assert (q = o) by by eapply (sk_uniq _ HS). done.
  - intros q m. rewrite Hs, Hg. intros Hm. destruct (decide (m = n)) as [->|Hne]; [left; lia|]. rewrite Nat.add_0_r. destruct (Sk_own2 _ _ _ HS Hm) as [?|[? Eq]]; [by left|]. right. split; [done|].
    rewrite Hoo; [done|]. intros ->. congruence.
  - intros q q' m. rewrite !Hs. apply (sk_uniq _ HS).
  - intros q m. rewrite Hs, En. apply (sk_lt _ HS).
  - intros m Hm. rewrite Hg. rewrite En in Hm. rewrite (sk_gone _ HS) by done. rewrite decide_False; [done|]. intros ->. apply (sk_lt _ HS) in Hn. lia.
Qed.
Lemma own_put s o x : own (put o x s) o = acs x.
Proof. unfold own. cbn. by rewrite lookup_insert. Qed.
Lemma own_put_ne s o x o' : o' <> o -> own (put o x s) o' = own s o'.
Proof. intros H. unfold own. cbn. by rewrite lookup_insert_ne. Qed.
Lemma own_upd s o x x' o' : objs s !! o = Some x -> acs x' = acs x -> own (put o x' s) o' = own s o'.
Proof. intros E Ea. destruct (decide (o' = o)) as [->|Hne]; [|by apply own_put_ne]. rewrite own_put. unfold own. by rewrite E. Qed.
Lemma acs_set x d y : acs (set_sid x d y) = acs x.
Proof. by destruct d. Qed.
Ltac sksame := eapply (Sk_same _ _ _); [eassumption| |reflexivity|repeat constructor|reflexivity].

Lemma Sk_tr s s' : I s -> Sk s -> tr s s' -> Sk s'.
Proof.
  intros HI HS T. destruct T.
  - sksame. intros q. destruct (decide (q = o)) as [->|Hne]; [|by apply (own_put_ne s)]. etrans; [apply (own_put s)|]. unfold own. by rewrite H.
  - destruct (acs x) as [n|] eqn:En; subst l.
    + eapply (Sk_go s _ o n [OClose o] (OSockClose n) []); [done| | | |done|by repeat constructor|constructor|by right|done].
      * apply own_acs. eauto.
      * unfold own. cbn. by rewrite lookup_delete.
      * intros q Hq. unfold own. cbn. by rewrite lookup_delete_ne.
    + sksame. intros q. unfold own. cbn. destruct (decide (q = o)) as [->|Hne]; [|by rewrite lookup_delete_ne]. rewrite lookup_delete, H. done.
  - sksame. intros q. apply (own_upd s o x); [done|]. unfold upd_side. cbn. apply acs_set.
  - eapply (Sk_same _ _ [OMade (nx s) o c; ONoStart (nx s); a]); try done.
    + intros q. apply (own_upd s o x); [done|]. apply acs_set.
    + destruct H4 as [-> | ->]; repeat constructor.
  - sksame. intros q. apply (own_upd s o x); [done|]. unfold upd_side. cbn. apply acs_set.
  - sksame. intros q. by apply (own_upd s o x).
  - sksame. intros q. by apply (own_upd s o x).
  - (* acc_ok *) destruct (i_acc _ HI _ _ H) as (y & Ey & _ & _ & _ & En). assert (y = x) as -> by congruence.
    assert (Hg : forall m, gone (hist s ++ [OSock o (nsk s)]) m = gone (hist s) m) by (intros m; rewrite gone_app; apply Nat.add_0_r).
    assert (Ho : forall q, q <> o -> own (log [OSock o (nsk s)] (s_acc None (s_nsk (S (nsk s)) (s_pend (pend s ++ [(o, R, k)]) (put o (set_sid (set_acs x (Some (nsk s))) R (Sd true false (rq (sr x)))) s))))) q = own s q).
    { intros q Hq. unfold own. cbn. by rewrite lookup_insert_ne. }
    assert (Ho' : own (log [OSock o (nsk s)] (s_acc None (s_nsk (S (nsk s)) (s_pend (pend s ++ [(o, R, k)]) (put o (set_sid (set_acs x (Some (nsk s))) R (Sd true false (rq (sr x)))) s))))) o = Some (nsk s)).
    { unfold own. cbn. by rewrite lookup_insert. }
    assert (Ho'' : own s o = None) by (unfold own; by rewrite H0).
    apply Sk_intro; cbn [hist log nsk s_acc s_nsk s_pend put s_objs].
    + intros q m Em. rewrite Hg, elem_of_app. destruct (decide (q = o)) as [->|Hne].
      * assert (m = nsk s) as -> by congruence. split; [right; set_solver|]. by apply (sk_gone _ HS).
      * rewrite Ho in Em by done. destruct (Sk_own1 _ _ _ HS Em). tauto.
    + intros q m. rewrite Hg, elem_of_app, elem_of_list_singleton. intros [Hm|[= -> ->]].
      * destruct (Sk_own2 _ _ _ HS Hm) as [?|[? Eq]]; [by left|]. right. split; [done|]. rewrite Ho; [done|]. congruence.
      * right. split; [by apply (sk_gone _ HS)|done].
    + intros q q' m. rewrite !elem_of_app, !elem_of_list_singleton. intros [H1|H1] [H2|H2]; [by eapply (sk_uniq _ HS)| | |congruence].
      * apply (sk_lt _ HS) in H1. assert (m = nsk s) by congruence. lia.
      * apply (sk_lt _ HS) in H2. assert (m = nsk s) by congruence. lia.
    + intros q m. rewrite elem_of_app, elem_of_list_singleton. intros [H1|[= -> ->]]; [apply (sk_lt _ HS) in H1|]; lia.
    + intros m Hm. rewrite Hg. apply (sk_gone _ HS). lia.
  - (* retry *)
    assert (Hg : forall m, gone (hist s ++ [OSock o (nsk s); OSockClose (nsk s)]) m = (gone (hist s) m + if decide (m = nsk s) then 1 else 0)%nat).
    { intros m. rewrite gone_app. f_equal. unfold gone. rewrite !filter_cons, filter_nil. cbn [is_gone]. rewrite (decide_False (P := false = true)) by done.
      destruct (decide (m = nsk s)) as [->|Hm]; [by rewrite bool_decide_true by done|by rewrite bool_decide_false by congruence]. }
    apply Sk_intro; cbn [hist log nsk s_nsk].
    + intros q m Em. change (own s q = Some m) in Em. destruct (Sk_own1 _ _ _ HS Em) as [Hm Hgm]. rewrite Hg, elem_of_app, Hgm. split; [tauto|]. apply (sk_lt _ HS) in Hm. rewrite decide_False by lia. done.
    + intros q m. rewrite Hg, elem_of_app. intros [Hm|Hm].
      * pose proof (sk_lt _ HS _ _ Hm). rewrite decide_False by lia. rewrite Nat.add_0_r. apply (Sk_own2 _ _ _ HS Hm).
      * left. assert (m = nsk s) as -> by set_solver. rewrite decide_True by done. rewrite (sk_gone _ HS); lia.
    + intros q q' m. rewrite !elem_of_app. intros [H1|H1] [H2|H2].
      * by eapply (sk_uniq _ HS).
      * apply (sk_lt _ HS) in H1. assert (m = nsk s) by set_solver. lia.
      * apply (sk_lt _ HS) in H2. assert (m = nsk s) by set_solver. lia.
      * set_solver.
    + intros q m. rewrite elem_of_app. intros [H1|H1]; [apply (sk_lt _ HS) in H1; lia|]. assert (m = nsk s) by set_solver. lia.
    + intros m Hm. rewrite Hg, decide_False by lia. rewrite (sk_gone _ HS); lia.
  - sksame. done.
  - sksame. intros q. by apply (own_upd s o x).
  - (* take *) destruct (acs x) as [n|] eqn:En; subst l.
    + eapply (Sk_go s _ o n [] (if g then OHand n else OSockClose n) []); [done| | | |done|constructor|constructor| |done].
      * apply own_acs. eauto.
      * apply (own_put s).
      * intros q Hq. by apply (own_put_ne s).
      * destruct g; auto.
    + eapply (Sk_same s _ []); try done; [|constructor]. intros q. apply (own_upd s o x); [done|]. by rewrite En.
  - sksame. done.
  - sksame. done.
  - sksame. done.
  - sksame. intros q. apply (own_upd s o x); [done|]. unfold upd_side. cbn. apply acs_set.
  - sksame. done.
  - eapply (Sk_same s _ []); try done; [|cbn; by rewrite app_nil_r|constructor]. intros q. by apply (own_upd s o x).
  - sksame. intros q. by apply (own_upd s o x).
  - sksame. intros q. by apply (own_upd s o x).
  - eapply (Sk_same s _ []); try done; [cbn; by rewrite app_nil_r|constructor].
  - eapply (Sk_same s _ []); try done; [cbn; by rewrite app_nil_r|constructor].
  - eapply (Sk_same s _ []); try done; [cbn; by rewrite app_nil_r|constructor].
  - eapply (Sk_same s _ []); try done; [|cbn; by rewrite app_nil_r|constructor]. intros q. apply (own_upd s o x); [done|]. unfold list_rw. by destruct (loc x).
  - sksame. done.
  - sksame. intros q. by apply (own_upd s o x).
Qed.
Lemma Sk_init : Sk init.
Proof. constructor; try done; intros *; cbn; by rewrite elem_of_nil. Qed.
