(** The invariant of the Windows backend holds in every state reached; lists, sockets, values. *)
From Verif Require Export IocpProof5.
Local Open Scope Z_scope.

Lemma nomade1 e : (match e with OMade _ _ _ | OPost _ _ => False | _ => True end) -> forall k, ~ made [e] k.
Proof. intros H k. unfold made. setoid_rewrite elem_of_list_singleton. intros [(?&?&<-)|(?&<-)]; done. Qed.
Lemma nomade_nil k : ~ made [] k.
Proof. unfold made. setoid_rewrite elem_of_nil. by intros [(?&?&?)|(?&?)]. Qed.
Lemma pcok_weak s s' p : pc s' = p -> (forall o x d, objs s !! o = Some x -> exists x', objs s' !! o = Some x' /\ bz (sid x' d) = bz (sid x d) /\ f2 (sid x' d) = f2 (sid x d)) ->
  pcok (s_pc p s) -> pcok s'.
Proof.
  intros Ep H HP. eapply (pcok_mono (s_pc p s)); [done| |done]. intros o x d Eo Eb. cbn in Eo. destruct (H o x d Eo) as (x' & ? & ? & ?). exists x'. split_and!; congruence.
Qed.
Lemma sides_put o x x' (m : gmap nat ob) : m !! o = Some x -> sr x' = sr x -> sw x' = sw x -> forall o' y d, m !! o' = Some y ->
  exists y', <[o := x']> m !! o' = Some y' /\ bz (sid y' d) = bz (sid y d) /\ f2 (sid y' d) = f2 (sid y d).
Proof.
  intros E H1 H2 o' y d Ey. destruct (decide (o' = o)) as [->|Hne]; [|exists y; by rewrite lookup_insert_ne]. assert (y = x) as -> by congruence. exists x'. rewrite lookup_insert. split; [done|].
  destruct d; cbn; by rewrite ?H1, ?H2.
Qed.
Lemma ans_one k e : is_ans k e = true -> (forall j, is_ans j e = true -> j = k) -> forall j, answers [e] j = if decide (j = k) then 1%nat else 0%nat.
Proof.
  intros H1 H2 j. unfold answers. rewrite filter_cons, filter_nil. destruct (decide (j = k)) as [->|Hne]; [by rewrite decide_True|]. rewrite decide_False; [done|]. intros H. apply Hne. by apply H2.
Qed.
Lemma I_tr s s' : I s -> tr s s' -> I s'.
Proof.
  intros HI HT. destruct HT.
  - by apply I_open.
  - by eapply I_close.
  - (* start *) pose proof (I_okob _ _ _ HI H) as Hok.
    eapply (I_add s _ o x _ (cside c) c [(o, cside c, nx s)]); try done.
    + by apply okob_side.
    + apply kd_upd.
    + by apply accp_none.
    + by rewrite sid_upd.
    + by rewrite rqo_upd.
    + left. apply sid_upd_oth.
    + left. by rewrite sid_upd.
    + intros ??. cbn. congruence.
  - (* fail *) pose proof (I_okob _ _ _ HI H) as Hok.
    eapply (I_inst s _ o x _ (cside c)); try done.
    + by apply okob_set.
    + apply kd_set.
    + by rewrite sid_set.
    + apply sid_oth.
    + destruct H4 as [-> | ->]; by repeat constructor.
    + intros k. destruct H4 as [-> | ->]; cbn [cside]; (change (answers (?a :: ?b :: [?e]) k) with (answers [e] k)); rewrite (ans_one (nx s)); try done; try (by apply bool_decide_eq_true);
        intros j Hj; cbn in Hj; apply bool_decide_eq_true in Hj; congruence.
    + intros k. unfold made. repeat setoid_rewrite elem_of_cons. setoid_rewrite elem_of_nil. destruct H4 as [-> | ->]; naive_solver.
  - (* next2 *) pose proof (I_okob _ _ _ HI H) as Hok.
    eapply (I_add s _ o x _ d (nextc d) []); try done.
    + apply okob_side; try done. congruence.
    + apply kd_upd.
    + by apply accp_none.
    + by rewrite sid_upd.
    + rewrite rqo_upd; [done|congruence].
    + left. apply sid_upd_oth.
    + by destruct d.
    + cbn. by rewrite app_nil_r.
    + right. by rewrite sid_upd.
    + intros ??. cbn. congruence.
  - (* acc0 *) pose proof (I_okob _ _ _ HI H) as Hok. pose proof (proj1 (proj2 Hok) H0) as B2.
    eapply (I_inst s _ o x _ W); try done.
    + by apply okob_set.
    + by repeat constructor.
    + intros k. change (answers [?a; ?e] k) with (answers [e] k). rewrite (ans_one (nx s)); try done; [by apply bool_decide_eq_true|]. intros j Hj. cbn in Hj. apply bool_decide_eq_true in Hj. congruence.
    + intros k. unfold made. repeat setoid_rewrite elem_of_cons. setoid_rewrite elem_of_nil. naive_solver.
  - (* acc *) pose proof (I_okob _ _ _ HI H) as Hok. pose proof (proj1 (proj2 Hok) H0) as B2.
    assert (Bf : forall d, bz (sid x d) = false -> f2 (sid x d) = false) by (intros d Hd; destruct (f2 (sid x d)) eqn:E; [|done]; apply Hok in E as [? _]; congruence).
    eapply (I_add s _ o x (set_sid x W (Sd false false (nx s))) R CAccept []); try done.
    + by apply okob_set.
    + by apply accp_none.
    + cbn. unfold accp. cbn. rewrite bool_decide_true by done. apply orb_true_r.
    + unfold rqo. cbn. by rewrite decide_True.
    + right. split_and!; try done. by apply (Bf W).
    + intros o' d' Hne. rewrite (accp_none s) by done. unfold accp. cbn. destruct d'; [|done]. rewrite bool_decide_false; [done|]. congruence.
    + cbn. by rewrite app_nil_r.
    + right. split; [|done]. cbn. by rewrite H1.
    + intros o' k' [= <- <-]. cbn. exists (set_sid x W (Sd false false (nx s))). rewrite lookup_insert. done.
  - by apply I_acc_ok.
  - (* acc retry *) eapply (I_neutral s _ [OSock o (nsk s); OSockClose (nsk s)]); try done.
    + apply (i_nacs _ HI).
    + intros o' k' E. destruct (i_acc _ HI _ _ E) as (y & ? & ? & ? & ? & ?). eauto.
    + by repeat constructor.
    + intros j. unfold made. repeat setoid_rewrite elem_of_cons. setoid_rewrite elem_of_nil. naive_solver.
    + eapply (pcok_mono s); [done| |apply (i_pc _ HI)]. intros o' y d Ey Hb. by exists y.
  - by eapply I_acc_end.
  - (* stop *) eapply (I_neutral s _ [OStop o]); try done.
    + cbn. by eapply core_put.
    + cbn. intros o' y [[_ <-]|[_ E]]%lookup_insert_Some; [cbn|]; (eapply (i_nacs _ HI); eassumption).
    + intros o' k' E. destruct (i_acc _ HI _ _ E) as (y & Ey & ? & ? & ? & ?). cbn. destruct (decide (o' = o)) as [->|Hne]; [|exists y; by rewrite lookup_insert_ne].
      exists (set_srv x false). rewrite lookup_insert. split; [done|]. cbn. congruence.
    + by repeat constructor.
    + by apply nomade1.
    + eapply (pcok_weak s); [done| |apply (i_pc _ HI)]. by eapply sides_put.
  - (* take *) eapply (I_neutral s _ l); try done.
    + cbn. by eapply core_put.
    + cbn. intros o' y [[_ <-]|[_ E]]%lookup_insert_Some; [done|]. (eapply (i_nacs _ HI); eassumption).
    + intros o' k' E. cbn in E. congruence.
    + subst l. destruct (acs x); [|by constructor]. destruct g; by repeat constructor.
    + intros k. subst l. destruct (acs x); [|done]. by destruct g.
    + intros k. subst l. destruct (acs x); [|apply nomade_nil]. by apply nomade1; destruct g.
    + eapply (pcok_weak s); [done| |apply (i_pc _ HI)]. by eapply sides_put.
  - by apply I_post.
  - by apply I_drop.
  - by apply I_kern.
  - (* hop *) pose proof (I_okob _ _ _ HI H0) as Hok. assert (Hk : rqo x d = k).
    { assert (Hin : (o, d, k) ∈ pend s ++ cops (cq s)). { rewrite H. apply elem_of_app. right. cbn. by left. } apply (p_el _ _ (i_p _ HI)) in Hin.
      rewrite (flight_at _ _ _ _ H0), H1, H2 in Hin. by injection Hin. }
    eapply (I_ans s _ o x _ d (got v) [(o, d, rqo x d)]); try done.
    + by apply okob_side.
    + apply kd_upd.
    + by rewrite sid_upd.
    + apply sid_upd_oth.
    + intros Hl. destruct d; [done|]. cbn in H1. rewrite (proj1 (proj2 Hok) Hl) in H1. done.
    + cbn. by rewrite H.
    + right. cbn. rewrite H. cbn. by rewrite Hk.
    + left. done.
    + unfold pcok. cbn. by rewrite H3.
  - by apply I_hnext.
  - (* ready *) pose proof (I_okob _ _ _ HI H) as Hok.
    eapply (I_neutral s _ []); try done.
    + cbn. by eapply core_put.
    + cbn. intros o' y [[_ <-]|[_ E]]%lookup_insert_Some; [cbn|]; (eapply (i_nacs _ HI); eassumption).
    + intros o' k' E. cbn in E. congruence.
    + by rewrite app_nil_r.
    + by constructor.
    + apply nomade_nil.
    + unfold pcok, alive_bz, alive_f2. cbn. assert (E : <[o := set_loc x None]> (objs s) !! o = Some (set_loc x None)) by apply lookup_insert.
      split_and!; intros Hb; exists (set_loc x None); (split; [done|]); cbn; try done; (split; [|done]); [apply (proj1 Hok R Hb)|apply (proj1 Hok W Hb)].
  - (* evW *) pose proof (I_okob _ _ _ HI H) as Hok. pose proof (i_pc _ HI) as HP. unfold pcok in HP. rewrite H0 in HP. destruct HP as (P1 & P2 & P3 & P4).
    destruct (P4 eq_refl) as (x1 & E1 & B1 & B2). assert (x1 = x) as -> by congruence. clear E1. destruct (proj1 Hok W B2) as [_ Hkd].
    assert (Er : rqo x W = rq (sw x)) by (unfold rqo; rewrite decide_False; [done|congruence]).
    eapply (I_ans s _ o x (set_sid x W (Sd false false (rq (sw x)))) W 0 []); try done.
    + by apply okob_set.
    + cbn. congruence.
    + by rewrite <- Er.
    + left. done.
    + right. done.
    + unfold pcok, alive_bz, alive_f2. cbn. split_and!.
      * intros Hr. destruct (P1 Hr) as (y & Ey & By). assert (y = x) as -> by congruence. eexists. split; [apply lookup_insert|]. done.
      * done.
      * intros Hr. destruct (P3 Hr) as (y & Ey & By & Fy). assert (y = x) as -> by congruence. eexists. split; [apply lookup_insert|]. done.
  - (* evR *) pose proof (I_okob _ _ _ HI H) as Hok. pose proof (i_pc _ HI) as HP. unfold pcok in HP. rewrite H0 in HP. destruct HP as (P1 & P2 & P3).
    destruct (P3 eq_refl) as (x1 & E1 & B1 & B2). assert (x1 = x) as -> by congruence. clear E1. destruct (proj1 Hok R B2) as [_ Hkd].
    assert (Er : rqo x R = rq (sr x)) by (unfold rqo; rewrite decide_False; [done|congruence]).
    eapply (I_ans s _ o x (set_sid x R (Sd false false (rq (sr x)))) R 0 []); try done.
    + by apply okob_set.
    + by rewrite <- Er.
    + left. done.
    + right. done.
    + unfold pcok, alive_bz. cbn. split; [done|]. intros Hw. destruct (P2 Hw) as (y & Ey & By). assert (y = x) as -> by congruence. eexists. split; [apply lookup_insert|]. done.
  - (* skips *) eapply (I_neutral s _ []); try done.
    + apply (i_nacs _ HI).
    + intros o' k' E. destruct (i_acc _ HI _ _ E) as (y & ? & ? & ? & ? & ?). eauto.
    + by rewrite app_nil_r.
    + by constructor.
    + apply nomade_nil.
    + pose proof (i_pc _ HI) as HP. unfold pcok in *. rewrite H in HP. cbn. tauto.
  - eapply (I_neutral s _ []); try done.
    + apply (i_nacs _ HI).
    + intros o' k' E. destruct (i_acc _ HI _ _ E) as (y & ? & ? & ? & ? & ?). eauto.
    + by rewrite app_nil_r.
    + by constructor.
    + apply nomade_nil.
    + pose proof (i_pc _ HI) as HP. unfold pcok in *. rewrite H in HP. cbn. tauto.
  - eapply (I_neutral s _ []); try done.
    + apply (i_nacs _ HI).
    + intros o' k' E. destruct (i_acc _ HI _ _ E) as (y & ? & ? & ? & ? & ?). eauto.
    + by rewrite app_nil_r.
    + by constructor.
    + apply nomade_nil.
  - (* list *) assert (Hc : sr (list_rw x) = sr x /\ sw (list_rw x) = sw x /\ kd (list_rw x) = kd x /\ acs (list_rw x) = acs x) by (unfold list_rw; by destruct (loc x)). destruct Hc as (C1 & C2 & C3 & C4).
    eapply (I_neutral s _ []); try done.
    + cbn. by eapply core_put.
    + cbn. intros o' y [[_ <-]|[_ E]]%lookup_insert_Some; [rewrite C3, C4|]; (eapply (i_nacs _ HI); eassumption).
    + intros o' k' E. destruct (i_acc _ HI _ _ E) as (y & Ey & ? & ? & ? & ?). cbn. destruct (decide (o' = o)) as [->|Hne]; [|exists y; by rewrite lookup_insert_ne].
      exists (list_rw x). rewrite lookup_insert. split; [done|]. congruence.
    + by rewrite app_nil_r.
    + by constructor.
    + apply nomade_nil.
  - (* tmo *) eapply (I_neutral s _ [OTmo (rqo x R)]); try done.
    + apply (i_nacs _ HI).
    + intros o' k' E. destruct (i_acc _ HI _ _ E) as (y & ? & ? & ? & ? & ?). eauto.
    + by repeat constructor.
    + by apply nomade1.
    + eapply (pcok_mono s); [done| |apply (i_pc _ HI)]. intros o' y d Ey Hb. by exists y.
  - (* shut *) eapply (I_neutral s _ [OShut o]); try done.
    + cbn. by eapply core_put.
    + cbn. intros o' y [[_ <-]|[_ E]]%lookup_insert_Some; [cbn|]; (eapply (i_nacs _ HI); eassumption).
    + intros o' k' E. cbn in E. congruence.
    + by repeat constructor.
    + by apply nomade1.
    + unfold pcok. cbn. by rewrite H1.
Qed.
Lemma val_init a : val init a = None.
Proof. by destruct a. Qed.
Lemma I_init : I init.
Proof.
  apply I_intro.
  - constructor.
    + intros a b k. by rewrite val_init.
    + intros k. split; [intros (a & E); by rewrite val_init in E|]. intros [H _]. by apply nomade_nil in H.
    + intros k. cbn. lia.
    + intros k H. by apply nomade_nil in H.
    + intros k H. by destruct H.
  - constructor; [constructor|]. intros o d k. cbn. by rewrite elem_of_nil.
  - done.
  - intros o d k. by rewrite val_init.
  - done.
  - intros k. cbn. set_solver.
  - constructor.
  - done.
Qed.
