(** One word of the kernel per operation; the order of [next]; the invariant of reachable states. *)
From Verif Require Export IocpProof9.
Local Open Scope Z_scope.

Record Kn (s : sys) : Prop := {
  n_one : forall k, (kerns (hist s) k <= 1)%nat;
  n_made : forall k, kerns (hist s) k <> 0%nat -> made (hist s) k;
  n_pend : forall p, p ∈ pend s -> kerns (hist s) p.2 = 0%nat;
  n_acc : forall o k, acc s = Some (o, k) -> kerns (hist s) k = 0%nat;
  n_ns : forall k, ONoStart k ∈ hist s -> answers (hist s) k <> 0%nat /\ kerns (hist s) k = 0%nat }.
Definition nokern (l : list obs) : Prop := Forall (λ e, match e with OKern _ _ | ONoStart _ => False | _ => True end) l.
Lemma nokern_kerns l k : nokern l -> kerns l k = 0%nat.
Proof. induction 1 as [|e l He Hl IH]; [done|]. unfold kerns in *. rewrite filter_cons. destruct (decide _); [|done]. by destruct e. Qed.
Lemma nokern_ns l k : nokern l -> ONoStart k ∉ l.
Proof. intros H Hi. by apply (proj1 (Forall_forall _ _) H) in Hi. Qed.
Lemma Kn_neutral s s' l : Kn s -> hist s' = hist s ++ l -> nokern l ->
  (forall p, p ∈ pend s' -> p ∈ pend s \/ kerns (hist s) p.2 = 0%nat) -> (forall o k, acc s' = Some (o, k) -> acc s = Some (o, k) \/ kerns (hist s) k = 0%nat) -> Kn s'.
Proof.
  intros [H1 H2 H3 H4 H5] Eh Hl Hp Ha.
  assert (Hk : forall k, kerns (hist s') k = kerns (hist s) k) by (intros k; rewrite Eh, kerns_app, (nokern_kerns l k Hl); lia).
  constructor.
  - intros k. by rewrite Hk.
  - intros k. rewrite Hk, Eh, made_app. eauto.
  - intros p Hi. rewrite Hk. destruct (Hp p Hi); eauto.
  - intros o k E. rewrite Hk. destruct (Ha o k E); eauto.
  - intros k. rewrite Hk, Eh, elem_of_app, answers_app. intros [H|H]; [|by apply nokern_ns in H]. destruct (H5 k H). split; [lia|done].
Qed.
Lemma nx_kern s : I s -> Kn s -> kerns (hist s) (nx s) = 0%nat.
Proof. intros HI HN. destruct (decide (kerns (hist s) (nx s) = 0%nat)) as [|H]; [done|]. apply (n_made _ HN), (k_lt _ _ _ (i_k _ HI)) in H. lia. Qed.
Lemma flight_val s o d k : flight s o d = Some k -> val s (HS o d) = Some k.
Proof. unfold flight. cbn. destruct (objs s !! o) as [x|]; [|done]. destruct (bz (sid x d)) eqn:E; [|done]. by destruct (f2 (sid x d)). Qed.
Lemma pend_val s o d k : I s -> (o, d, k) ∈ pend s ++ cops (cq s) -> val s (HS o d) = Some k.
Proof. intros HI H. apply flight_val. by apply (p_el _ _ (i_p _ HI)). Qed.
Lemma pend_ids s : I s -> NoDup (pend s).*2.
Proof.
  intros HI. apply NoDup_fmap_2_strong.
  - intros [[o d] k] [[o' d'] k'] H1 H2 E. cbn in E. subst k'.
    assert (E1 : val s (HS o d) = Some k) by (apply pend_val; [done|apply elem_of_app; by left]).
    assert (E2 : val s (HS o' d') = Some k) by (apply pend_val; [done|apply elem_of_app; by left]).
    pose proof (k_inj _ _ _ (i_k _ HI) _ _ _ E1 E2) as [= -> ->]. done.
  - pose proof (p_nd _ _ (i_p _ HI)) as H. rewrite fmap_app in H. apply NoDup_app in H as [H _]. by apply NoDup_fmap_1 in H.
Qed.
Lemma acc_val s o k : I s -> acc s = Some (o, k) -> val s (HS o R) = Some k /\ flight s o R = None.
Proof.
  intros HI E. destruct (i_acc _ HI _ _ E) as (x & Eo & Ek & Eb & Er & _). unfold flight. cbn. rewrite Eo, Eb. cbn. unfold accp. rewrite E, bool_decide_true by done. unfold rqo. rewrite decide_True by done. by rewrite Er.
Qed.
Lemma Kn_tr s s' : I s -> V s -> Kn s -> tr s s' -> Kn s'.
Proof.
  intros HI HV HN T. pose proof (nx_kern _ HI HN) as Hx.
  destruct T; try (eapply (Kn_neutral s); [exact HN|reflexivity|by repeat constructor|by eauto|by eauto]); try (eapply (Kn_neutral s _ []); [exact HN|cbn; by rewrite app_nil_r|by repeat constructor|by eauto|by eauto]).
  - eapply (Kn_neutral s); [exact HN|done| |by eauto|by eauto]. subst l. destruct (acs x); repeat constructor.
  - eapply (Kn_neutral s); [exact HN|done|by repeat constructor| |by eauto]. cbn. intros p. rewrite elem_of_app, elem_of_list_singleton. intros [?| ->]; auto.
  - (* fail *)
    assert (Hk : forall k, kerns (hist s ++ [OMade (nx s) o c; ONoStart (nx s); a]) k = kerns (hist s) k).
    { intros k. rewrite kerns_app. destruct H4 as [-> | ->]; apply Nat.add_0_r. }
    destruct HN as [N1 N2 N3 N4 N5]. constructor; cbn [hist log pend acc s_nx put s_objs].
    + intros k. by rewrite Hk.
    + intros k. rewrite Hk, made_app. eauto.
    + intros p. rewrite Hk. eauto.
    + intros q k. rewrite Hk. eauto.
    + intros k. rewrite Hk, elem_of_app. intros [H5|H5].
      * rewrite answers_app. destruct (N5 _ H5). split; [lia|done].
      * assert (k = nx s) as ->. { apply elem_of_cons in H5 as [?|H5]; [done|]. apply elem_of_cons in H5 as [[= ->]|H5]; [done|]. apply elem_of_list_singleton in H5. destruct H4; congruence. }
        split; [|done]. eapply (ans_in _ _ a); [apply elem_of_app; right; set_solver|]. destruct H4 as [-> | ->]; cbn; by rewrite bool_decide_true.
  - eapply (Kn_neutral s); [exact HN|done|by repeat constructor|by eauto|]. cbn. intros q k [= <- <-]. by right.
  - eapply (Kn_neutral s); [exact HN|done|by repeat constructor| |done]. cbn. intros p. rewrite elem_of_app, elem_of_list_singleton. intros [?| ->]; [by left|]. right. by apply (n_acc _ HN o).
  - eapply (Kn_neutral s); [exact HN|done| |by eauto|by eauto]. subst l. destruct (acs x); [destruct g|]; repeat constructor.
  - (* kern *)
    assert (Hk : forall k, kerns (hist s ++ [OKern p.2 v]) k = (kerns (hist s) k + if decide (k = p.2) then 1 else 0)%nat).
    { intros k. rewrite kerns_app. f_equal. unfold kerns. rewrite filter_cons, filter_nil. cbn [is_kern]. destruct (decide (k = p.2)) as [->|Hne]; [by rewrite bool_decide_true|by rewrite bool_decide_false by congruence]. }
    assert (Hpin : p ∈ pend s) by by eapply elem_of_list_lookup_2. destruct p as [[o d] j]. cbn [snd] in *.
    assert (Hval : val s (HS o d) = Some j) by (apply pend_val; [done|apply elem_of_app; by left]).
    pose proof HN as [N1 N2 N3 N4 N5]. constructor; cbn [hist log pend acc s_cq s_pend].
    + intros k. rewrite Hk. destruct (decide (k = j)) as [->|]; [|pose proof (N1 k); lia]. pose proof (N3 _ Hpin) as E. cbn in E. lia.
    + intros k. rewrite Hk, made_app. destruct (decide (k = j)) as [->|]; [|rewrite Nat.add_0_r; eauto]. intros _. left. apply (k_open _ _ _ (i_k _ HI)). eauto.
    + intros p' Hp'. rewrite Hk. assert (Hp'2 : p' ∈ pend s) by (rewrite (delete_Permutation (pend s) i _ H); by right). rewrite (N3 _ Hp'2). rewrite decide_False; [done|]. intros E.
      pose proof (pend_ids _ HI) as Hnd. rewrite (delete_Permutation (pend s) i _ H) in Hnd. cbn in Hnd. apply NoDup_cons in Hnd as [Hnd _]. apply Hnd. apply elem_of_list_fmap. by exists p'.
    + intros q k E. rewrite Hk, (N4 _ _ E). rewrite decide_False; [done|]. intros ->. destruct (acc_val _ _ _ HI E) as [Ev Ef].
      pose proof (k_inj _ _ _ (i_k _ HI) _ _ _ Ev Hval) as [= -> <-]. assert (flight s o R = Some j) by (apply (p_el _ _ (i_p _ HI)); apply elem_of_app; by left). congruence.
    + intros k. rewrite Hk, answers_app, elem_of_app, elem_of_list_singleton. intros [H5|?]; [|done]. destruct (N5 _ H5) as [Na Nk]. split; [lia|]. rewrite Nk, decide_False; [done|]. intros ->.
      assert (unanswered (hist s) j) as [_ ?] by (apply (k_open _ _ _ (i_k _ HI)); eauto). done.
Qed.
Lemma Kn_init : Kn init.
Proof.
  constructor.
  - intros k. cbn. lia.
  - intros k H. by destruct H.
  - intros p H. done.
  - done.
  - intros k H. by apply elem_of_nil in H.
Qed.

(** ** the order of [next] *)
Definition F (s : sys) : Prop := posts (hist s) = next_cbs (hist s) ++ nexts (cq s).
Lemma posts_in h k : k ∈ posts h <-> exists v, OPost k v ∈ h /\ ODrop k ∉ h.
Proof.
  unfold posts. rewrite elem_of_list_omap. split.
  - intros (e & He & E). destruct e; try done. destruct (decide _); [done|]. injection E as <-. eauto.
  - intros (v & H & Hd). exists (OPost k v). split; [done|]. by rewrite decide_False.
Qed.
Lemma posts_made h k : k ∈ posts h -> made h k.
Proof. intros (v & H & _)%posts_in. right. eauto. Qed.
Lemma omap_ext' {A B} (f g : A -> option B) (l : list A) : (forall x, x ∈ l -> f x = g x) -> omap f l = omap g l.
Proof. induction l as [|x l IH]; [done|]. intros H. cbn. rewrite (H x) by left. rewrite IH by (intros y Hy; apply H; by right). done. Qed.
Lemma posts_app h l : (forall k, ODrop k ∈ l -> ~ made h k) ->
  posts (h ++ l) = posts h ++ omap (λ e, match e with OPost k _ => if decide (ODrop k ∈ h ++ l) then None else Some k | _ => None end) l.
Proof.
  intros H. unfold posts. rewrite omap_app. f_equal. apply omap_ext'. intros e He. destruct e; try done.
  destruct (decide (ODrop k ∈ h)) as [Hd|Hd]; [by rewrite decide_True by (apply elem_of_app; by left)|]. rewrite decide_False; [done|]. rewrite elem_of_app. intros [?|Hl]; [done|].
  apply (H k Hl). right. eauto.
Qed.
Lemma next_cbs_app h l q : posts (h ++ l) = posts h ++ q -> (forall k, k ∈ q -> answers h k = 0%nat) ->
  next_cbs (h ++ l) = next_cbs h ++ omap (λ e, match e with OCb k _ => if decide (k ∈ posts h ++ q) then Some k else None | _ => None end) l.
Proof.
  intros E Hq. unfold next_cbs. rewrite omap_app, E. f_equal. apply omap_ext'. intros e He. destruct e as [| | | |k v| | | | | | | | | |]; try done.
  destruct (decide (k ∈ posts h)) as [Hd|Hd]; [by rewrite decide_True by (apply elem_of_app; by left)|]. rewrite decide_False; [done|]. rewrite elem_of_app. intros [?|Hl]; [done|].
  apply Hq in Hl. eapply (ans_in h k (OCb k v)); [done|cbn; by rewrite bool_decide_true|done].
Qed.
(** nothing posted or dropped, no callback of [next] *)
Definition noF (h l : list obs) : Prop := Forall (λ e, match e with OPost _ _ | ODrop _ => False | OCb k _ => k ∉ posts h | _ => True end) l.
Lemma omap_nil' {A B} (f : A -> option B) (l : list A) : (forall x, x ∈ l -> f x = None) -> omap f l = [].
Proof. induction l as [|x l IH]; [done|]. intros H. cbn. rewrite (H x) by left. apply IH. intros y Hy. apply H. by right. Qed.
Lemma F_neutral s s' l : F s -> hist s' = hist s ++ l -> noF (hist s) l -> nexts (cq s') = nexts (cq s) -> F s'.
Proof.
  unfold F. intros HF Eh Hl En. rewrite Eh, En. pose proof (proj1 (Forall_forall _ _) Hl) as Hl'.
  assert (E : posts (hist s ++ l) = posts (hist s) ++ []).
  { rewrite posts_app.
    - f_equal. apply omap_nil'. intros e He%Hl'. by destruct e.
    - intros k Hk. by apply Hl' in Hk. }
  rewrite (next_cbs_app _ _ [] E) by (intros k; by rewrite elem_of_nil).
  rewrite E, app_nil_r. rewrite (omap_nil' _ l), app_nil_r; [done|]. intros e He%Hl'. destruct e; try done. by rewrite decide_False.
Qed.
Lemma not_post s k o c : V s -> OMade k o c ∈ hist s -> k ∉ posts (hist s).
Proof.
  intros HV H (v & Hp & _)%posts_in. pose proof (two_in _ _ _ _ (v_one _ HV k) H Hp) as E. cbn in E. rewrite bool_decide_true in E by done. by specialize (E eq_refl eq_refl).
Qed.
Lemma dropped s k : I s -> ODrop k ∈ hist s -> made (hist s) k.
Proof. intros HI H. apply (k_open _ _ _ (i_k _ HI)). exists (HD k). cbn. by rewrite decide_True. Qed.
Lemma nx_post s : I s -> nx s ∉ posts (hist s).
Proof. intros HI H%posts_made%(k_lt _ _ _ (i_k _ HI)). lia. Qed.
Lemma nx_ans s : I s -> answers (hist s) (nx s) = 0%nat.
Proof. intros HI. destruct (decide (answers (hist s) (nx s) = 0%nat)) as [|H]; [done|]. apply (k_ans _ _ _ (i_k _ HI)), (k_lt _ _ _ (i_k _ HI)) in H. lia. Qed.
Lemma F_tr s s' : I s -> V s -> F s -> tr s s' -> F s'.
Proof.
  intros HI HV HF T. pose proof (nx_post _ HI) as Hx.
  destruct T; try (eapply (F_neutral s); [exact HF|reflexivity|by repeat constructor|reflexivity]); try (eapply (F_neutral s _ []); [exact HF|cbn; by rewrite app_nil_r|by constructor|reflexivity]).
  - eapply (F_neutral s); [exact HF|done| |done]. subst l. destruct (acs x); repeat constructor.
  - eapply (F_neutral s); [exact HF|done| |done]. destruct H4 as [-> | ->]; repeat constructor; done.
  - eapply (F_neutral s); [exact HF|done| |done]. subst l. destruct (acs x); [destruct g|]; repeat constructor.
  - (* post *) assert (E : posts (hist s ++ [OPost (nx s) v]) = posts (hist s) ++ [nx s]).
    { rewrite posts_app; [|intros k; by rewrite elem_of_list_singleton]. cbn [omap list_omap]. rewrite decide_False; [done|]. rewrite elem_of_app, elem_of_list_singleton. intros [H|?]; [|done].
      apply (dropped _ _ HI), (k_lt _ _ _ (i_k _ HI)) in H. lia. }
    unfold F. cbn [hist log cq s_nx s_cq s_heap]. rewrite (next_cbs_app _ _ _ E), E, nexts_app. 2: { intros k. rewrite elem_of_list_singleton. intros ->. by apply nx_ans. }
    cbn. rewrite app_nil_r, app_assoc. by rewrite <- HF.
  - (* drop *) assert (E : posts (hist s ++ [OPost (nx s) v; ODrop (nx s)]) = posts (hist s) ++ []).
    { rewrite posts_app. - cbn [omap list_omap]. rewrite decide_True; [done|]. apply elem_of_app. right. set_solver.
      - intros k Hk. assert (k = nx s) as -> by set_solver. intros H%(k_lt _ _ _ (i_k _ HI)). lia. }
    unfold F. cbn [hist log cq s_nx]. rewrite (next_cbs_app _ _ _ E), E by (intros k; by rewrite elem_of_nil). cbn. rewrite !app_nil_r. done.
  - eapply (F_neutral s); [exact HF|done|by repeat constructor|]. cbn. rewrite nexts_app. cbn. by rewrite app_nil_r.
  - (* hop *) assert (Hv : val s (HS o d) = Some k). { apply pend_val; [done|]. rewrite H. cbn. apply elem_of_app. right. left. }
    assert (Ek : rqo x d = k). { rewrite (val_at s o x d H0), H1 in Hv. cbn in Hv. congruence. }
    destruct (i_made _ HI _ _ _ Hv) as (c & _ & Hm). eapply (F_neutral s); [exact HF|done| |cbn; by rewrite H]. repeat constructor. rewrite Ek. by eapply not_post.
  - (* hnext *) assert (Hin : k ∈ posts (hist s)) by (rewrite HF, H; cbn; apply elem_of_app; right; left).
    assert (E : posts (hist s ++ [OCb k v]) = posts (hist s) ++ []). { rewrite posts_app; [done|]. intros j. by rewrite elem_of_list_singleton. }
    unfold F in *. cbn [hist log cq s_heap s_cq]. rewrite (next_cbs_app _ _ _ E), E by (intros j; by rewrite elem_of_nil). cbn [omap list_omap]. rewrite app_nil_r, decide_True by done.
    rewrite HF, H. cbn. by rewrite <- app_assoc.
  - (* evW *) assert (Hw : f2 (sw x) = true). { pose proof (i_pc _ HI) as HP. unfold pcok in HP. rewrite H0 in HP. destruct HP as (_ & _ & _ & HP). destruct (HP eq_refl) as (y & Ey & _ & ?). assert (y = x) as -> by congruence. done. }
    eapply (F_neutral s); [exact HF|done| |done]. repeat constructor. eapply not_post; [done|]. by apply (v_f2 _ HV o x W).
  - assert (Hw : f2 (sr x) = true). { pose proof (i_pc _ HI) as HP. unfold pcok in HP. rewrite H0 in HP. destruct HP as (_ & _ & HP). destruct (HP eq_refl) as (y & Ey & _ & ?). assert (y = x) as -> by congruence. done. }
    eapply (F_neutral s); [exact HF|done| |done]. repeat constructor. eapply not_post; [done|]. by apply (v_f2 _ HV o x R).
Qed.

(** ** all reachable states *)
Record Inv (s : sys) : Prop := { inv_i : I s; inv_s : Sk s; inv_l : L s; inv_v : V s; inv_n : Kn s; inv_f : F s }.
Lemma Inv_init : Inv init.
Proof. constructor; [apply I_init|apply Sk_init|apply L_init|apply V_init|apply Kn_init|done]. Qed.
Lemma Inv_tr s s' : Inv s -> tr s s' -> Inv s'.
Proof.
  intros [H1 H2 H3 H4 H5 H6] T. constructor; [by eapply I_tr|by eapply Sk_tr|by eapply L_tr|by eapply V_tr|by eapply Kn_tr|by eapply F_tr].
Qed.
Lemma Inv_rtc s s' : rtc tr s s' -> Inv s -> Inv s'.
Proof. induction 1 as [|s t u T _ IH]; [done|]. intros HI. apply IH. by eapply Inv_tr. Qed.
Lemma Inv_step s e s' u : Inv s -> duty s e -> step s e = Ok s' u -> Inv s'.
Proof. intros HI HD E. eapply Inv_rtc; [|done]. eapply step_tr; [apply HI|apply HI|done|done]. Qed.
Lemma Inv_run es s s' os : Inv s -> keeps s es -> run step s es = Ok s' os -> Inv s'.
Proof.
  revert s os. induction es as [|e es IH]; intros s os HI HK E; cbn in E; [by injection E as <- _|]. destruct HK as [HD HK].
  destruct (step s e) as [| |t u] eqn:Es; try done. destruct (run step t es) as [| |t' os'] eqn:Er; try done. injection E as -> _. eapply IH; [by eapply Inv_step|done|done].
Qed.
Lemma Inv_reach s : reach s -> Inv s.
Proof. intros (es & os & HK & E). eapply Inv_run; [apply Inv_init|done|done]. Qed.
