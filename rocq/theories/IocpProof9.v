(** The values handed to callbacks of the Windows backend, and the order of [next]. *)
From Verif Require Export IocpProof8.
Local Open Scope Z_scope.

Definition isnext (c : call) : bool := match c with CNextR | CNextW => true | _ => false end.
Definition is_made (k : nat) (e : obs) : bool := match e with OMade j _ _ | OPost j _ => bool_decide (j = k) | _ => false end.
Definition mades (h : list obs) (k : nat) : nat := length (filter (λ e, is_made k e = true) h).
Lemma mades_app h1 h2 k : mades (h1 ++ h2) k = (mades h1 k + mades h2 k)%nat.
Proof. unfold mades. by rewrite filter_app, app_length. Qed.
Lemma made_mades h k : made h k <-> mades h k <> 0%nat.
Proof.
  unfold mades. split.
  - intros H E. apply nil_length_inv in E. destruct H as [(o & c & H)|(v & H)].
    + assert (OMade k o c ∈ filter (λ e, is_made k e = true) h) as Hx by (apply elem_of_list_filter; cbn; by rewrite bool_decide_true). rewrite E in Hx. by apply elem_of_nil in Hx.
    + assert (OPost k v ∈ filter (λ e, is_made k e = true) h) as Hx by (apply elem_of_list_filter; cbn; by rewrite bool_decide_true). rewrite E in Hx. by apply elem_of_nil in Hx.
  - intros H. destruct (filter (λ e, is_made k e = true) h) as [|e l] eqn:E; [done|]. assert (e ∈ e :: l) as Hx by left. rewrite <- E in Hx. apply elem_of_list_filter in Hx as [Hp He].
    destruct e; try done; cbn in Hp; apply bool_decide_eq_true in Hp as ->; [left|right]; eauto.
Qed.
Lemma two_in {A} (P : A -> Prop) `{!forall x, Decision (P x)} (l : list A) x y : (length (filter P l) <= 1)%nat -> x ∈ l -> y ∈ l -> P x -> P y -> x = y.
Proof.
  intros Hl Hx Hy Px Py. assert (x ∈ filter P l) as Fx by by apply elem_of_list_filter. assert (y ∈ filter P l) as Fy by by apply elem_of_list_filter.
  destruct (filter P l) as [|a [|b m]]; [by apply elem_of_nil in Fx| |cbn in Hl; lia]. apply elem_of_list_singleton in Fx, Fy. congruence.
Qed.
Lemma kern_in h k v : OKern k v ∈ h -> kerns h k <> 0%nat.
Proof.
  intros H E. unfold kerns in E. apply nil_length_inv in E. assert (OKern k v ∈ filter (λ e, is_kern k e = true) h) as Hx by (apply elem_of_list_filter; cbn; by rewrite bool_decide_true).
  rewrite E in Hx. by apply elem_of_nil in Hx.
Qed.
Lemma ans_in h k e : e ∈ h -> is_ans k e = true -> answers h k <> 0%nat.
Proof. intros H He E. unfold answers in E. apply nil_length_inv in E. assert (e ∈ filter (λ e, is_ans k e = true) h) as Hx by by apply elem_of_list_filter. rewrite E in Hx. by apply elem_of_nil in Hx. Qed.

(** what a callback may be called with *)
Definition okcb (h : list obs) (k : nat) (v : Z) : Prop :=
  (exists o c w, OMade k o c ∈ h /\ isnext c = false /\ OKern k w ∈ h /\ v = got w) \/
  (exists o c, OMade k o c ∈ h /\ isnext c = false /\ ONoStart k ∈ h /\ v = -1) \/
  (exists o d, OMade k o (nextc d) ∈ h /\ v = 0) \/ OPost k v ∈ h.
Lemma okcb_mono h h' k v : h ⊆ h' -> okcb h k v -> okcb h' k v.
Proof. intros Hs [(o & c & w & ?)|[(o & c & ?)|[(o & d & ?)|?]]]; [left|right;left|right;right;left|right;right;right]; naive_solver. Qed.
Record V (s : sys) : Prop := {
  v_one : forall k, (mades (hist s) k <= 1)%nat;
  v_kop : forall p v, KOp p v ∈ cq s -> OKern (p.2) v ∈ hist s;
  v_nx : forall k v, KNext k v ∈ cq s -> OPost k v ∈ hist s;
  v_f2 : forall o x d, objs s !! o = Some x -> f2 (sid x d) = true -> OMade (rq (sid x d)) o (nextc d) ∈ hist s;
  v_op : forall o d k, (o, d, k) ∈ pend s ++ cops (cq s) -> exists c, OMade k o c ∈ hist s /\ cside c = d /\ isnext c = false;
  v_acc : forall o k, acc s = Some (o, k) -> OMade k o CAccept ∈ hist s;
  v_cb : forall k v, OCb k v ∈ hist s -> okcb (hist s) k v;
  v_fail : forall k, OFail k ∈ hist s -> ONoStart k ∈ hist s \/ exists o, OMade k o CAccept ∈ hist s /\ OStop o ∈ hist s;
  v_srv : forall o x, objs s !! o = Some x -> srv x = false -> OStop o ∈ hist s;
  v_drop : forall k, ODrop k ∈ hist s -> exists v, OPost k v ∈ hist s }.

Lemma V_intro s s' l : V s -> hist s' = hist s ++ l -> (forall k, (mades l k <= if decide (k = nx s) then 1 else 0)%nat) -> mades (hist s) (nx s) = 0%nat ->
  (forall p v, KOp p v ∈ cq s' -> KOp p v ∈ cq s \/ OKern (p.2) v ∈ l) ->
  (forall k v, KNext k v ∈ cq s' -> KNext k v ∈ cq s \/ OPost k v ∈ l) ->
  (forall o x d, objs s' !! o = Some x -> f2 (sid x d) = true -> (exists y, objs s !! o = Some y /\ sid x d = sid y d) \/ OMade (rq (sid x d)) o (nextc d) ∈ l) ->
  (forall o d k, (o, d, k) ∈ pend s' ++ cops (cq s') -> (o, d, k) ∈ pend s ++ cops (cq s) \/ exists c, OMade k o c ∈ hist s' /\ cside c = d /\ isnext c = false) ->
  (forall o k, acc s' = Some (o, k) -> acc s = Some (o, k) \/ OMade k o CAccept ∈ l) ->
  (forall k v, OCb k v ∈ l -> okcb (hist s') k v) ->
  (forall k, OFail k ∈ l -> ONoStart k ∈ hist s' \/ exists o, OMade k o CAccept ∈ hist s' /\ OStop o ∈ hist s') ->
  (forall o x, objs s' !! o = Some x -> srv x = false -> (exists y, objs s !! o = Some y /\ srv y = false) \/ OStop o ∈ l) ->
  (forall k, ODrop k ∈ l -> exists v, OPost k v ∈ hist s') -> V s'.
Proof.
  intros HV Eh H1 H0 H2 H3 H4 H5 H6 H7 H8 H9 H10. assert (Hs : hist s ⊆ hist s') by (rewrite Eh; set_solver). assert (Hl : l ⊆ hist s') by (rewrite Eh; set_solver).
  constructor.
  - intros k. rewrite Eh, mades_app. pose proof (H1 k). pose proof (v_one _ HV k). destruct (decide (k = nx s)) as [->|]; lia.
  - intros p v H. destruct (H2 _ _ H) as [Hx|Hx]; [apply Hs; by apply (v_kop _ HV)|by apply Hl].
  - intros k v H. destruct (H3 _ _ H) as [Hx|Hx]; [apply Hs; by apply (v_nx _ HV)|by apply Hl].
  - intros o x d E Hf. destruct (H4 _ _ _ E Hf) as [(y & Ey & Es)|Hx]; [|by apply Hl]. rewrite Es. apply Hs. apply (v_f2 _ HV); [done|]. by rewrite <- Es.
  - intros o d k H. destruct (H5 _ _ _ H) as [Hx|Hx]; [|done]. destruct (v_op _ HV _ _ _ Hx) as (c & ? & ?). exists c. split; [by apply Hs|done].
  - intros o k H. destruct (H6 _ _ H) as [Hx|Hx]; [apply Hs; by apply (v_acc _ HV)|by apply Hl].
  - intros k v. rewrite Eh, elem_of_app. rewrite <- Eh. intros [H|H]; [|by apply H7]. eapply okcb_mono; [exact Hs|]. by apply (v_cb _ HV).
  - intros k. rewrite Eh, elem_of_app. rewrite <- Eh. intros [H|H]; [|by apply H8]. destruct (v_fail _ HV _ H) as [?|(o & ? & ?)]; [left; by apply Hs|right; exists o; split; by apply Hs].
  - intros o x E Hf. destruct (H9 _ _ E Hf) as [(y & Ey & Es)|Hx]; [|by apply Hl]. apply Hs. by eapply (v_srv _ HV).
  - intros k. rewrite Eh, elem_of_app. intros [H|H]; [destruct (v_drop _ HV _ H) as (v & ?); exists v; apply elem_of_app; by left|]. rewrite <- Eh. by apply H10.
Qed.
Lemma mades1 e k : mades [e] k = if is_made k e then 1%nat else 0%nat.
Proof. unfold mades. rewrite filter_cons, filter_nil. by destruct (is_made k e). Qed.
Lemma mades_cons e l k : mades (e :: l) k = ((if is_made k e then 1 else 0) + mades l k)%nat.
Proof. change (e :: l) with ([e] ++ l). by rewrite mades_app, mades1. Qed.
Lemma bd_eq (k n : nat) : (if bool_decide (n = k) then 1 else 0)%nat = (if decide (k = n) then 1 else 0)%nat.
Proof. destruct (decide (k = n)) as [->|]; [by rewrite bool_decide_true|]. by rewrite bool_decide_false by done. Qed.
Ltac md := intros ?; repeat rewrite mades_cons; cbn [is_made mades filter list_filter length]; rewrite ?bd_eq; cbn; destruct (decide _); lia.
Lemma f2_put s o x x' (l : list obs) :
  objs s !! o = Some x -> (forall d, f2 (sid x' d) = true -> sid x' d = sid x d \/ OMade (rq (sid x' d)) o (nextc d) ∈ l) ->
  forall q y d, <[o:=x']> (objs s) !! q = Some y -> f2 (sid y d) = true -> (exists z, objs s !! q = Some z /\ sid y d = sid z d) \/ OMade (rq (sid y d)) q (nextc d) ∈ l.
Proof. intros E H q y d [[<- <-]|[Hne Eq]]%lookup_insert_Some Hf; [|eauto]. destruct (H d Hf); eauto. Qed.
Lemma f2_id s (l : list obs) : forall q y d, objs s !! q = Some y -> f2 (sid y d) = true -> (exists z, objs s !! q = Some z /\ sid y d = sid z d) \/ OMade (rq (sid y d)) q (nextc d) ∈ l.
Proof. eauto. Qed.
Lemma nx_fresh s : I s -> mades (hist s) (nx s) = 0%nat.
Proof. intros HI. destruct (decide (mades (hist s) (nx s) = 0%nat)) as [|H]; [done|]. apply made_mades, (k_lt _ _ _ (i_k _ HI)) in H. lia. Qed.

Lemma srv_put s o x x' (l : list obs) : objs s !! o = Some x -> srv x' = srv x ->
  forall q y, <[o:=x']> (objs s) !! q = Some y -> srv y = false -> (exists z, objs s !! q = Some z /\ srv z = false) \/ OStop q ∈ l.
Proof. intros E H q y [[<- <-]|[Hne Eq]]%lookup_insert_Some Hf; [|eauto]. left. exists x. split; [done|]. congruence. Qed.
Lemma srv_sid x d y : srv (set_sid x d y) = srv x.
Proof. by destruct d. Qed.
Ltac sv s := cbn; first [solve [eauto 5] | solve [intros ? ? [_ ?]%lookup_delete_Some; eauto] | solve [intros ? ? [[<- <-]|[? ?]]%lookup_insert_Some ?; [done|eauto]]
  | solve [eapply (srv_put s); [eassumption|unfold upd_side, list_rw; cbn; rewrite ?srv_sid; repeat case_match; done]]].
Ltac nd := let H := fresh in intros ? H; subst; repeat case_match; subst; rewrite ?elem_of_cons, ?elem_of_nil in H; destruct_or?; try done; naive_solver.
Lemma V_tr s s' : I s -> V s -> tr s s' -> V s'.
Proof.
  intros HI HV T. pose proof (nx_fresh _ HI) as Hf. destruct T.
  - eapply (V_intro s); [done|done|md|done|eauto|eauto| |eauto|eauto|intros ? ?; by rewrite elem_of_list_singleton|intros ?; by rewrite elem_of_list_singleton|sv s|nd].
    cbn. intros q y d [[<- <-]|[Hne Eq]]%lookup_insert_Some Hd; [by destruct d|eauto].
  - eapply (V_intro s); [done|done| |done|eauto|eauto| |eauto|eauto| | |sv s|nd].
    + subst l. destruct (acs x); md.
    + cbn. intros q y d [_ E]%lookup_delete_Some Hd. eauto.
    + intros k v. subst l. destruct (acs x); rewrite !elem_of_cons, elem_of_nil; naive_solver.
    + intros k. subst l. destruct (acs x); rewrite !elem_of_cons, elem_of_nil; naive_solver.
  - eapply (V_intro s); [done|done|md|done|eauto|eauto| | |eauto|intros ? ?; by rewrite elem_of_list_singleton|intros ?; by rewrite elem_of_list_singleton|sv s|nd].
    + eapply f2_put; [done|]. intros d. destruct (dir_cases (cside c) d) as [->| ->]; [by destruct c|]. unfold upd_side. intros _. left. by destruct c.
    + cbn. intros q d k. rewrite !elem_of_app, elem_of_list_singleton. intros [[?|[= -> -> ->]]|?]; [tauto| |tauto]. right. exists c. split_and!; [set_solver|done|by destruct c].
  - eapply (V_intro s); [done|done| |done|eauto|eauto| |eauto|eauto| | |sv s|nd].
    + destruct H4 as [-> | ->]; md.
    + eapply f2_put; [done|]. intros d. destruct (dir_cases (cside c) d) as [->| ->]; [by destruct c|]. intros _. left. by destruct c.
    + intros k v. rewrite !elem_of_cons, elem_of_nil. intros [?|[?|[<-|?]]]; try done. destruct H4 as [[= -> ->]|?]; [|done].
      right. left. exists o, c. cbn. split_and!; [set_solver|by destruct c|set_solver|done].
    + intros k. rewrite !elem_of_cons, elem_of_nil. intros [?|[?|[<-|?]]]; try done. destruct H4 as [?|[= ->]]; [done|]. left. cbn. set_solver.
  - eapply (V_intro s); [done|done|md|done|eauto|eauto| |eauto|eauto|intros ? ?; by rewrite elem_of_list_singleton|intros ?; by rewrite elem_of_list_singleton|sv s|nd].
    eapply f2_put; [done|]. intros d'. destruct (dir_cases d d') as [->| ->]; [|left; by destruct d]. intros _. right. destruct d; cbn; set_solver.
  - eapply (V_intro s); [done|done|md|done|eauto|eauto| |eauto|eauto| | |sv s|nd].
    + eapply f2_put; [done|]. intros []; [auto|done].
    + intros k v. rewrite !elem_of_cons, elem_of_nil. naive_solver.
    + intros k. rewrite !elem_of_cons, elem_of_nil. intros [?|[[= ->]|?]]; try done. right. exists o. cbn. split; [set_solver|]. apply elem_of_app. left. by eapply (v_srv _ HV).
  - eapply (V_intro s); [done|done|md|done|eauto|eauto| |eauto| |intros ? ?; by rewrite elem_of_list_singleton|intros ?; by rewrite elem_of_list_singleton|sv s|nd].
    + eapply f2_put; [done|]. intros []; [auto|done].
    + cbn. intros q k [= <- <-]. right. set_solver.
  - (* acc_ok *) eapply (V_intro s); [done|done|md|done|eauto|eauto| | |done|intros ? ?; by rewrite elem_of_list_singleton|intros ?; by rewrite elem_of_list_singleton|sv s|nd].
    + eapply f2_put; [done|]. intros []; [done|auto].
    + cbn. intros q d j. rewrite !elem_of_app, elem_of_list_singleton. intros [[?|[= -> -> ->]]|?]; [tauto| |tauto]. right. exists CAccept. split; [|done]. apply elem_of_app. left. by apply (v_acc _ HV).
  - eapply (V_intro s); [done|done|md|done|eauto|eauto|exact (f2_id s _)|eauto|eauto|intros ? ?; rewrite !elem_of_cons, elem_of_nil; naive_solver|intros ?; rewrite !elem_of_cons, elem_of_nil; naive_solver|sv s|nd].
  - eapply (V_intro s); [done|done|md|done|eauto|eauto|exact (f2_id s _)|eauto|done|intros ? ?; by rewrite elem_of_list_singleton| |sv s|nd].
    intros j. rewrite elem_of_list_singleton. intros [= ->]. right. exists o. cbn. split; apply elem_of_app; left; [by apply (v_acc _ HV)|by eapply (v_srv _ HV)].
  - eapply (V_intro s); [done|done|md|done|eauto|eauto| |eauto|eauto|intros ? ?; by rewrite elem_of_list_singleton|intros ?; by rewrite elem_of_list_singleton| |nd].
    + eapply f2_put; [done|]. intros []; auto.
    + cbn. intros q y [[<- <-]|[Hne Eq]]%lookup_insert_Some Hd; [right; left|eauto].
  - eapply (V_intro s); [done|done| |done|eauto|eauto| |eauto|eauto| | |sv s|nd].
    + subst l. destruct (acs x); [destruct g|]; md.
    + eapply f2_put; [done|]. intros []; auto.
    + intros k v. subst l. destruct (acs x); rewrite ?elem_of_cons, elem_of_nil; destruct g; naive_solver.
    + intros k. subst l. destruct (acs x); rewrite ?elem_of_cons, elem_of_nil; destruct g; naive_solver.
  - (* post *) eapply (V_intro s); [done|done|md|done| | |exact (f2_id s _)| |eauto|intros ? ?; by rewrite elem_of_list_singleton|intros ?; by rewrite elem_of_list_singleton|sv s|nd].
    + cbn. intros p w. rewrite elem_of_app, elem_of_list_singleton. intros [?|?]; [by left|done].
    + cbn. intros k w. rewrite elem_of_app, elem_of_list_singleton. intros [?|[= -> ->]]; [by left|]. right. set_solver.
    + cbn. intros q d k. rewrite cops_app. cbn. rewrite app_nil_r. eauto.
  - eapply (V_intro s); [done|done|md|done|eauto|eauto|exact (f2_id s _)|eauto|eauto|intros ? ?; rewrite !elem_of_cons, elem_of_nil; naive_solver|intros ?; rewrite !elem_of_cons, elem_of_nil; naive_solver|sv s| ].
    intros k. rewrite !elem_of_cons, elem_of_nil. intros [?|[[= ->]|?]]; try done. exists v. cbn. apply elem_of_app. right. left.
  - (* kern *) eapply (V_intro s); [done|done|md|done| | |exact (f2_id s _)| |eauto|intros ? ?; by rewrite elem_of_list_singleton|intros ?; by rewrite elem_of_list_singleton|sv s|nd].
    + cbn. intros p' w. rewrite elem_of_app, elem_of_list_singleton. intros [?|[= -> ->]]; [by left|]. right. set_solver.
    + cbn. intros k w. rewrite elem_of_app, elem_of_list_singleton. intros [?|?]; [by left|done].
    + cbn. intros q d k. rewrite cops_app. cbn. rewrite !elem_of_app, elem_of_list_singleton. intros [Hd|[?|<-]].
      * left. left. rewrite (delete_Permutation (pend s) i p H). by right.
      * left. by right.
      * left. left. by eapply elem_of_list_lookup_2.
  - (* hop *) assert (Hin : (o, d, k) ∈ pend s ++ cops (cq s)) by (rewrite H; cbn; apply elem_of_app; right; left).
    assert (Hk : flight s o d = Some k) by by apply (p_el _ _ (i_p _ HI)). assert (Ek : rqo x d = k). { unfold flight in Hk. rewrite H0, H1, H2 in Hk. cbn in Hk. congruence. }
    eapply (V_intro s); [done|done|md|done| | | | |eauto| |intros ?; by rewrite elem_of_list_singleton|sv s|nd].
    + cbn. intros p w Hp. left. rewrite H. by right.
    + cbn. intros j w Hp. left. rewrite H. by right.
    + eapply (f2_put s); [done|]. intros d'. destruct (dir_cases d d') as [->| ->]; [by destruct d|left; by destruct d].
    + cbn. intros q d' j Hj. left. rewrite H. cbn. apply elem_of_app in Hj as [?|?]; apply elem_of_app; [by left|right; by right].
    + intros j w. rewrite elem_of_list_singleton. intros [= -> ->]. left. destruct (v_op _ HV _ _ _ Hin) as (c & Hc & _ & Hn). exists o, c, v. rewrite Ek. cbn. split_and!; [apply elem_of_app; by left|done| |done].
      apply elem_of_app. left. apply (v_kop _ HV (o, d, k)). rewrite H. left.
  - (* hnext *) eapply (V_intro s); [done|done|md|done| | |exact (f2_id s _)| |eauto| |intros ?; by rewrite elem_of_list_singleton|sv s|nd].
    + cbn. intros p w Hp. left. rewrite H. by right.
    + cbn. intros j w Hp. left. rewrite H. by right.
    + cbn. intros q d' j Hj. left. rewrite H. cbn. done.
    + intros j w. rewrite elem_of_list_singleton. intros [= -> ->]. right. right. right. cbn. apply elem_of_app. left. apply (v_nx _ HV). rewrite H. left.
  - eapply (V_intro s _ []); [done|cbn; by rewrite app_nil_r|md|done|eauto|eauto| |eauto|eauto|intros ? ?; by rewrite elem_of_nil|intros ?; by rewrite elem_of_nil|sv s|nd].
    eapply f2_put; [done|]. intros []; auto.
  - (* evW *) assert (Hw : f2 (sw x) = true). { pose proof (i_pc _ HI) as HP. unfold pcok in HP. rewrite H0 in HP. destruct HP as (_ & _ & _ & HP). destruct (HP eq_refl) as (y & Ey & _ & ?). assert (y = x) as -> by congruence. done. }
    eapply (V_intro s); [done|done|md|done|eauto|eauto| |eauto|eauto| |intros ?; by rewrite elem_of_list_singleton|sv s|nd].
    + eapply f2_put; [done|]. intros []; [auto|done].
    + intros j w. rewrite elem_of_list_singleton. intros [= -> ->]. right. right. left. exists o, W. split; [|done]. cbn. apply elem_of_app. left. by apply (v_f2 _ HV o x W).
  - (* evR *) assert (Hw : f2 (sr x) = true). { pose proof (i_pc _ HI) as HP. unfold pcok in HP. rewrite H0 in HP. destruct HP as (_ & _ & HP). destruct (HP eq_refl) as (y & Ey & _ & ?). assert (y = x) as -> by congruence. done. }
    eapply (V_intro s); [done|done|md|done|eauto|eauto| |eauto|eauto| |intros ?; by rewrite elem_of_list_singleton|sv s|nd].
    + eapply f2_put; [done|]. intros []; [done|auto].
    + intros j v. rewrite elem_of_list_singleton. intros [= -> ->]. right. right. left. exists o, R. split; [|done]. cbn. apply elem_of_app. left. by apply (v_f2 _ HV o x R).
  - eapply (V_intro s _ []); [done|cbn; by rewrite app_nil_r|md|done|eauto|eauto|exact (f2_id s _)|eauto|eauto|intros ? ?; by rewrite elem_of_nil|intros ?; by rewrite elem_of_nil|sv s|nd].
  - eapply (V_intro s _ []); [done|cbn; by rewrite app_nil_r|md|done|eauto|eauto|exact (f2_id s _)|eauto|eauto|intros ? ?; by rewrite elem_of_nil|intros ?; by rewrite elem_of_nil|sv s|nd].
  - eapply (V_intro s _ []); [done|cbn; by rewrite app_nil_r|md|done|eauto|eauto|exact (f2_id s _)|eauto|eauto|intros ? ?; by rewrite elem_of_nil|intros ?; by rewrite elem_of_nil|sv s|nd].
  - eapply (V_intro s _ []); [done|cbn; by rewrite app_nil_r|md|done|eauto|eauto| |eauto|eauto|intros ? ?; by rewrite elem_of_nil|intros ?; by rewrite elem_of_nil|sv s|nd].
    eapply f2_put; [done|]. intros d _. left. unfold list_rw. by destruct (loc x), d.
  - eapply (V_intro s); [done|done|md|done|eauto|eauto|exact (f2_id s _)|eauto|eauto|intros ? ?; by rewrite elem_of_list_singleton|intros ?; by rewrite elem_of_list_singleton|sv s|nd].
  - eapply (V_intro s); [done|done|md|done|eauto|eauto| |eauto|eauto|intros ? ?; by rewrite elem_of_list_singleton|intros ?; by rewrite elem_of_list_singleton|sv s|nd].
    eapply f2_put; [done|]. intros []; auto.
Qed.
Lemma V_init : V init.
Proof.
  constructor; cbn; try done.
  - intros k. cbn. lia.
  - intros p v. by rewrite elem_of_nil.
  - intros k v. by rewrite elem_of_nil.
  - intros o d k. by rewrite elem_of_nil.
  - intros k v. by rewrite elem_of_nil.
  - intros k. by rewrite elem_of_nil.
  - intros k. by rewrite elem_of_nil.
Qed.
