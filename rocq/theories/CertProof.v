(** Property C73: ownership lemmas for the OpenSSL calls. *)
From stdpp Require Import gmap.
From Verif Require Import Count CertModel CertSpec.
Local Open Scope Z_scope.

Definition holds {A} (m : M A) (s : st) (Q : A -> st -> Prop) : Prop := match m s with Some (a, s') => Q a s' | None => False end.
Lemma holds_bind {A B} (m : M A) (k : A -> M B) s Q : holds m s (λ a s', holds (k a) s' Q) -> holds (bind m k) s Q.
Proof. unfold holds, bind. by destruct (m s) as [[a s']|]. Qed.
Lemma holds_mono {A} (m : M A) s (P Q : A -> st -> Prop) : holds m s P -> (forall a s', P a s' -> Q a s') -> holds m s Q.
Proof. unfold holds. destruct (m s) as [[a s']|]; [|done]. eauto. Qed.
Lemma holds_ret {A} (a : A) s (Q : A -> st -> Prop) : Q a s -> holds (ret a) s Q.
Proof. done. Qed.

Record inv (s : st) (L S K T : list nat) : Prop := {
  i_o : owned s L S K T;
  i_f : forall i, (nid s <= i)%nat -> xs s !! i = None /\ sts s !! i = None /\ ks s !! i = None /\ tmps s !! i = None }.
Lemma inv_ext s s' L S K T : xs s' = xs s -> sts s' = sts s -> ks s' = ks s -> tmps s' = tmps s -> cx s' = cx s -> nid s' = nid s -> inv s L S K T -> inv s' L S K T.
Proof.
  intros E1 E2 E3 E4 E5 E6 [[H1 H2 H3 H4 H5 H6] H7]. split; [split|]; unfold held in *; rewrite ?E1, ?E2, ?E3, ?E4, ?E5, ?E6; done.
Qed.
Lemma hget_none h a : h !! a = None -> hget h a = 0.
Proof. unfold hget. by intros ->. Qed.
Lemma held_nonneg f s i : 0 <= held f s i.
Proof. unfold held. destruct (cx s); [apply oz_nonneg|lia]. Qed.
Lemma pres_new {A} (m : gmap nat A) k v i : m !! k = None -> pres (<[k := v]> m) i = pres m i + b2z (bool_decide (k = i)).
Proof. intros H. unfold pres. case_bool_decide as E; [subst; by rewrite lookup_insert, H|]. rewrite lookup_insert_ne by done. cbn. lia. Qed.
Lemma pres_upd {A} (m : gmap nat A) k v i : is_Some (m !! k) -> pres (<[k := v]> m) i = pres m i.
Proof. intros [x H]. unfold pres. destruct (decide (k = i)) as [->|]; [by rewrite lookup_insert, H|by rewrite lookup_insert_ne]. Qed.
Lemma pres_del {A} (m : gmap nat A) k i : is_Some (m !! k) -> pres (delete k m) i = pres m i - b2z (bool_decide (k = i)).
Proof. intros [x H]. unfold pres. case_bool_decide as E; [subst; by rewrite lookup_delete, H|]. rewrite lookup_delete_ne by done. cbn. lia. Qed.
Lemma pres_pos {A} (m : gmap nat A) i : 0 < pres m i -> is_Some (m !! i).
Proof. unfold pres. destruct (m !! i); [eauto|lia]. Qed.
Lemma b2z_eq k i : b2z (bool_decide (k = i)) = oz (Some k) i.
Proof. unfold oz. f_equal. apply bool_decide_ext. split; congruence. Qed.
Lemma occ_oz k l i : occ i (k :: l) = oz (Some k) i + occ i l.
Proof. rewrite occ_cons. by rewrite b2z_eq. Qed.
Lemma occ_app i l k : occ i (l ++ k) = occ i l + occ i k.
Proof. rewrite !occ_sumz. apply sumz_app. Qed.

(** the states after the calls *)
Definition bump s := mkst (xs s) (xc s) (sts s) (ks s) (kc s) (tmps s) (cx s) (nid s) (S (tick s)) (lerr s).
Lemma inv_bump s L S K T : inv s L S K T -> inv (bump s) L S K T.
Proof. by apply inv_ext. Qed.
Lemma inv_err s e L S K T : inv s L S K T -> inv (set_err e s) L S K T.
Proof. by apply inv_ext. Qed.
Definition n_x s c := mkst (<[nid s := 1]> (xs s)) (λ i, if decide (i = nid s) then c else xc s i) (sts s) (ks s) (kc s) (tmps s) (cx s) (S (nid s)) (tick s) (lerr s).
Definition n_k s k := mkst (xs s) (xc s) (sts s) (<[nid s := 1]> (ks s)) (λ i, if decide (i = nid s) then k else kc s i) (tmps s) (cx s) (S (nid s)) (tick s) (lerr s).
Definition n_st s := mkst (xs s) (xc s) (<[nid s := []]> (sts s)) (ks s) (kc s) (tmps s) (cx s) (S (nid s)) (tick s) (lerr s).
Definition n_tmp s t := mkst (xs s) (xc s) (sts s) (ks s) (kc s) (<[nid s := t]> (tmps s)) (cx s) (S (nid s)) (tick s) (lerr s).
Ltac pj := cbn [xs xc sts ks kc tmps cx nid tick lerr n_x n_k n_st n_tmp bump set_xs set_sts set_ks set_tmps set_cx set_err].
Ltac pjs := cbn [xs xc sts ks kc tmps cx nid tick lerr n_x n_k n_st n_tmp bump set_xs set_sts set_ks set_tmps set_cx set_err] in *.
Lemma hpos_new h a : hpos h -> hpos (<[a := 1]> h).
Proof. intros H b z. destruct (decide (a = b)) as [->|]; [rewrite lookup_insert; intros [= <-]; lia|rewrite lookup_insert_ne by done; apply H]. Qed.
Lemma hget_new h a i : h !! a = None -> hget (<[a := 1]> h) i = hget h i + oz (Some a) i.
Proof. intros H. rewrite hget_ins, <- b2z_eq. case_decide as E; [subst; rewrite (hget_none _ _ H), bool_decide_true by done; cbn; lia|rewrite bool_decide_false by done; cbn; lia]. Qed.
Lemma inv_new_x s c L S K T : inv s L S K T -> inv (n_x s c) (nid s :: L) S K T.
Proof.
  intros [[H1 H2 H3 H4 H5 H6] H7]. destruct (H7 (nid s)) as (F1 & F2 & F3 & F4); [lia|]. split; [split; try done|].
  - intros i. pj. rewrite hget_new by done. rewrite H1, occ_oz. unfold held. pj. lia.
  - by apply hpos_new.
  - intros i Hi. pjs. destruct (H7 i) as (G1 & G2 & G3 & G4); [lia|]. rewrite lookup_insert_ne by lia. done.
Qed.
Lemma inv_new_k s k L S K T : inv s L S K T -> inv (n_k s k) L S (nid s :: K) T.
Proof.
  intros [[H1 H2 H3 H4 H5 H6] H7]. destruct (H7 (nid s)) as (F1 & F2 & F3 & F4); [lia|]. split; [split; try done|].
  - intros i. pj. rewrite hget_new by done. rewrite H4, occ_oz. unfold held. pj. lia.
  - by apply hpos_new.
  - intros i Hi. pjs. destruct (H7 i) as (G1 & G2 & G3 & G4); [lia|]. rewrite lookup_insert_ne by lia. done.
Qed.
Lemma inv_new_st s L S K T : inv s L S K T -> inv (n_st s) L (nid s :: S) K T.
Proof.
  intros [[H1 H2 H3 H4 H5 H6] H7]. destruct (H7 (nid s)) as (F1 & F2 & F3 & F4); [lia|]. split; [split; try done|].
  - intros i. pj. rewrite H1, summ_new by done. change (occ i []) with 0. unfold held. pj. lia.
  - intros i. pj. rewrite pres_new by done. rewrite H3, occ_cons. unfold held. pj. lia.
  - intros i Hi. pjs. destruct (H7 i) as (G1 & G2 & G3 & G4); [lia|]. rewrite lookup_insert_ne by lia. done.
Qed.
Lemma inv_new_tmp s t L S K T : inv s L S K T -> inv (n_tmp s t) L S K (nid s :: T).
Proof.
  intros [[H1 H2 H3 H4 H5 H6] H7]. destruct (H7 (nid s)) as (F1 & F2 & F3 & F4); [lia|]. split; [split; try done|].
  - intros i. pj. rewrite pres_new by done. rewrite H6, occ_cons. lia.
  - intros i Hi. pjs. destruct (H7 i) as (G1 & G2 & G3 & G4); [lia|]. rewrite lookup_insert_ne by lia. done.
Qed.
Lemma inv_tmp s i L S K T : inv s L S K T -> i ∈ T -> is_Some (tmps s !! i).
Proof. intros [[_ _ _ _ _ H6] _] Hi. apply pres_pos. rewrite H6. by apply occ_in. Qed.
Lemma inv_free_tmp s b L S K T : inv s L S K (b :: T) -> inv (set_tmps (delete b (tmps s)) s) L S K T.
Proof.
  intros HI. assert (Hb : is_Some (tmps s !! b)) by (eapply inv_tmp; [done|by left]). destruct HI as [[H1 H2 H3 H4 H5 H6] H7]. split; [split; try done|].
  - intros i. pj. rewrite pres_del by done. rewrite H6, occ_cons. lia.
  - intros i Hi. pjs. destruct (H7 i) as (G1 & G2 & G3 & G4); [lia|]. split_and!; try done. apply lookup_delete_None. by right.
Qed.
Lemma inv_put_tmp s b t L S K T : inv s L S K T -> is_Some (tmps s !! b) -> inv (set_tmps (<[b := t]> (tmps s)) s) L S K T.
Proof.
  intros [[H1 H2 H3 H4 H5 H6] H7] Hb. split; [split; try done|].
  - intros i. pj. by rewrite pres_upd.
  - intros i Hi. pjs. destruct (H7 i) as (G1 & G2 & G3 & G4); [lia|]. split_and!; try done. rewrite lookup_insert_ne; [done|]. intros ->. destruct Hb as [? Hb]. congruence.
Qed.
(** giving up a reference *)
Lemma inv_unref_x s x L L' S K T : inv s L S K T -> (forall i, occ i L = oz x i + occ i L') -> exists h, unref (xs s) x = Some h /\ inv (set_xs h s) L' S K T.
Proof.
  intros [[H1 H2 H3 H4 H5 H6] H7] HL.
  assert (Hle : forall b, oz x b <= hget (xs s) b).
  { intros b. rewrite H1, HL. pose proof (occ_nonneg b L'). pose proof (held_nonneg c_cert s b). pose proof (summ_nonneg (occ b) (sts s) (λ l, occ_nonneg b l)). lia. }
  destruct (unref (xs s) x) as [h|] eqn:E; [|by apply unref_ok in E]. exists h. split; [done|]. destruct (unref_spec _ _ _ H2 E) as [P1 P2]. split; [split; try done|].
  - intros i. pj. rewrite P2, H1, HL. unfold held. pj. lia.
  - intros i Hi. pjs. destruct (H7 i Hi) as (G1 & G2 & G3 & G4). split_and!; try done. destruct (h !! i) eqn:Eh; [|done]. destruct (unref_dom _ _ _ _ _ E Eh). congruence.
Qed.
Lemma inv_unref_k s x L S K K' T : inv s L S K T -> (forall i, occ i K = oz x i + occ i K') -> exists h, unref (ks s) x = Some h /\ inv (set_ks h s) L S K' T.
Proof.
  intros [[H1 H2 H3 H4 H5 H6] H7] HL.
  assert (Hle : forall b, oz x b <= hget (ks s) b). { intros b. rewrite H4, HL. pose proof (occ_nonneg b K'). pose proof (held_nonneg c_key s b). lia. }
  destruct (unref (ks s) x) as [h|] eqn:E; [|by apply unref_ok in E]. exists h. split; [done|]. destruct (unref_spec _ _ _ H5 E) as [P1 P2]. split; [split; try done|].
  - intros i. pj. rewrite P2, H4, HL. unfold held. pj. lia.
  - intros i Hi. pjs. destruct (H7 i Hi) as (G1 & G2 & G3 & G4). split_and!; try done. destruct (h !! i) eqn:Eh; [|done]. destruct (unref_dom _ _ _ _ _ E Eh). congruence.
Qed.
Lemma inv_ref_x s x L S K T : inv s L S K T -> x ∈ L -> exists h, ref (xs s) (Some x) = Some h /\ inv (set_xs h s) (x :: L) S K T.
Proof.
  intros [[H1 H2 H3 H4 H5 H6] H7] HL.
  assert (Hle : 0 < hget (xs s) x).
  { rewrite H1. apply occ_in in HL. pose proof (held_nonneg c_cert s x). pose proof (summ_nonneg (occ x) (sts s) (λ l, occ_nonneg x l)). lia. }
  destruct (hget_live _ _ Hle) as [z Ez]. assert (E : ref (xs s) (Some x) = Some (<[x := z + 1]> (xs s))) by (cbn; by rewrite Ez).
  eexists. split; [exact E|]. destruct (ref_spec _ _ _ H2 E) as [P1 P2]. split; [split; try done|].
  - intros i. pj. rewrite P2, H1, occ_oz. unfold held. pj. lia.
  - intros i Hi. pjs. destruct (H7 i Hi) as (G1 & G2 & G3 & G4). split_and!; try done. rewrite lookup_insert_ne; [done|]. intros ->. congruence.
Qed.
Lemma inv_ref_k s x L S K T : inv s L S K T -> x ∈ K -> exists h, ref (ks s) (Some x) = Some h /\ inv (set_ks h s) L S (x :: K) T.
Proof.
  intros [[H1 H2 H3 H4 H5 H6] H7] HL.
  assert (Hle : 0 < hget (ks s) x). { rewrite H4. apply occ_in in HL. pose proof (held_nonneg c_key s x). lia. }
  destruct (hget_live _ _ Hle) as [z Ez]. assert (E : ref (ks s) (Some x) = Some (<[x := z + 1]> (ks s))) by (cbn; by rewrite Ez).
  eexists. split; [exact E|]. destruct (ref_spec _ _ _ H5 E) as [P1 P2]. split; [split; try done|].
  - intros i. pj. rewrite P2, H4, occ_oz. unfold held. pj. lia.
  - intros i Hi. pjs. destruct (H7 i Hi) as (G1 & G2 & G3 & G4). split_and!; try done. rewrite lookup_insert_ne; [done|]. intros ->. congruence.
Qed.
(** changing the context: what it no longer holds becomes the caller's, what it newly holds must have been the caller's *)
Lemma inv_cx s c L S K T L' S' K' : inv s L S K T ->
  (forall i, occ i L + held c_cert s i = occ i L' + match c with Some c => oz (c_cert c) i | None => 0 end) ->
  (forall i, occ i S + held c_chain s i = occ i S' + match c with Some c => oz (c_chain c) i | None => 0 end) ->
  (forall i, occ i K + held c_key s i = occ i K' + match c with Some c => oz (c_key c) i | None => 0 end) -> inv (set_cx c s) L' S' K' T.
Proof.
  intros [[H1 H2 H3 H4 H5 H6] H7] E1 E2 E3. split; [split; try done|].
  - intros i. pj. rewrite H1. specialize (E1 i). unfold held in *. pj. lia.
  - intros i. pj. rewrite H3. specialize (E2 i). unfold held in *. pj. lia.
  - intros i. pj. rewrite H4. specialize (E3 i). unfold held in *. pj. lia.
  - done.
Qed.
Lemma inv_stack s c L S K T : inv s L S K T -> c ∈ S -> exists l, sts s !! c = Some l.
Proof. intros [[_ _ H3 _ _ _] _] Hi. apply pres_pos. rewrite H3. apply occ_in in Hi. pose proof (held_nonneg c_chain s c). lia. Qed.
Lemma inv_push s c l x L S K T : inv s (x :: L) S K T -> sts s !! c = Some l -> inv (set_sts (<[c := l ++ [x]]> (sts s)) s) L S K T.
Proof.
  intros [[H1 H2 H3 H4 H5 H6] H7] Hc. split; [split; try done|].
  - intros i. pj. rewrite (summ_upd _ _ _ _ _ Hc), H1, occ_app, !occ_oz. unfold held. cbn [cx set_sts]. change (occ i []) with 0. lia.
  - intros i. pj. rewrite pres_upd by eauto. apply H3.
  - intros i Hi. pjs. destruct (H7 i Hi) as (G1 & G2 & G3 & G4). split_and!; try done. rewrite lookup_insert_ne; [done|]. intros ->. congruence.
Qed.
Lemma inv_del_st s c l L S K T : inv s L (c :: S) K T -> sts s !! c = Some l -> inv (set_sts (delete c (sts s)) s) (l ++ L) S K T.
Proof.
  intros [[H1 H2 H3 H4 H5 H6] H7] Hc. split; [split; try done|].
  - intros i. pj. rewrite (summ_del _ _ _ _ Hc), H1, occ_app. unfold held. cbn [cx set_sts]. lia.
  - intros i. pj. rewrite pres_del by eauto. rewrite H3, occ_cons. unfold held. pj. lia.
  - intros i Hi. pjs. destruct (H7 i Hi) as (G1 & G2 & G3 & G4). split_and!; try done. apply lookup_delete_None. by right.
Qed.
(** * The calls *)
Lemma t_free_x x s L L' S K T : inv s L S K T -> (forall i, occ i L = oz x i + occ i L') -> holds (X509_free x) s (λ _ s', inv s' L' S K T /\ exists h, s' = set_xs h s).
Proof. intros HI HL. destruct (inv_unref_x _ _ _ _ _ _ _ HI HL) as (h & E & H). unfold holds, X509_free. rewrite E. eauto. Qed.
Lemma t_free_k x s L S K K' T : inv s L S K T -> (forall i, occ i K = oz x i + occ i K') -> holds (KEY_free x) s (λ _ s', inv s' L S K' T /\ exists h, s' = set_ks h s).
Proof. intros HI HL. destruct (inv_unref_k _ _ _ _ _ _ _ HI HL) as (h & E & H). unfold holds, KEY_free. rewrite E. eauto. Qed.
Lemma t_free_all l : forall s L S K T, inv s (l ++ L) S K T -> holds (free_all l) s (λ _ s', inv s' L S K T /\ exists h, s' = set_xs h s).
Proof.
  induction l as [|x l IH]; intros s L S K T HI; cbn [free_all].
  - split; [done|]. exists (xs s). by destruct s.
  - apply holds_bind. eapply holds_mono; [apply (t_free_x (Some x) s (x :: l ++ L) (l ++ L)); [done|intros i; apply occ_oz]|].
    intros _ s' [H1 [h ->]]. eapply holds_mono; [by apply IH|]. intros _ s2 [H2 [h2 ->]]. split; [done|]. by exists h2.
Qed.
Lemma t_pop_free c s L S K T : inv s L (match c with Some c => c :: S | None => S end) K T ->
  holds (pop_free c) s (λ _ s', inv s' L S K T /\ exists h m, s' = set_xs h (set_sts m s) /\ m = match c with Some c => delete c (sts s) | None => sts s end).
Proof.
  destruct c as [c|]; intros HI; cbn [pop_free].
  - destruct (inv_stack _ c _ _ _ _ HI) as [l Hl]; [by left|]. unfold holds. rewrite Hl. fold (holds (free_all l) (set_sts (delete c (sts s)) s) (λ _ s', inv s' L S K T /\ exists h m, s' = set_xs h (set_sts m s) /\ m = delete c (sts s))).
    eapply holds_mono; [apply t_free_all; by apply inv_del_st|]. intros _ s' [H1 [h ->]]. split; [done|]. eauto.
  - split; [done|]. exists (xs s), (sts s). by destruct s.
Qed.
Lemma t_free_tmp b s L S K T : inv s L S K (b :: T) -> holds (free_tmp b) s (λ _ s', inv s' L S K T /\ s' = set_tmps (delete b (tmps s)) s).
Proof. intros HI. destruct (inv_tmp _ b _ _ _ _ HI) as [t Ht]; [by left|]. unfold holds, free_tmp. rewrite Ht. split; [by apply inv_free_tmp|done]. Qed.
