(** Property C73: the functions that build contexts. *)
From stdpp Require Import gmap.
From Verif Require Import Count CertModel CertSpec CertProof CertProof2.
Local Open Scope Z_scope.

Section p.
Context (fail : nat -> bool) (tty : list Z) (files : Z -> option (list pem * nat)) (match_ : Z -> Z -> bool).
Notation calm := (calm fail).
Ltac frs := split; pj; done.
(** nothing but temporary objects, the clock and the error changed *)
Record sm (s s' : st) : Prop := { sm_xs : xs s' = xs s; sm_xc : xc s' = xc s; sm_sts : sts s' = sts s; sm_ks : ks s' = ks s; sm_kc : kc s' = kc s; sm_cx : cx s' = cx s; sm_nid : (nid s <= nid s')%nat }.
Ltac sms := split; pj; try done; lia.
Lemma sm_refl s : sm s s. Proof. by split. Qed.
Lemma sm_trans s1 s2 s3 : sm s1 s2 -> sm s2 s3 -> sm s1 s3.
Proof. intros [] []. split; try congruence. lia. Qed.
Lemma sm_fr s s' : sm s s' -> fr s s'.
Proof. intros []. split; try done. intros i _. by rewrite sm_xc0. Qed.
Lemma t_open x s L S K T : x <> SNull -> inv s L S K T ->
  holds (open_bio fail files x) s (λ b s', sm s s' /\ match b with
    | None => inv s' L S K T /\ (calm -> text files x = None)
    | Some b => inv s' L S K (b :: T) /\ exists t, text files x = Some t /\ tmps s' !! b = Some (TBio t t) end).
Proof.
  intros Hx HI. destruct x as [| |n t|n]; [done| | |]; cbn [open_bio]; apply t_coin'; try intros Hnc.
  - apply holds_ret. split; [sms|]. split; [by apply inv_bump|done].
  - apply holds_ret. split; [sms|]. split; [by apply inv_bump|done].
  - apply holds_ret. split; [sms|]. split; [by apply inv_bump|done].
  - apply holds_bind. unfold new_tmp. unfold holds at 1. apply holds_ret. split; [sms|]. split; [apply (inv_new_tmp (bump s)); by apply inv_bump|].
    exists t. split; [done|]. pj. by rewrite lookup_insert.
  - apply holds_ret. split; [sms|]. split; [by apply inv_bump|done].
  - destruct (files n) as [[t len]|] eqn:E; [|apply holds_ret; split; [sms|]; split; [by apply inv_bump|cbn [text]; by rewrite E]].
    apply holds_bind. unfold new_tmp. unfold holds at 1. apply holds_ret. split; [sms|]. split; [apply (inv_new_tmp (bump s)); by apply inv_bump|].
    exists t. cbn [text]. rewrite E. split; [done|]. pj. by rewrite lookup_insert.
Qed.
Lemma t_load ossl x s L S K T : x <> SNull -> inv s L S K T ->
  holds (load_certificate fail files ossl x) s (λ r s', fr s s' /\ match r with
    | None => (exists L0, lost ossl L0 /\ inv s' (L0 ++ L) S K T) /\ (calm -> forall t, text files x = Some t -> bad_in t = [] -> upto t = [])
    | Some (c, ch) => inv s' (c :: L) (ch :: S) K T /\ exists l t, sts s' !! ch = Some l /\ text files x = Some t /\ xc s' c :: (xc s' <$> l) = upto t /\ stops ossl t
    end).
Proof.
  intros Hx HI. unfold load_certificate. apply holds_bind. eapply holds_mono; [by apply t_open|]. assert (L00 : lost ossl []) by (destruct ossl; cbn; lia || done).
  intros [b|] s1 [F1 H1]; [|destruct H1 as [H1 HC]; apply holds_ret; split; [by apply sm_fr|]; split; [by exists []|intros Hcm; by rewrite HC]]. destruct H1 as (H1 & t & Ht & B1).
  apply holds_bind. eapply holds_mono; [by eapply t_read|]. intros [c|] s2 (F2 & E2 & H2).
  2: { destruct H2 as (H2 & B2 & _ & HC). apply holds_bind. eapply holds_mono; [by apply t_free_tmp|]. intros _ s3 [H3 E3]. apply holds_ret.
    split; [eapply fr_trans; [by apply sm_fr|]; eapply fr_trans; [done|]; rewrite E3; frs|]. split; [by exists []|]. intros Hcm t0 Et0 Hb0. rewrite Ht in Et0. injection Et0 as <-.
    pose proof (next_cert_spec t) as HN. destruct (HC Hcm) as [[EN _]|(l0 & e0 & r0 & EN)]; rewrite EN in HN; [apply HN|by destruct HN as [? _]]. }
  destruct H2 as (H2 & (c1 & r & EN & X2 & B2) & Hc). pose proof (next_cert_spec t) as HN. rewrite EN in HN. destruct HN as (U1 & U2 & _).
  apply t_coin'.
  { intros Hnc. apply holds_bind. eapply holds_mono; [apply t_free_tmp; by apply inv_bump|]. intros _ s3 [H3 E3]. apply holds_bind.
    eapply holds_mono; [eapply (t_free_x (Some c)); [done|intros i; apply occ_oz]|]. intros _ s4 [H4 [h E4]]. apply holds_ret. split; [|split; [by exists []|done]].
    eapply fr_trans; [by apply sm_fr|]. eapply fr_trans; [done|]. rewrite E4, E3. frs. }
  apply holds_bind. unfold new_st. unfold holds at 1. pj. apply holds_bind. eapply t_get; [done|]. cbv beta iota.
  fold (n_st (bump s2)). assert (H3 : inv (n_st (bump s2)) (c :: L) (nid s2 :: S) K (b :: T)) by (apply (inv_new_st (bump s2)); by apply inv_bump).
  apply holds_bind. eapply holds_mono; [eapply (t_chain fail ossl _ b c (nid s2) t r []); [exact H3|done|pj; by rewrite lookup_insert|lia]|].
  assert (F3 : fr s2 (n_st (bump s2))) by (split; pj; try done; lia).
  intros [|] s3.
  - intros (l' & H4 & F4 & E4 & X4 & St). apply holds_bind. eapply holds_mono; [by apply t_free_tmp|]. intros _ s5 [H5 E5]. apply holds_ret. split; [|].
    { eapply fr_trans; [by apply sm_fr|]. eapply fr_trans; [done|]. eapply fr_trans; [done|]. eapply fr_trans; [done|]. rewrite E5. frs. }
    split; [done|]. exists l', t. rewrite E5. pj. rewrite E4. split; [by rewrite lookup_insert|]. split; [done|]. split; [|unfold stops; by rewrite U2].
    rewrite U1. f_equal; [|done]. rewrite (fr_xc _ _ F4).
    + pj. done.
    + pj. assert (Hp : 0 < hget (xs s2) c). { destruct H2 as [[O _ _ _ _ _] _]. rewrite O, occ_oz, oz_same. pose proof (occ_nonneg c L). pose proof (held_nonneg c_cert s2 c). pose proof (summ_nonneg (occ c) (sts s2) (λ l, occ_nonneg c l)). lia. }
      destruct (decide (c < nid s2)%nat) as [|Hn]; [lia|]. destruct H2 as [_ HF]. destruct (HF c) as (G & _); [lia|]. rewrite (hget_none _ _ G) in Hp. lia.
  - intros ((L0 & HL0 & H4 & F4) & HC). apply holds_ret. split; [|split; [by exists L0|intros Hcm t0 Et0 Hb0; rewrite Ht in Et0; injection Et0 as <-; exfalso; apply (HC Hcm); by rewrite <- U2]]. eapply fr_trans; [by apply sm_fr|]. eapply fr_trans; [done|]. by eapply fr_trans.
Qed.

(** what loading a key leaves alone *)
Record fk (s s' : st) : Prop := { fk_xs : xs s' = xs s; fk_xc : xc s' = xc s; fk_sts : sts s' = sts s; fk_cx : cx s' = cx s }.
Lemma fk_trans s1 s2 s3 : fk s1 s2 -> fk s2 s3 -> fk s1 s3.
Proof. intros [] []. split; congruence. Qed.
Lemma sm_fk s s' : sm s s' -> fk s s'. Proof. by intros []. Qed.
(** the password used in try number [i] opens the key *)
Definition pw_ok (pws : option (list (list Z))) (pw : option (list Z)) (i : nat) : Prop :=
  match pws with None => pw = None \/ pw = Some tty | Some l => pw = None \/ exists p, l !! i = Some p /\ opens pw p end.
Lemma next_key_spec t : match next_key t with None => keys_in t = [] | Some (k, pw, r) => exists l, keys_in t = (k, pw) :: l end.
Proof. induction t as [|[c|k pw|l e] t IH]; cbn; try done. by eexists. Qed.
Lemma t_read_key b all s L S K T pws i : inv s L S K T -> tmps s !! b = Some (TBio all all) -> (match pws with Some l => i < length l \/ (forall k pw, (k, pw) ∈ keys_in all -> pw = None) | None => True end)%nat ->
  holds (PEM_read_key fail tty b pws i) s (λ r s', fk s s' /\ (exists rem, tmps s' !! b = Some (TBio all rem)) /\ match r with
    | Some k => inv s' L S (k :: K) T /\ exists kk pw l, keys_in all = (kk, pw) :: l /\ kc s' k = kk /\ pw_ok pws pw i
    | None => inv s' L S K T /\ (calm -> forall k pw l, keys_in all = (k, pw) :: l -> ~ pw_ok pws pw i) end).
Proof.
  intros HI Hb Hi. unfold PEM_read_key. apply holds_bind. eapply t_get; [done|]. cbv beta iota. pose proof (next_key_spec all) as HN.
  destruct (next_key all) as [[[k pw] r]|] eqn:EN.
  2: { apply holds_bind. eapply t_put; [done|]. cbv beta iota. apply holds_ret. split; [frs|]. split; [pj; rewrite lookup_insert; eauto|]. split; [apply inv_put_tmp; eauto|by rewrite HN]. }
  destruct HN as [l HN]. apply holds_bind. eapply t_put; [done|]. cbv beta iota. set (s1 := set_tmps (<[b:=TBio all r]> (tmps s)) s).
  assert (H1 : inv (bump s1) L S K T) by (apply inv_bump, inv_put_tmp; eauto). assert (B1 : tmps s1 !! b = Some (TBio all r)) by (unfold s1; pj; by rewrite lookup_insert).
  assert (Hnone : fk s (bump s1) /\ (exists rem, tmps (bump s1) !! b = Some (TBio all rem)) /\ inv (bump s1) L S K T) by (split; [unfold s1; frs|split; [exists r; done|done]]).
  assert (Hok : pw_ok pws pw i -> holds (let* x := new_k k in ret (Some x)) (bump s1) (λ r s', fk s s' /\ (exists rem, tmps s' !! b = Some (TBio all rem)) /\ match r with
    | Some k => inv s' L S (k :: K) T /\ exists kk pw l, keys_in all = (kk, pw) :: l /\ kc s' k = kk /\ pw_ok pws pw i | None => inv s' L S K T /\ (calm -> forall k pw l, keys_in all = (k, pw) :: l -> ~ pw_ok pws pw i) end)).
  { intros Hp. apply holds_bind. unfold new_k. unfold holds at 1. apply holds_ret. split; [frs|]. split; [pj; eauto|]. split; [apply (inv_new_k (bump s1)); done|].
    exists k, pw, l. split; [done|]. pj. split; [by rewrite decide_True|done]. }
  destruct Hnone as (HN1 & HN2 & HN3). apply t_coin'; [intros Hnc; by apply holds_ret|]. destruct pw as [pw|].
  - destruct (password tty pws i) as [p|] eqn:EP.
    + case_decide as Hd.
      2: { apply holds_ret. split; [done|]. split; [done|]. split; [done|]. intros _ k0 pw0 l0. rewrite HN. intros [= <- <- <-] HPW. apply Hd. destruct pws as [ps|]; unfold password in EP.
        - destruct (ps !! i) as [q|] eqn:Ei; [|done]. cbn [fmap option_fmap option_map] in EP. injection EP as <-. destruct HPW as [HPW|(q' & HPW & HO)]; [done|]. rewrite Ei in HPW. injection HPW as <-.
          unfold opens in HO. rewrite HO. destruct (1024 <? length q)%nat eqn:El; [done|]. apply Nat.ltb_ge in El. symmetry. by apply take_ge.
        - injection EP as <-. destruct HPW as [|[= HPW]]; [done|]. done. }
      apply Hok. subst p. destruct pws as [ps|]; unfold password in EP.
      * destruct (ps !! i) as [p|] eqn:Ei; [|done]. cbn [fmap option_fmap option_map] in EP. injection EP as EP. right. exists p. split; [done|]. unfold opens. rewrite <- EP. destruct (1024 <? length p)%nat eqn:El; [done|].
        apply Nat.ltb_ge in El. symmetry. by apply take_ge.
      * injection EP as EP. right. by rewrite EP.
    + exfalso. destruct pws as [ps|]; cbn in EP; [|done]. destruct (ps !! i) as [p|] eqn:Ei; [done|]. apply lookup_ge_None in Ei. destruct Hi as [Hi|Hi]; [lia|].
      specialize (Hi k (Some pw)). rewrite HN in Hi. by discriminate Hi; left.
  - apply Hok. destruct pws; cbn; by left.
Qed.
(** the tries before number [i] have failed (ghost) *)
Lemma t_key_loop pws all b fuel : forall tries i s L S K T, inv s L S K (b :: T) -> tmps s !! b = Some (TBio all all) ->
  (Z.of_nat fuel > tries)%Z -> (0 < fuel)%nat -> (match pws with Some l => Z.of_nat i + tries = Z.of_nat (length l) /\ (0 < tries \/ (forall k pw, (k, pw) ∈ keys_in all -> pw = None)) | None => tries = 1 end) ->
  holds (key_loop fail tty fuel b pws tries i) s (λ r s', fk s s' /\ match r with
    | Some k => inv s' L S (k :: K) T /\ exists kk pw l j, keys_in all = (kk, pw) :: l /\ kc s' k = kk /\ pw_ok pws pw j
    | None => inv s' L S K T /\ (calm -> forall k pw l j, keys_in all = (k, pw) :: l -> (i <= j)%nat -> ~ pw_ok pws pw j) end).
Proof.
  induction fuel as [|fuel IH]; intros tries i s L S K T HI Hb Hf H0 Ht; [lia|]. cbn [key_loop]. apply holds_bind. eapply holds_mono.
  { eapply t_read_key; [done|done|]. destruct pws as [l|]; [|done]. destruct Ht as [Ht [Ht2|Ht2]]; [left; lia|by right]. }
  intros [k|] s1 (F1 & [rem B1] & H1).
  - destruct H1 as (H1 & kk & pw & l & E1 & E2 & E3). apply holds_bind. eapply holds_mono; [by apply t_free_tmp|]. intros _ s2 [H2 E]. apply holds_ret.
    split; [eapply fk_trans; [done|]; rewrite E; frs|]. split; [done|]. exists kk, pw, l, i. rewrite E. pj. done.
  - case_bool_decide as Hd.
    + apply holds_bind. unfold BIO_reset. apply holds_bind. eapply t_get; [done|]. cbv beta iota. eapply t_put; [done|]. cbv beta iota.
      eapply holds_mono; [eapply IH; [apply inv_put_tmp; [exact (proj1 H1)|by eauto]|pj; by rewrite lookup_insert|lia|lia|]|].
      * destruct pws as [l|]; [|lia]. destruct Ht as [Ht _]. split; [lia|left; lia].
      * intros r s2 [F2 H2]. split; [eapply fk_trans; [done|]; eapply fk_trans; [|done]; frs|]. destruct r; [done|]. destruct H2 as [H2 HC2]. split; [done|].
        intros Hcm k pw l j EK Hj. destruct (decide (j = i)) as [->|]; [by eapply (proj2 H1)|]. eapply HC2; [done|done|lia].
    + apply holds_bind. eapply holds_mono; [apply t_free_tmp; exact (proj1 H1)|]. intros _ s2 [H2 E]. apply holds_ret. split; [eapply fk_trans; [done|]; rewrite E; frs|]. split; [done|].
      intros Hcm k pw l j EK Hj. destruct pws as [ps|].
      * destruct (decide (j = i)) as [->|]; [by eapply (proj2 H1)|]. intros [->|(p & Hp & _)]; [eapply (proj2 H1 Hcm); [done|]; by left|]. apply lookup_lt_Some in Hp. lia.
      * exact (proj2 H1 Hcm _ _ _ EK).
Qed.
(** the password array is not empty, or the key is not encrypted *)
Definition pws_ok (pws : option (list (list Z))) (x : src) : Prop :=
  match pws with Some [] => forall t k pw, text files x = Some t -> (k, pw) ∈ keys_in t -> pw = None | _ => True end.
Lemma t_load_key x pws s L S K T : x <> SNull -> pws_ok pws x -> inv s L S K T ->
  holds (load_certificate_key fail tty files x pws) s (λ r s', fk s s' /\ match r with
    | Some k => inv s' L S (k :: K) T /\ exists t kk pw l j, text files x = Some t /\ keys_in t = (kk, pw) :: l /\ kc s' k = kk /\ pw_ok pws pw j
    | None => inv s' L S K T /\ (calm -> forall t k pw l j, text files x = Some t -> keys_in t = (k, pw) :: l -> ~ pw_ok pws pw j) end).
Proof.
  intros Hx Hp HI. unfold load_certificate_key. apply holds_bind. eapply holds_mono; [by apply t_open|]. intros [b|] s1 [F1 H1]; [|destruct H1 as [H1 HC]; apply holds_ret; split; [by apply sm_fk|]; split; [done|]; intros Hcm; by rewrite HC].
  destruct H1 as (H1 & t & Ht & B1). eapply holds_mono; [eapply (t_key_loop pws t b); [done|done|lia|lia|]|].
  - destruct pws as [l|]; [|done]. split; [lia|]. destruct l as [|p l]; [right|left; cbn; lia]. intros k pw. by apply Hp.
  - intros r s2 [F2 H2]. split; [eapply fk_trans; [by apply sm_fk|done]|]. destruct r as [k|]; [|destruct H2 as [H2 HC]; split; [done|]; intros Hcm t0 k pw l j Et0 EK; rewrite Ht in Et0; injection Et0 as <-; eapply HC; [done|done|lia]]. destruct H2 as (H2 & kk & pw & l & j & ? & ? & ?). split; [done|]. exists t, kk, pw, l, j. done.
Qed.
End p.
