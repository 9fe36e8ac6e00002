(** Property C73: certificates, keys and session ids of a context. *)
From stdpp Require Import gmap.
From Verif Require Import Count CertModel CertSpec CertProof CertProof2 CertProof3.
Local Open Scope Z_scope.

Lemma t_cx s c : cx s = Some c -> forall Q : ctx -> st -> Prop, Q c s -> holds get_cx s Q.
Proof. intros H Q HQ. unfold holds, get_cx. by rewrite H. Qed.
Lemma t_putcx s c c' : cx s = Some c -> forall Q : unit -> st -> Prop, Q tt (set_cx (Some c') s) -> holds (put_cx c') s Q.
Proof. intros H Q HQ. unfold holds, put_cx. by rewrite H. Qed.
Definition cons_o (o : option nat) (l : list nat) : list nat := match o with Some x => x :: l | None => l end.
Lemma occ_o o l i : occ i (cons_o o l) = oz o i + occ i l.
Proof. destruct o; [apply occ_oz|]. rewrite oz_none. cbn [cons_o]. lia. Qed.
Section p.
Context (fail : nat -> bool) (tty : list Z) (files : Z -> option (list pem * nat)) (match_ : Z -> Z -> bool).
Ltac frs := split; pj; done.
Notation calm := (calm fail).

(** contents and temporary objects stay *)
Record keep (s s' : st) : Prop := { kp_xc : xc s' = xc s; kp_kc : kc s' = kc s; kp_nid : nid s' = nid s; kp_tmps : tmps s' = tmps s }.
Lemma t_use_cert x c s L S K T : inv s L S K T -> x ∈ L -> cx s = Some c ->
  holds (use_certificate fail x) s (λ ok s', keep s s' /\ inv s' L S K T /\ sts s' = sts s /\ ks s' = ks s /\ cx s' = Some (if ok then with_cert (Some x) c else c) /\ (ok = false -> ~ calm)).
Proof.
  intros HI Hx Hc. unfold use_certificate. apply t_coin'.
  - intros Hnc. apply holds_ret. split; [frs|]. split; [by apply inv_bump|]. done.
  - apply holds_bind. apply inv_bump in HI. destruct (inv_ref_x _ _ _ _ _ _ HI Hx) as (h & Eh & H1). unfold holds at 1, X509_up. rewrite Eh.
    apply holds_bind. apply (t_cx _ c); [done|]. apply holds_bind. apply (t_putcx _ c); [done|].
    apply holds_bind. eapply holds_mono; [eapply (t_free_x (c_cert c) _ (cons_o (c_cert c) L) L)|].
    + eapply inv_cx; [exact H1| | |].
      * intros i. unfold held. pj. rewrite Hc. rewrite occ_oz, occ_o. cbn [c_cert with_cert]. lia.
      * intros i. unfold held. pj. rewrite Hc. cbn [c_chain with_cert]. reflexivity.
      * intros i. unfold held. pj. rewrite Hc. cbn [c_key with_cert]. reflexivity.
    + intros i. apply occ_o.
    + intros _ s' [H2 [h' ->]]. apply holds_ret. split; [frs|]. split; [done|]. pj. done.
Qed.
Lemma t_set_chain ch c s L S K T : inv s L (ch :: S) K T -> cx s = Some c ->
  holds (set0_chain fail ch) s (λ ok s', keep s s' /\ ks s' = ks s /\ if ok
    then inv s' L S K T /\ cx s' = Some (with_chain (Some ch) c) /\ sts s' !! ch = sts s !! ch
    else inv s' L (ch :: S) K T /\ cx s' = Some c /\ ~ calm).
Proof.
  intros HI Hc. unfold set0_chain. apply t_coin'.
  - intros Hnc. apply holds_ret. split; [frs|]. split; [done|]. split; [by apply inv_bump|]. done.
  - apply holds_bind. apply inv_bump in HI. apply (t_cx _ c); [done|]. apply holds_bind. apply (t_putcx _ c); [done|].
    assert (Hne : c_chain c <> Some ch).
    { intros E. destruct HI as [[_ _ H3 _ _ _] _]. specialize (H3 ch). revert H3. unfold held. pj. rewrite Hc, E, occ_oz, !oz_same. pose proof (occ_nonneg ch S). unfold pres. destruct (sts s !! ch); lia. }
    apply holds_bind. eapply holds_mono; [eapply (t_pop_free (c_chain c) _ L S K T)|].
    + eapply inv_cx; [exact HI| | |].
      * intros i. unfold held. pj. rewrite Hc. cbn [c_cert with_chain]. reflexivity.
      * intros i. unfold held. pj. rewrite Hc. cbn [c_chain with_chain]. change (match c_chain c with Some c0 => c0 :: S | None => S end) with (cons_o (c_chain c) S). rewrite occ_oz, occ_o. lia.
      * intros i. unfold held. pj. rewrite Hc. cbn [c_key with_chain]. reflexivity.
    + intros _ s' [H2 (h' & m & -> & ->)]. apply holds_ret. split; [frs|]. split; [done|]. split; [done|]. pj. split; [done|].
      destruct (c_chain c) as [y|]; [|done]. rewrite lookup_delete_ne; [done|congruence].
Qed.
Lemma t_use_key k c s L S K T : inv s L S K T -> k ∈ K -> cx s = Some c ->
  holds (use_PrivateKey fail k) s (λ ok s', keep s s' /\ inv s' L S K T /\ sts s' = sts s /\ cx s' = Some (if ok then with_key (Some k) c else c) /\ (ok = false -> ~ calm)).
Proof.
  intros HI Hx Hc. unfold use_PrivateKey. apply t_coin'.
  - intros Hnc. apply holds_ret. split; [frs|]. split; [by apply inv_bump|]. done.
  - apply holds_bind. apply inv_bump in HI. destruct (inv_ref_k _ _ _ _ _ _ HI Hx) as (h & Eh & H1). unfold holds at 1, KEY_up. rewrite Eh.
    apply holds_bind. apply (t_cx _ c); [done|]. apply holds_bind. apply (t_putcx _ c); [done|].
    apply holds_bind. eapply holds_mono; [eapply (t_free_k (c_key c) _ L S (cons_o (c_key c) K) K)|].
    + eapply inv_cx; [exact H1| | |].
      * intros i. unfold held. pj. rewrite Hc. cbn [c_cert with_key]. reflexivity.
      * intros i. unfold held. pj. rewrite Hc. cbn [c_chain with_key]. reflexivity.
      * intros i. unfold held. pj. rewrite Hc. rewrite occ_oz, occ_o. cbn [c_key with_key]. lia.
    + intros i. apply occ_o.
    + intros _ s' [H2 [h' ->]]. apply holds_ret. split; [frs|]. split; [done|]. pj. done.
Qed.
Lemma t_ctx_free c s L T : inv s L [] [] T -> cx s = Some c -> holds SSL_CTX_free s (λ _ s', inv s' L [] [] T /\ cx s' = None).
Proof.
  intros HI Hc. unfold SSL_CTX_free. apply holds_bind. apply (t_cx _ c); [done|]. apply holds_bind. unfold holds at 1.
  assert (H1 : inv (set_cx None s) (cons_o (c_cert c) L) (cons_o (c_chain c) []) (cons_o (c_key c) []) T).
  { eapply inv_cx; [exact HI| | |]; intros i; unfold held; rewrite Hc, occ_o; lia. }
  apply holds_bind. eapply holds_mono; [eapply (t_free_x (c_cert c) _ _ L); [exact H1|intros i; apply occ_o]|]. intros _ s1 [H2 [h ->]].
  apply holds_bind. eapply holds_mono; [eapply (t_pop_free (c_chain c) _ L [] (cons_o (c_key c) []) T); exact H2|]. intros _ s2 [H3 (h2 & m & -> & _)].
  eapply holds_mono; [eapply (t_free_k (c_key c) _ L [] _ []); [exact H3|intros i; apply occ_o]|]. intros _ s3 [H4 [h3 ->]]. split; [done|]. done.
Qed.
(** the settings other than certificate, chain and key *)
Definition conf (c : ctx) := (c_nov2 c, c_nov3 c, c_ver c, c_ca c, c_sid c, c_cache c, c_sni c, c_alpn c).
Definition src_of (cert key : src) : src := match cert with SNull | SEmpty => key | _ => cert end.
(** kgl_ssl_certificate *)
Lemma t_certificate cert key pws c s L T : key <> SNull -> pws_ok files pws key -> inv s L [] [] T -> cx s = Some c ->
  holds (kgl_ssl_certificate fail tty files cert key pws) s (λ ok s', exists L0 c', (length L0 <= 1)%nat /\ inv s' (L0 ++ L) [] [] T /\ cx s' = Some c' /\ conf c' = conf c /\
    (ok = true -> exists t t' x ch l y, text files (src_of cert key) = Some t /\ text files key = Some t' /\ stops false t /\
      c_cert c' = Some x /\ c_chain c' = Some ch /\ c_key c' = Some y /\ sts s' !! ch = Some l /\ xc s' x :: (xc s' <$> l) = upto t /\
      (exists pw r j, keys_in t' = (kc s' y, pw) :: r /\ pw_ok tty pws pw j) /\ L0 = [x]) /\
    (calm -> forall t t' k pw r j, text files (src_of cert key) = Some t -> bad_in t = [] -> upto t <> [] -> text files key = Some t' -> keys_in t' = (k, pw) :: r -> pw_ok tty pws pw j -> ok = true)).
Proof.
  intros Hk Hp HI Hc. unfold kgl_ssl_certificate. fold (src_of cert key). assert (Hs : src_of cert key <> SNull) by (by destruct cert).
  apply holds_bind. eapply holds_mono; [by apply t_load|]. intros [[x ch]|] s1 [F1 H1].
  2: { destruct H1 as ((L0 & HL & H1) & HC). apply holds_ret. exists L0, c. split; [done|]. split; [done|]. rewrite (fr_cx _ _ F1). split; [done|]. split; [done|]. split; [done|].
    intros Hcm t t' k pw r j Et Hb Hu. exfalso. by apply Hu, HC. }
  destruct H1 as (H1 & l & t & El & Et & EU & St). pose proof (fr_cx _ _ F1) as C1. rewrite Hc in C1.
  apply holds_bind. eapply holds_mono; [eapply (t_use_cert x c); [done|by left|done]|]. intros ok s2 (K2 & H2 & E2 & _ & C2 & N2). destruct ok; cbn [negb].
  2: { apply holds_bind. eapply holds_mono; [eapply (t_free_x (Some x)); [exact H2|intros i; apply occ_oz]|]. intros _ s3 [H3 [h ->]].
    apply holds_bind. eapply holds_mono; [eapply (t_pop_free (Some ch)); exact H3|]. intros _ s4 [H4 (h4 & m & -> & _)]. apply holds_ret.
    exists [], c. split; [cbn; lia|]. split; [done|]. pj. split; [done|]. split; [done|]. split; [done|]. intros Hcm. exfalso. by apply N2. }
  apply holds_bind. eapply holds_mono; [eapply t_set_chain; [exact H2|exact C2]|]. intros ok s3 (K3 & _ & H3). destruct ok; cbn [negb].
  2: { destruct H3 as (H3 & C3 & N3). apply holds_bind. eapply holds_mono; [eapply (t_pop_free (Some ch)); exact H3|]. intros _ s4 [H4 (h4 & m & -> & _)]. apply holds_ret.
    exists [x], (with_cert (Some x) c). split; [done|]. split; [done|]. pj. split; [done|]. split; [done|]. split; [done|]. intros Hcm. exfalso. by apply N3. }
  destruct H3 as (H3 & C3 & E3). apply holds_bind. eapply holds_mono; [by eapply t_load_key|]. intros [k|] s4 [F4 H4]; pose proof (fk_cx _ _ F4) as C4; rewrite C3 in C4.
  2: { destruct H4 as [H4 HC]. apply holds_ret. exists [x], (with_chain (Some ch) (with_cert (Some x) c)). split; [done|]. split; [done|]. split; [done|]. split; [done|]. split; [done|].
    intros Hcm t0 t0' k pw r j _ _ _ Et' EK HP. exfalso. by eapply HC. }
  destruct H4 as (H4 & t' & kk & pw & r & j & Et' & EK & KC & PW). apply holds_bind. eapply holds_mono; [eapply (t_use_key k); [exact H4|by left|exact C4]|].
  intros ok s5 (K5 & H5 & E5 & C5 & N5). apply holds_bind. eapply holds_mono; [eapply (t_free_k (Some k)); [exact H5|intros i; apply occ_oz]|]. intros _ s6 [H6 [h ->]]. apply holds_ret.
  eexists [x], _. split; [done|]. split; [done|]. pj. split; [exact C5|]. split; [by destruct ok|]. split; [|intros Hcm; destruct ok; [done|exfalso; by apply N5]]. intros ->.
  exists t, t', x, ch, l, k. split; [done|]. split; [done|]. split; [done|]. split; [done|]. split; [done|]. split; [done|].
  rewrite E5, (fk_sts _ _ F4), E3, E2. split; [done|]. rewrite (kp_xc _ _ K5), (fk_xc _ _ F4), (kp_xc _ _ K3), (kp_xc _ _ K2). split; [done|]. split; [|done].
  exists pw, r, j. rewrite (kp_kc _ _ K5), KC. done.
Qed.
(** SSL_CTX_use_certificate_chain_file and SSL_CTX_use_PrivateKey_file *)
Lemma t_chain_file n c s L T : inv s L [] [] T -> cx s = Some c ->
  holds (use_chain_file fail files n) s (λ ok s', exists c', inv s' L [] [] T /\ cx s' = Some c' /\ conf c' = conf c /\
    (ok = true -> c_key c' = c_key c /\ exists t x ch l, text files (SFile n) = Some t /\ stops true t /\ c_cert c' = Some x /\ c_chain c' = Some ch /\ sts s' !! ch = Some l /\ xc s' x :: (xc s' <$> l) = upto t) /\
    (calm -> forall t, text files (SFile n) = Some t -> bad_in t = [] -> upto t <> [] -> ok = true)).
Proof.
  intros HI Hc. unfold use_chain_file. apply holds_bind. eapply holds_mono; [by apply t_load|]. intros [[x ch]|] s1 [F1 H1].
  2: { destruct H1 as ((L0 & -> & H1) & HC). apply holds_ret. exists c. split; [done|]. rewrite (fr_cx _ _ F1). split; [done|]. split; [done|]. split; [done|]. intros Hcm t Et Hb Hu. exfalso. by apply Hu, HC. }
  destruct H1 as (H1 & l & t & El & Et & EU & St). pose proof (fr_cx _ _ F1) as C1. rewrite Hc in C1.
  apply holds_bind. eapply holds_mono; [eapply (t_use_cert x c); [done|by left|done]|]. intros ok s2 (K2 & H2 & E2 & _ & C2 & N2).
  apply holds_bind. eapply holds_mono; [eapply (t_free_x (Some x)); [exact H2|intros i; apply occ_oz]|]. intros _ s3 [H3 [h Es3]]. destruct ok; cbn [negb].
  2: { apply holds_bind. eapply holds_mono; [eapply (t_pop_free (Some ch)); exact H3|]. intros _ s4 [H4 (h4 & m & -> & _)]. apply holds_ret. exists c. rewrite Es3 in *. pj. split; [done|]. split; [done|]. split; [done|]. split; [done|]. intros Hcm. exfalso. by apply N2. }
  assert (C3 : cx s3 = Some (with_cert (Some x) c)) by (rewrite Es3; done).
  apply holds_bind. eapply holds_mono; [eapply t_set_chain; [exact H3|exact C3]|]. intros ok s4 (K4 & _ & H4). destruct ok; cbn [negb].
  2: { destruct H4 as (H4 & C4 & N4). apply holds_bind. eapply holds_mono; [eapply (t_pop_free (Some ch)); exact H4|]. intros _ s5 [H5 (h4 & m & -> & _)]. apply holds_ret. eexists. split; [done|]. pj. split; [exact C4|]. split; [done|]. split; [done|]. intros Hcm. exfalso. by apply N4. }
  destruct H4 as (H4 & C4 & E4). apply holds_ret. eexists. split; [done|]. split; [exact C4|]. split; [done|]. split; [|done]. intros _. split; [done|].
  exists t, x, ch, l. split; [done|]. split; [done|]. split; [done|]. split; [done|]. rewrite E4, Es3. pj. rewrite E2. split; [done|].
  rewrite (kp_xc _ _ K4), Es3. pj. by rewrite (kp_xc _ _ K2).
Qed.
Lemma t_key_file n c s L T : inv s L [] [] T -> cx s = Some c ->
  holds (use_key_file fail tty files n) s (λ ok s', exists c', inv s' L [] [] T /\ cx s' = Some c' /\ conf c' = conf c /\ c_cert c' = c_cert c /\ c_chain c' = c_chain c /\ sts s' = sts s /\ xc s' = xc s /\
    (ok = true -> exists t y pw r j, text files (SFile n) = Some t /\ c_key c' = Some y /\ keys_in t = (kc s' y, pw) :: r /\ pw_ok tty None pw j) /\
    (calm -> forall t k pw r j, text files (SFile n) = Some t -> keys_in t = (k, pw) :: r -> pw_ok tty None pw j -> ok = true)).
Proof.
  intros HI Hc. unfold use_key_file. apply holds_bind. eapply holds_mono; [by apply t_load_key|]. intros [k|] s1 [F1 H1]; pose proof (fk_cx _ _ F1) as C1; rewrite Hc in C1.
  2: { destruct H1 as [H1 HC]. apply holds_ret. exists c. split; [done|]. split; [done|]. split; [done|]. split; [done|]. split; [done|]. split; [apply F1|]. split; [apply F1|]. split; [done|]. intros Hcm t k pw r j Et EK HP. exfalso. by eapply HC. }
  destruct H1 as (H1 & t & kk & pw & r & j & Et & EK & KC & PW). apply holds_bind. eapply holds_mono; [eapply (t_use_key k); [exact H1|by left|exact C1]|].
  intros ok s2 (K2 & H2 & E2 & C2 & N2). apply holds_bind. eapply holds_mono; [eapply (t_free_k (Some k)); [exact H2|intros i; apply occ_oz]|]. intros _ s3 [H3 [h ->]]. apply holds_ret.
  eexists. split; [done|]. pj. split; [exact C2|]. split; [by destruct ok|]. split; [by destruct ok|]. split; [by destruct ok|].
  split; [rewrite E2; apply F1|]. split; [rewrite (kp_xc _ _ K2); apply F1|]. split; [|intros Hcm; destruct ok; [done|exfalso; by apply N2]]. intros ->. exists t, k, pw, r, j. rewrite (kp_kc _ _ K2), KC. done.
Qed.
(** * Session ids *)
(** everything but temporary objects and the session id stays *)
Record ks_ (s s' : st) : Prop := { q_xs : xs s' = xs s; q_xc : xc s' = xc s; q_sts : sts s' = sts s; q_ks : ks s' = ks s; q_kc : kc s' = kc s }.
Lemma ks_trans s1 s2 s3 : ks_ s1 s2 -> ks_ s2 s3 -> ks_ s1 s3.
Proof. intros [] []. split; congruence. Qed.
Lemma t_feed m l ch s L S K T : inv s L S K T -> tmps s !! m = Some (TMd l) ->
  holds (feed fail m ch) s (λ ok s', inv s' L S K T /\ ks_ s s' /\ cx s' = cx s /\ nid s' = nid s /\ (forall i, i <> m -> tmps s' !! i = tmps s !! i) /\ tmps s' !! m = Some (TMd (if ok then l ++ [ch] else l)) /\ (ok = false -> ~ calm)).
Proof.
  intros HI Hm. unfold feed. apply t_coin'.
  - intros Hnc. apply holds_ret. split; [by apply inv_bump|]. split; [frs|]. done.
  - apply holds_bind. eapply t_get; [pj; done|]. cbv beta iota. apply holds_bind. eapply t_put; [pj; done|]. cbv beta iota. apply holds_ret.
    split; [apply inv_put_tmp; [by apply inv_bump|pj; eauto]|]. split; [frs|]. pj. split; [done|]. split; [done|]. split; [intros i Hi; by rewrite lookup_insert_ne|]. split; [by rewrite lookup_insert|done].
Qed.
Lemma t_sid_end m l c s L S K T : inv s L S K (m :: T) -> tmps s !! m = Some (TMd l) -> cx s = Some c ->
  holds (sid_end fail m) s (λ ok s', inv s' L S K T /\ ks_ s s' /\ cx s' = Some (if ok then with_sid (Some l) c else c) /\ (ok = false -> ~ calm)).
Proof.
  intros HI Hm Hc. assert (HB : forall f : bool, (f = true -> ~ calm) -> holds (let* t := get_tmp m in free_tmp m ;;; if f then ret false else match t with TMd l0 => let* f := coin fail in if f : bool then ret false else let* c := get_cx in put_cx (with_sid (Some l0) c) ;;; ret true | _ => crash end) (bump s)
    (λ ok s', inv s' L S K T /\ ks_ s s' /\ cx s' = Some (if ok then with_sid (Some l) c else c) /\ (ok = false -> ~ calm))).
  { intros f Hf. apply holds_bind. eapply t_get; [pj; done|]. cbv beta iota. apply holds_bind. eapply holds_mono; [apply t_free_tmp; by apply inv_bump|]. intros _ s1 [H1 ->]. destruct f.
    - apply holds_ret. split; [done|]. split; [frs|]. split; [done|]. intros _. by apply Hf.
    - apply t_coin'; [intros Hnc; apply holds_ret; split; [by apply inv_bump|]; split; [frs|]; done|]. apply holds_bind. apply (t_cx _ c); [done|]. apply holds_bind. apply (t_putcx _ c); [done|]. apply holds_ret.
      split; [|split; [frs|done]]. eapply inv_cx; [apply inv_bump; exact H1| | |]; intros i; unfold held; pj; rewrite Hc; reflexivity. }
  unfold sid_end. apply t_coin'; [intros Hnc; by apply (HB true)|by apply (HB false)].
Qed.
Lemma t_sid_buffer n c s L S K : inv s L S K [] -> cx s = Some c ->
  holds (sid_from_buffer fail n) s (λ ok s', inv s' L S K [] /\ ks_ s s' /\ cx s' = Some (if ok then with_sid (Some [CName n]) c else c)).
Proof.
  intros HI Hc. unfold sid_from_buffer. apply t_coin; [apply holds_ret; split; [by apply inv_bump|]; split; [frs|done]|].
  apply holds_bind. unfold new_tmp. unfold holds at 1. pj. fold (n_tmp (bump s) (TMd [])).
  assert (H1 : inv (n_tmp (bump s) (TMd [])) L S K [nid s]) by (apply (inv_new_tmp (bump s)); by apply inv_bump).
  apply t_coin.
  - apply holds_bind. eapply holds_mono; [apply t_free_tmp; by apply inv_bump|]. intros _ s1 [H2 ->]. apply holds_ret. split; [done|]. split; [frs|done].
  - apply holds_bind. eapply holds_mono; [eapply (t_feed (nid s) []); [apply inv_bump; exact H1|pj; by rewrite lookup_insert]|]. intros ok s2 (H2 & Q2 & C2 & _ & _ & M2 & _).
    assert (Q0 : ks_ s s2) by (destruct Q2; split; done). destruct ok; cbn [negb].
    + eapply holds_mono; [eapply (t_sid_end (nid s) [CName n] c); [done|done|by rewrite C2]|]. intros ok s3 (H3 & Q3 & C3 & _). split; [done|]. split; [by eapply ks_trans|done].
    + apply holds_bind. eapply holds_mono; [by apply t_free_tmp|]. intros _ s3 [H3 ->]. apply holds_ret. split; [done|]. split; [destruct Q0; split; done|]. pj. by rewrite C2.
Qed.
(** the parts of a file from number [i] on *)
Lemma t_read_loop n len m fp fuel : forall i l s L S K T, inv s L S K T -> tmps s !! m = Some (TMd l) -> is_Some (tmps s !! fp) -> fp <> m ->
  holds (read_loop fail fuel m fp n i len) s (λ _ s', inv s' L S K T /\ ks_ s s' /\ cx s' = cx s /\
    exists j, (j <= fuel)%nat /\ tmps s' !! m = Some (TMd (l ++ (CPart n <$> seq i j)))).
Proof.
  induction fuel as [|fuel IH]; intros i l s L S K T HI Hm [tf Hf] Hne; cbn [read_loop].
  - apply holds_ret. split; [done|]. split; [frs|]. split; [done|]. exists 0%nat. split; [lia|]. cbn. by rewrite app_nil_r.
  - apply holds_bind. eapply t_get; [done|]. cbv beta iota.
    assert (HE : inv (bump s) L S K T /\ ks_ s (bump s) /\ cx (bump s) = cx s /\ exists j, (j <= Datatypes.S fuel)%nat /\ tmps (bump s) !! m = Some (TMd (l ++ (CPart n <$> seq i j)))).
    { split; [by apply inv_bump|]. split; [frs|]. split; [done|]. exists 0%nat. split; [lia|]. cbn. by rewrite app_nil_r. }
    apply t_coin; cbn [orb]; [by apply holds_ret|]. destruct (len <=? 512 * i)%nat; [by apply holds_ret|].
    apply holds_bind. eapply holds_mono; [eapply (t_feed m l); [by apply inv_bump|done]|]. intros ok s1 (H1 & Q1 & C1 & _ & O1 & M1 & _). assert (Q0 : ks_ s s1) by (destruct Q1; split; done). destruct ok.
    + eapply holds_mono; [eapply (IH (Datatypes.S i) (l ++ [CPart n i])); [done|done|rewrite O1 by done; by eexists|done]|]. intros _ s2 (H2 & Q2 & C2 & j & Hj & M2).
      split; [done|]. split; [by eapply ks_trans|]. split; [by rewrite C2, C1|]. exists (Datatypes.S j). split; [lia|]. rewrite M2. cbn. by rewrite <- app_assoc.
    + apply holds_ret. split; [done|]. split; [done|]. split; [by rewrite C1|]. exists 0%nat. split; [lia|]. cbn. by rewrite app_nil_r.
Qed.
Lemma t_sid_file n c s L S K : inv s L S K [] -> cx s = Some c ->
  holds (sid_from_file fail files n) s (λ ok s', inv s' L S K [] /\ ks_ s s' /\ exists j, (j <= 2048)%nat /\ cx s' = Some (if ok then with_sid (Some (CName n :: (CPart n <$> seq 0 j))) c else c) /\ (ok = false -> ~ calm)).
Proof.
  intros HI Hc. unfold sid_from_file. apply t_coin'; [intros Hnc; apply holds_ret; split; [by apply inv_bump|]; split; [frs|exists 0%nat; split; [lia|done]]|].
  apply holds_bind. unfold new_tmp at 1. unfold holds at 1. pj. fold (n_tmp (bump s) (TMd [])).
  assert (H1 : inv (n_tmp (bump s) (TMd [])) L S K [nid s]) by (apply (inv_new_tmp (bump s)); by apply inv_bump).
  apply t_coin'.
  - intros Hnc. apply holds_bind. eapply holds_mono; [apply t_free_tmp; by apply inv_bump|]. intros _ s1 [H2 ->]. apply holds_ret. split; [done|]. split; [frs|]. exists 0%nat. split; [lia|done].
  - apply holds_bind. eapply holds_mono; [eapply (t_feed (nid s) []); [apply inv_bump; exact H1|pj; by rewrite lookup_insert]|]. intros ok s2 (H2 & Q2 & C2 & N2 & _ & M2 & Nc). pjs.
    assert (Q0 : ks_ s s2) by (destruct Q2; split; done). destruct ok; cbn [negb].
    2: { apply holds_bind. eapply holds_mono; [by apply t_free_tmp|]. intros _ s3 [H3 ->]. apply holds_ret. split; [done|]. split; [destruct Q0; split; done|]. exists 0%nat. split; [lia|]. pj. rewrite C2. split; [done|]. intros _. by apply Nc. }
    assert (HEND : forall s3 j, inv s3 L S K [nid s] -> ks_ s s3 -> cx s3 = Some c -> tmps s3 !! nid s = Some (TMd (CName n :: (CPart n <$> seq 0 j))) -> (j <= 2048)%nat ->
      holds (sid_end fail (nid s)) s3 (λ ok s', inv s' L S K [] /\ ks_ s s' /\ exists j, (j <= 2048)%nat /\ cx s' = Some (if ok then with_sid (Some (CName n :: (CPart n <$> seq 0 j))) c else c) /\ (ok = false -> ~ calm))).
    { intros s3 j H3 Q3 C3 M3 Hj. eapply holds_mono; [eapply t_sid_end; done|]. intros ok s4 (H4 & Q4 & C4 & N4). split; [done|]. split; [by eapply ks_trans|]. by exists j. }
    assert (HNO : holds (sid_end fail (nid s)) (bump s2) (λ ok s', inv s' L S K [] /\ ks_ s s' /\ exists j, (j <= 2048)%nat /\ cx s' = Some (if ok then with_sid (Some (CName n :: (CPart n <$> seq 0 j))) c else c) /\ (ok = false -> ~ calm))).
    { apply (HEND _ 0%nat); [by apply inv_bump|by destruct Q0|pj; by rewrite C2|done|lia]. }
    apply t_coin; [apply holds_bind; apply holds_ret; apply HNO|]. apply holds_bind. destruct (files n) as [[t len]|]; [|apply holds_ret; apply HNO].
    apply holds_bind. unfold new_tmp. unfold holds at 1. pj. fold (n_tmp (bump s2) (TFp n 0 len)).
    assert (H3 : inv (n_tmp (bump s2) (TFp n 0 len)) L S K [nid s2; nid s]) by (apply (inv_new_tmp (bump s2)); by apply inv_bump).
    apply holds_bind. eapply holds_mono; [eapply (t_read_loop n len (nid s) (nid s2) 2048 0 [CName n]); [exact H3| | |]|].
    + pj. rewrite lookup_insert_ne by lia. done.
    + pj. rewrite lookup_insert. eauto.
    + lia.
    + intros _ s4 (H4 & Q4 & C4 & j & Hj & M4). eapply holds_mono; [by eapply t_free_tmp|]. intros _ s5 [H5 ->]. apply (HEND _ j); [done| | | |done].
      * destruct Q0, Q4. pjs. split; pj; congruence.
      * pj. rewrite C4. pj. by rewrite C2.
      * pj. rewrite lookup_delete_ne by lia. done.
Qed.
(** * post_init *)
Lemma t_post ca_path ca_file sni npn data c s L : inv s L [] [] [] -> cx s = Some c -> c_ver c = VNone -> c_ca c = None ->
  holds (post_init fail match_ ca_path ca_file sni npn data) s (λ ok s', inv s' L [] [] [] /\ if ok then
    exists c' x y, cx s' = Some c' /\ c_cert c' = c_cert c /\ c_chain c' = c_chain c /\ c_key c' = c_key c /\ ks_ s s' /\
      c_cert c = Some x /\ c_key c = Some y /\ match_ (xc s x) (kc s y) = true /\
      c_nov2 c' = c_nov2 c /\ c_nov3 c' = c_nov3 c /\ c_sid c' = c_sid c /\ c_cache c' = CServer /\ c_alpn c' = npn && data /\
      match ca_path, ca_file with None, None => c_ver c' = VNone /\ c_ca c' = None | _, _ => c_ver c' = VPeerFail /\ c_ca c' = Some (ca_file, ca_path) end
    else cx s' = None /\ (calm -> forall x y, c_cert c = Some x -> c_key c = Some y -> match_ (xc s x) (kc s y) = false)).
Proof.
  intros HI Hc Hv Ha. assert (HF : forall s1 c1, inv s1 L [] [] [] -> cx s1 = Some c1 -> holds (SSL_CTX_free ;;; ret false) s1 (λ ok s', ok = false /\ inv s' L [] [] [] /\ cx s' = None)).
  { intros s1 c1 H1 C1. apply holds_bind. eapply holds_mono; [by eapply t_ctx_free|]. intros _ s2 [H2 C2]. by apply holds_ret. }
  unfold post_init. apply holds_bind. unfold holds at 1, check_private_key. rewrite Hc.
  assert (HIc : forall s1 c1 c2, inv s1 L [] [] [] -> cx s1 = Some c1 -> c_cert c2 = c_cert c1 -> c_chain c2 = c_chain c1 -> c_key c2 = c_key c1 -> inv (set_cx (Some c2) s1) L [] [] []).
  { intros s1 c1 c2 H1 C1 E1 E2 E3. eapply inv_cx; [exact H1| | |]; intros i; unfold held; rewrite C1, ?E1, ?E2, ?E3; done. }
  assert (Hno : forall s1 c1, inv s1 L [] [] [] -> cx s1 = Some c1 -> holds (SSL_CTX_free ;;; ret false) s1 (λ ok s', inv s' L [] [] [] /\ if ok then False else cx s' = None)).
  { intros s1 c1 H1 C1. eapply holds_mono; [by eapply HF|]. intros ok s2 (-> & ? & ?). done. }
  destruct (c_cert c) as [x|] eqn:Ex; [|eapply holds_mono; [by eapply Hno|]; intros [|] s1 [? ?]; [done|]; split; [done|]; split; [done|]; naive_solver].
  destruct (c_key c) as [y|] eqn:Ey; [|eapply holds_mono; [by eapply Hno|]; intros [|] s1 [? ?]; [done|]; split; [done|]; split; [done|]; naive_solver].
  destruct (match_ (xc s x) (kc s y)) eqn:Em; cbn [negb]; [|eapply holds_mono; [by eapply Hno|]; intros [|] s1 [? ?]; [done|]; split; [done|]; split; [done|]; naive_solver].
  set (cas := match ca_path, ca_file with None, None => None | _, _ => Some (ca_file, ca_path) end).
  set (ver := match ca_path, ca_file with None, None => VNone | _, _ => VPeerFail end).
  apply holds_bind. apply (holds_mono _ _ (λ ok s1, inv s1 L [] [] [] /\ ks_ s s1 /\ exists c1, cx s1 = Some c1 /\ (ok = true -> c1 = with_ver ver cas c) /\ (ok = false -> ~ calm))).
  - assert (HY : holds ((let* c0 := get_cx in put_cx (with_ver VPeerFail (c_ca c0) c0)) ;;; load_verify fail ca_file ca_path) s
        (λ ok s1, inv s1 L [] [] [] /\ ks_ s s1 /\ exists c1, cx s1 = Some c1 /\ (ok = true -> c1 = with_ver VPeerFail (Some (ca_file, ca_path)) c) /\ (ok = false -> ~ calm))).
    { apply holds_bind, holds_bind. apply (t_cx _ c); [done|]. apply (t_putcx _ c); [done|]. assert (H1 : inv (set_cx (Some (with_ver VPeerFail (c_ca c) c)) s) L [] [] []) by (by eapply HIc).
      unfold load_verify. apply t_coin'.
      - intros Hnc. apply holds_ret. split; [by apply inv_bump|]. split; [frs|]. eexists. split; [done|]. done.
      - apply holds_bind. eapply t_cx; [done|]. apply holds_bind. eapply t_putcx; [done|]. apply holds_ret. split; [eapply HIc; [by apply inv_bump|reflexivity|done|done|done]|]. split; [frs|]. eexists. split; [done|]. done. }
    unfold cas, ver. destruct ca_path as [cp|]; [exact HY|]. destruct ca_file as [cf|]; [exact HY|].
    apply holds_ret. split; [done|]. split; [done|]. exists c. split; [done|]. split; [|done]. intros _. destruct c; cbn in *; subst. done.
  - intros ok s1 (H1 & Q1 & c1 & C1 & E1 & N1). destruct ok; cbn [negb].
    2: { eapply holds_mono; [by eapply Hno|]; intros [|] s2 [? ?]; [done|]. split; [done|]. split; [done|]. intros Hcm. exfalso. by apply N1. }
    rewrite E1 in C1 by done. clear E1.
    assert (HZ : forall b : bool, holds ((let* c0 := get_cx in put_cx (with_cbs CServer (sni && negb b) (npn && data) c0)) ;;; ret true) (bump s1)
      (λ ok s', inv s' L [] [] [] /\ if ok then exists c' x0 y0, cx s' = Some c' /\ c_cert c' = Some x /\ c_chain c' = c_chain c /\ c_key c' = Some y /\ ks_ s s' /\
        Some x = Some x0 /\ Some y = Some y0 /\ match_ (xc s x0) (kc s y0) = true /\
        c_nov2 c' = c_nov2 c /\ c_nov3 c' = c_nov3 c /\ c_sid c' = c_sid c /\ c_cache c' = CServer /\ c_alpn c' = npn && data /\
        match ca_path, ca_file with None, None => c_ver c' = VNone /\ c_ca c' = None | _, _ => c_ver c' = VPeerFail /\ c_ca c' = Some (ca_file, ca_path) end else cx s' = None /\ (calm -> forall x0 y0, Some x = Some x0 -> Some y = Some y0 -> match_ (xc s x0) (kc s y0) = false))).
    { intros b. apply holds_bind, holds_bind. eapply t_cx; [exact C1|]. eapply t_putcx; [exact C1|]. apply holds_ret. split; [eapply HIc; [by apply inv_bump|exact C1|done|done|done]|].
      eexists _, x, y. split; [done|]. split; [done|]. split; [done|]. split; [done|]. split; [destruct Q1; split; done|]. split; [done|]. split; [done|]. split; [done|].
      split; [done|]. split; [done|]. split; [done|]. split; [done|]. split; [done|]. unfold cas, ver. by destruct ca_path, ca_file. }
    apply t_coin; apply HZ.
Qed.
End p.
