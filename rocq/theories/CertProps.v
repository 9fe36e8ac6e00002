(** Property C73: TLS contexts are built completely or not at all, and serve the certificates and the key they were given. *)
From stdpp Require Import gmap.
From Verif Require Import Count CertModel CertSpec CertProof CertProof2 CertProof3 CertProof4.
Local Open Scope Z_scope.

Lemma empty_inv : inv empty_st [] [] [] [].
Proof. split; [split|]; cbn [empty_st xs sts ks tmps cx nid]; try done; try (intros i; rewrite ?lookup_empty; done). Qed.
Lemma inv_none s L : inv s L [] [] [] -> cx s = None -> only_left s L.
Proof.
  intros [[O1 O2 O3 O4 O5 O6] _] Hc. assert (E3 : sts s = ∅).
  { apply map_eq. intros i. rewrite lookup_empty. specialize (O3 i). unfold held, pres in O3. rewrite Hc in O3. by destruct (sts s !! i). }
  assert (E4 : ks s = ∅).
  { apply map_eq. intros i. rewrite lookup_empty. specialize (O4 i). unfold held in O4. rewrite Hc in O4. destruct (ks s !! i) as [v|] eqn:E; [|done]. exfalso.
    pose proof (O5 _ _ E). unfold hget in O4. rewrite E in O4. change (occ i []) with 0 in O4. cbn in O4. lia. }
  assert (E6 : tmps s = ∅).
  { apply map_eq. intros i. rewrite lookup_empty. specialize (O6 i). unfold pres in O6. by destruct (tmps s !! i). }
  split_and!; try done. intros i. rewrite O1. unfold held. rewrite Hc, E3. replace (summ (occ i) ∅) with 0; [lia|]. done.
Qed.
Lemma prefix_upto t : upto t `prefix_of` certs_in t.
Proof.
  induction t as [|[c|k pw|l e] t IH]; cbn [upto certs_in omap list_omap]; [done|by apply prefix_cons|done|apply prefix_nil].
Qed.
Lemma stops_clean lib t : stops lib t -> ~ looks_like_end lib t -> bad_in t = [].
Proof.
  unfold stops. destruct (bad_in t) as [|[l e] r] eqn:E; [done|]. intros H HN. exfalso. apply HN. exists l, e. rewrite E. unfold end_of_text in H. cbn [fst snd] in H.
  apply andb_true_iff in H as [H1 H2]. apply Nat.eqb_eq in H1. split; [by left|]. split; [done|]. intros ->. by apply Nat.eqb_eq.
Qed.
Section p.
Context (fail : nat -> bool) (tty : list Z) (files : Z -> option (list pem * nat)) (match_ : Z -> Z -> bool).
Notation calm := (calm fail).
Definition base (c : ctx) : Prop := c_cert c = None /\ c_chain c = None /\ c_key c = None /\ conf c = (true, true, VNone, None, None, CDefault, false, false).
Lemma t_new s : inv s [] [] [] [] -> cx s = None ->
  holds (ctx_new fail) s (λ ok s', inv s' [] [] [] [] /\ if ok then exists c, cx s' = Some c /\ base c else cx s' = None /\ ~ calm).
Proof.
  intros HI Hc. unfold ctx_new. apply t_coin'.
  - intros Hn. apply holds_ret. split; [by apply inv_bump|]. done.
  - apply holds_bind. unfold holds at 1. cbn [cx bump]. rewrite Hc. apply holds_ret. split.
    + eapply inv_cx; [by apply inv_bump| | |]; intros i; unfold held; cbn [cx bump set_cx c_cert c_chain c_key]; rewrite Hc; rewrite ?oz_none; done.
    + eexists. split; [done|]. done.
Qed.
Lemma conf_eq c c' : conf c' = conf c -> c_nov2 c' = c_nov2 c /\ c_nov3 c' = c_nov3 c /\ c_ver c' = c_ver c /\ c_ca c' = c_ca c /\ c_sid c' = c_sid c.
Proof. unfold conf. intros [=]. done. Qed.
Lemma serves_intro lib pwok s t t' c x ch l y pw r : cx s = Some c -> c_cert c = Some x -> c_chain c = Some ch -> c_key c = Some y -> sts s !! ch = Some l -> stops lib t ->
  xc s x :: (xc s <$> l) = upto t -> keys_in t' = (kc s y, pw) :: r -> (pwok pw : Prop) -> match_ (xc s x) (kc s y) = true -> serves_texts lib s t t' match_ pwok.
Proof.
  intros C1 C2 C3 C4 C5 St U HK Hp Hm. exists (xc s x), (xc s <$> l), (kc s y), pw, r. split_and!; try done.
  - exists c, x, ch, l, y. done.
  - rewrite U. apply prefix_upto.
  - intros HN. pose proof (stops_clean _ _ St HN) as HB. split; [done|]. rewrite U. by apply upto_clean.
Qed.
Definition term_pw (pw : option (list Z)) : Prop := pw = None \/ pw = Some tty.
Lemma server_holds cert key ca_path ca_file sni npn data :
  let n := match cert with Some n => n | None => key end in
  holds (ctx_new_server fail tty files match_ cert key ca_path ca_file sni npn data) empty_st (λ ok s, inv s [] [] [] [] /\
    (ok = false -> cx s = None) /\
    (ok = true -> exists t t', text files (SFile n) = Some t /\ text files (SFile key) = Some t' /\ serves_texts true s t t' match_ term_pw /\
      set_up s (if asked ca_path ca_file then VPeerFail else VNone) (if asked ca_path ca_file then Some (ca_file, ca_path) else None) /\
      exists j, (j <= 2048)%nat /\ sid_of s = Some (CName n :: (CPart n <$> seq 0 j))) /\
    (calm -> forall t t', text files (SFile n) = Some t -> text files (SFile key) = Some t' -> good_texts t t' match_ term_pw -> ok = true)).
Proof.
  intros n. unfold ctx_new_server. apply holds_bind. eapply holds_mono; [apply t_new; [apply empty_inv|done]|]. intros [|] s1 [I1 H1]; cbn [negb].
  2: { destruct H1 as [C1 Hn]. apply holds_ret. done. }
  destruct H1 as (c1 & C1 & B1). destruct B1 as (B1a & B1b & B1c & B1).
  assert (HF : forall s c, inv s [] [] [] [] -> cx s = Some c -> holds (SSL_CTX_free ;;; ret false) s (λ ok s', ok = false /\ inv s' [] [] [] [] /\ cx s' = None)).
  { intros s c Hi Hc. apply holds_bind. eapply holds_mono; [by eapply t_ctx_free|]. intros _ s2 [? ?]. by apply holds_ret. }
  apply holds_bind.
  apply (holds_mono _ _ (λ ok s, exists c, inv s [] [] [] [] /\ cx s = Some c /\ c_nov2 c = true /\ c_nov3 c = true /\ c_ver c = VNone /\ c_ca c = None /\
    (ok = true -> exists t t' x ch l y pw r, text files (SFile n) = Some t /\ text files (SFile key) = Some t' /\ stops true t /\
      c_cert c = Some x /\ c_chain c = Some ch /\ c_key c = Some y /\ sts s !! ch = Some l /\ xc s x :: (xc s <$> l) = upto t /\ keys_in t' = (kc s y, pw) :: r /\ term_pw pw /\
      exists j, (j <= 2048)%nat /\ c_sid c = Some (CName n :: (CPart n <$> seq 0 j))) /\
    (calm -> forall t t', text files (SFile n) = Some t -> text files (SFile key) = Some t' -> good_texts t t' match_ term_pw -> ok = true))).
  - unfold load_cert_key. fold n. apply holds_bind. eapply holds_mono; [by eapply (t_chain_file fail files n c1)|]. intros ok s2 (c2 & I2 & C2 & F2 & T2 & G2). destruct ok; cbn [negb].
    2: { apply holds_ret. exists c2. destruct (conf_eq _ _ F2) as (-> & -> & -> & -> & _). unfold conf in B1. injection B1 as -> -> -> -> _ _ _ _. split_and!; try done.
      intros Hcm t t' Et _ (Hb & c & cs & k & pw & r & EC & _). apply (G2 Hcm t Et Hb). rewrite upto_clean by done. by rewrite EC. }
    destruct (T2 eq_refl) as (K2 & t & x & ch & l & Et & St & X2 & X3 & X4 & X5).
    apply holds_bind. eapply holds_mono; [by eapply (t_key_file fail tty files key c2)|]. intros ok s3 (c3 & I3 & C3 & F3 & Y1 & Y2 & Y3 & Y4 & T3 & G3). destruct ok; cbn [negb].
    2: { apply holds_ret. exists c3. destruct (conf_eq _ _ F3) as (-> & -> & -> & -> & _). destruct (conf_eq _ _ F2) as (-> & -> & -> & -> & _). unfold conf in B1. injection B1 as -> -> -> -> _ _ _ _. split_and!; try done.
      intros Hcm t0 t' _ Et' (Hb & c & cs & k & pw & r & EC & EK & Hp & _). by apply (G3 Hcm t' k pw r O Et' EK). }
    destruct (T3 eq_refl) as (t' & y & pw & r & j & Et' & Z1 & Z2 & Z3).
    eapply holds_mono; [by eapply (t_sid_file fail files n c3)|]. intros ok s4 (I4 & Q4 & j' & Hj & C4 & N4). exists (if ok then with_sid (Some (CName n :: (CPart n <$> seq 0 j'))) c3 else c3).
    split; [done|]. split; [done|]. destruct (conf_eq _ _ F3) as (W1 & W2 & W3 & W4 & _). destruct (conf_eq _ _ F2) as (V1 & V2 & V3 & V4 & _). unfold conf in B1. injection B1 as B2 B3 B4 B5 _ _ _ _.
    assert (HC : forall b : bool, c_nov2 (if b then with_sid (Some (CName n :: (CPart n <$> seq 0 j'))) c3 else c3) = true /\ c_nov3 (if b then with_sid (Some (CName n :: (CPart n <$> seq 0 j'))) c3 else c3) = true /\ c_ver (if b then with_sid (Some (CName n :: (CPart n <$> seq 0 j'))) c3 else c3) = VNone /\ c_ca (if b then with_sid (Some (CName n :: (CPart n <$> seq 0 j'))) c3 else c3) = None).
    { intros [|]; cbn [with_sid c_nov2 c_nov3 c_ver c_ca]; split_and!; congruence. }
    destruct (HC ok) as (U1 & U2 & U3 & U4). split; [done|]. split; [done|]. split; [done|]. split; [done|]. split.
    + intros ->. exists t, t', x, ch, l, y, pw, r. destruct Q4. cbn [with_sid c_cert c_chain c_key c_sid]. rewrite q_sts, q_xc, q_kc, Y1, Y2, Y3, Y4. split_and!; try done. by exists j'.
    + intros Hcm ? ? _ _ _. destruct ok; [done|]. by destruct (N4 eq_refl Hcm).
  - intros ok s2 (c2 & I2 & C2 & Z1 & Z2 & Z3 & Z4 & T2 & G2). destruct ok; cbn [negb].
    2: { eapply holds_mono; [by eapply HF|]. intros ok s3 (-> & ? & ?). by split_and!. }
    destruct (T2 eq_refl) as (t & t' & x & ch & l & y & pw & r & Et & Et' & St & X1 & X2 & X3 & X4 & X5 & X6 & X7 & j & Hj & X8).
    eapply holds_mono; [by eapply (t_post fail match_ ca_path ca_file sni npn data c2)|]. intros ok s3 (I3 & H3). split; [done|]. destruct ok.
    + destruct H3 as (c3 & x' & y' & C3 & E1 & E2 & E3 & Q3 & E4 & E5 & Em & E6 & E7 & E8 & E9 & _ & E10). rewrite X1 in E4. injection E4 as <-. rewrite X3 in E5. injection E5 as <-. split; [done|]. split; [|done].
      intros _. exists t, t'. split; [done|]. split; [done|]. destruct Q3. split; [|split].
      * eapply (serves_intro true term_pw s3 t t' c3 x ch l y pw r); [done|congruence|congruence|congruence|congruence|done| | |done|]; rewrite ?q_xc, ?q_kc; done.
      * exists c3. split; [done|]. split; [congruence|]. split; [congruence|]. unfold asked. by destruct ca_path, ca_file; cbv iota in E10 |- *.
      * exists j. split; [done|]. unfold sid_of. rewrite C3. congruence.
    + destruct H3 as [C3 H3]. split; [done|]. split; [done|]. intros Hcm t0 t0' E1 E2 (Hb & c & cs & k & pw0 & r0 & EC & EK & Hp & Hm). exfalso.
      rewrite Et in E1. injection E1 as <-. rewrite Et' in E2. injection E2 as <-. pose proof (H3 Hcm x y X1 X3) as HM. rewrite upto_clean, EC in X5 by done. injection X5 as X5 _. rewrite X6 in EK. injection EK as EK _. congruence.
Qed.
(** kgl_ssl_ctx_new_server *)
Theorem C73_server cert key ca_path ca_file sni npn data :
  let n := match cert with Some n => n | None => key end in
  exists ok s, ctx_new_server fail tty files match_ cert key ca_path ca_file sni npn data empty_st = Some (ok, s) /\
    (ok = false -> only_left s []) /\
    (ok = true -> owned s [] [] [] [] /\ exists t t', text files (SFile n) = Some t /\ text files (SFile key) = Some t' /\ serves_texts true s t t' match_ term_pw /\
      set_up s (if asked ca_path ca_file then VPeerFail else VNone) (if asked ca_path ca_file then Some (ca_file, ca_path) else None) /\
      exists j, (j <= 2048)%nat /\ sid_of s = Some (CName n :: (CPart n <$> seq 0 j))).
Proof.
  intros n. pose proof (server_holds cert key ca_path ca_file sni npn data) as H. cbv zeta in H. fold n in H. unfold holds in H.
  destruct (ctx_new_server fail tty files match_ cert key ca_path ca_file sni npn data empty_st) as [[ok s]|]; [|done]. exists ok, s. destruct H as (I & H1 & H2 & _).
  split; [done|]. split; [intros E; apply inv_none; auto|]. intros E. split; [by destruct I|auto].
Qed.
Theorem C73_server_works cert key ca_path ca_file sni npn data t t' :
  (forall i, fail i = false) -> text files (SFile (match cert with Some n => n | None => key end)) = Some t -> text files (SFile key) = Some t' -> good_texts t t' match_ term_pw ->
  exists s, ctx_new_server fail tty files match_ cert key ca_path ca_file sni npn data empty_st = Some (true, s).
Proof.
  intros Hf E1 E2 Hg. pose proof (server_holds cert key ca_path ca_file sni npn data) as H. unfold holds in H.
  destruct (ctx_new_server fail tty files match_ cert key ca_path ca_file sni npn data empty_st) as [[ok s]|]; [|done]. exists s. destruct H as (I & _ & _ & H). by rewrite (H Hf _ _ E1 E2 Hg).
Qed.

Lemma cert_text_src cert key : cert_text files cert key = text files (src_of cert key).
Proof. by destruct cert. Qed.
Lemma pw_ok_some pws pw j : pw_ok tty pws pw j -> some_pw tty pws pw.
Proof. destruct pws as [l|]; [|done]. intros [->|(p & Hp & Ho)]; [by left|]. right. exists p. split; [by eapply elem_of_list_lookup_2|done]. Qed.
Lemma some_pw_ok pws pw : some_pw tty pws pw -> exists j, pw_ok tty pws pw j.
Proof. destruct pws as [l|]; [|intros H; by exists O]. intros [->|(p & Hp & Ho)]; [exists O; by left|]. apply elem_of_list_lookup in Hp as [j Hp]. exists j. right. by exists p. Qed.
Lemma key_ok_pws cert key pws : key_ok files (cert, key, pws) -> key <> SNull /\ pws_ok files pws key.
Proof. intros [H1 H2]. split; [done|]. unfold pws_ok. destruct pws as [[|p l]|]; [|done|done]. intros t k pw. by apply H2. Qed.
Definition in_ctx (s : st) (L : list nat) : Prop := exists c, cx s = Some c /\ c_nov2 c = true /\ c_nov3 c = true /\ inv s L [] [] [].
Lemma reloads_holds l : forall ok s L, in_ctx s L -> (forall r, r ∈ l -> key_ok files r) ->
  holds (reloads fail tty files ok l) s (λ ok' s', exists L', (length L' <= length L + length l)%nat /\ in_ctx s' L' /\
    (forall cert key pws, last l = Some (cert, key, pws) -> ok' = true ->
      exists t t' c cs k pw r, cert_text files cert key = Some t /\ text files key = Some t' /\ serves s' c cs k /\ (c :: cs) `prefix_of` certs_in t /\
        (~ looks_like_end false t -> bad_in t = [] /\ c :: cs = certs_in t) /\ keys_in t' = (k, pw) :: r /\ some_pw tty pws pw) /\
    (calm -> forall cert key pws t t' k pw r, last l = Some (cert, key, pws) -> cert_text files cert key = Some t -> bad_in t = [] -> certs_in t <> [] -> text files key = Some t' ->
      keys_in t' = (k, pw) :: r -> some_pw tty pws pw -> ok' = true)).
Proof.
  induction l as [|[[cert key] pws] l IH]; intros ok s L Hi Hk; cbn [reloads].
  - apply holds_ret. exists L. split; [cbn; lia|]. split; [done|]. by split.
  - destruct (key_ok_pws cert key pws) as [Hk1 Hk2]; [apply Hk; by left|]. destruct Hi as (c & C & N2 & N3 & I). apply holds_bind.
    eapply holds_mono; [by eapply (t_certificate fail tty files cert key pws c s L [])|]. intros ok1 s1 (L0 & c1 & HL & I1 & C1 & F1 & T1 & G1).
    assert (Hi1 : in_ctx s1 (L0 ++ L)). { exists c1. destruct (conf_eq _ _ F1) as (-> & -> & _). done. }
    destruct l as [|r l].
    + apply holds_ret. exists (L0 ++ L). split; [rewrite app_length; cbn [length]; lia|]. split; [done|]. split.
      * intros cert' key' pws' [= <- <- <-] ->. destruct (T1 eq_refl) as (t & t' & x & ch & l & y & Et & Et' & St & X1 & X2 & X3 & X4 & X5 & (pw & r & j & EK & Hp) & _).
        exists t, t', (xc s1 x), (xc s1 <$> l), (kc s1 y), pw, r. rewrite cert_text_src. split; [done|]. split; [done|]. split; [by exists c1, x, ch, l, y|]. rewrite X5. split; [apply prefix_upto|].
        split; [|split; [done|by eapply pw_ok_some]]. intros HN. pose proof (stops_clean _ _ St HN) as HB. split; [done|]. by apply upto_clean.
      * intros Hcm cert' key' pws' t t' k pw r [= <- <- <-] Et Hb Hc Et' EK Hp. rewrite cert_text_src in Et. apply some_pw_ok in Hp as [j Hp].
        apply (G1 Hcm t t' k pw r j); try done. by rewrite upto_clean.
    + eapply holds_mono; [apply IH; [exact Hi1|intros q Hq; apply Hk; by right]|]. intros ok2 s2 (L' & HL' & Hi2 & T2 & G2). exists L'. rewrite app_length in HL'.
      split; [cbn [length] in *; lia|]. split; [done|]. split; [intros ???; rewrite last_cons_cons; apply T2|intros Hcm ????????; rewrite last_cons_cons; by apply G2].
Qed.
(** kgl_ssl_certificate, any number of times on a new context *)
Theorem C73_certificate_partial l : (forall r, r ∈ l -> key_ok files r) ->
  exists ok s, (let* ok := ctx_new fail in if ok : bool then reloads fail tty files true l else ret false) empty_st = Some (ok, s) /\
    ((exists L, (length L <= length l)%nat /\ owned s L [] [] [] /\ exists c, cx s = Some c /\ c_nov2 c = true /\ c_nov3 c = true) \/ (ok = false /\ only_left s [])) /\
    (ok = true -> forall cert key pws, last l = Some (cert, key, pws) ->
      exists t t' c cs k pw r, cert_text files cert key = Some t /\ text files key = Some t' /\ serves s c cs k /\ (c :: cs) `prefix_of` certs_in t /\
        (~ looks_like_end false t -> bad_in t = [] /\ c :: cs = certs_in t) /\ keys_in t' = (k, pw) :: r /\ some_pw tty pws pw) /\
    ((forall i, fail i = false) -> forall cert key pws t t' k pw r, last l = Some (cert, key, pws) -> cert_text files cert key = Some t -> bad_in t = [] -> certs_in t <> [] ->
      text files key = Some t' -> keys_in t' = (k, pw) :: r -> some_pw tty pws pw -> ok = true).
Proof.
  intros Hk. assert (H : holds (let* ok := ctx_new fail in if ok : bool then reloads fail tty files true l else ret false) empty_st (λ ok s,
    ((exists L, (length L <= length l)%nat /\ owned s L [] [] [] /\ exists c, cx s = Some c /\ c_nov2 c = true /\ c_nov3 c = true) \/ (ok = false /\ only_left s [])) /\
    (ok = true -> forall cert key pws, last l = Some (cert, key, pws) ->
      exists t t' c cs k pw r, cert_text files cert key = Some t /\ text files key = Some t' /\ serves s c cs k /\ (c :: cs) `prefix_of` certs_in t /\
        (~ looks_like_end false t -> bad_in t = [] /\ c :: cs = certs_in t) /\ keys_in t' = (k, pw) :: r /\ some_pw tty pws pw) /\
    (calm -> forall cert key pws t t' k pw r, last l = Some (cert, key, pws) -> cert_text files cert key = Some t -> bad_in t = [] -> certs_in t <> [] ->
      text files key = Some t' -> keys_in t' = (k, pw) :: r -> some_pw tty pws pw -> ok = true))).
  { apply holds_bind. eapply holds_mono; [apply t_new; [apply empty_inv|done]|]. intros [|] s1 [I1 H1].
    - destruct H1 as (c & C & _ & _ & _ & B). unfold conf in B. injection B as B2 B3 _ _ _ _ _ _. eapply holds_mono; [apply (reloads_holds l true s1 []); [by exists c|done]|].
      intros ok s2 (L & HL & (c2 & C2 & N2 & N3 & I2) & T2 & G2). split; [left; exists L; split; [cbn in HL; lia|]; split; [by destruct I2|by exists c2]|]. split; [intros E ????; by eapply T2|done].
    - destruct H1 as [C1 Hn]. apply holds_ret. split; [right; split; [done|by apply inv_none]|]. done. }
  unfold holds in H. match type of H with match ?x with _ => _ end => destruct x as [[ok s]|]; [|done] end. by exists ok, s.
Qed.
Definition name_of (x : src) : Z := match x with SData n _ | SFile n => n | _ => 0 end.
Lemma server2_holds cert key ca_path ca_file sni npn data : cert <> SNull -> key <> SNull ->
  holds (ctx_new_server2 fail tty files match_ cert key ca_path ca_file sni npn data) empty_st (λ ok s, exists L, (length L <= 1)%nat /\ inv s L [] [] [] /\
    (ok = false -> cx s = None) /\
    (ok = true -> exists t t', cert_text files cert key = Some t /\ text files key = Some t' /\ serves_texts false s t t' match_ term_pw /\
      set_up s (if asked ca_path ca_file then VPeerFail else VNone) (if asked ca_path ca_file then Some (ca_file, ca_path) else None) /\
      (sid_of s = None \/ sid_of s = Some [CName (name_of cert)])) /\
    (calm -> forall t t', cert_text files cert key = Some t -> text files key = Some t' -> good_texts t t' match_ term_pw -> ok = true)).
Proof.
  intros Hc Hk. unfold ctx_new_server2. apply holds_bind. eapply holds_mono; [apply t_new; [apply empty_inv|done]|]. intros [|] s1 [I1 H1]; cbn [negb].
  2: { destruct H1 as [C1 Hn]. apply holds_ret. exists []. split; [cbn; lia|]. done. }
  destruct H1 as (c1 & C1 & B1a & B1b & B1c & B1). unfold conf in B1. injection B1 as B2 B3 B4 B5 B6 _ _ _.
  apply holds_bind. eapply holds_mono; [by eapply (t_certificate fail tty files cert key None c1 s1 [] [])|]. intros ok s2 (L & c2 & HL & I2 & C2 & F2 & T2 & G2). rewrite app_nil_r in I2.
  destruct (conf_eq _ _ F2) as (V1 & V2 & V3 & V4 & V5). destruct ok; cbn [negb].
  2: { apply holds_bind. eapply holds_mono; [by eapply t_ctx_free|]. intros _ s3 [I3 C3]. apply holds_ret. exists L. split; [done|]. split; [done|]. split; [done|]. split; [done|].
    intros Hcm t t' Et Et' (Hb & c & cs & k & pw & r & EC & EK & Hp & _). rewrite cert_text_src in Et. apply (G2 Hcm t t' k pw r O); try done. rewrite upto_clean by done. by rewrite EC. }
  destruct (T2 eq_refl) as (t & t' & x & ch & l & y & Et & Et' & St & X1 & X2 & X3 & X4 & X5 & (pw & r & j & EK & Hp) & _). rewrite <- cert_text_src in Et.
  apply holds_bind. apply (holds_mono _ _ (λ (_ : bool) s3, inv s3 L [] [] [] /\ ks_ s2 s3 /\ exists c3, cx s3 = Some c3 /\ (c3 = c2 \/ c3 = with_sid (Some [CName (name_of cert)]) c2))).
  { destruct cert as [| |m u|m]; [done| | |].
    all: eapply holds_mono; [by eapply (t_sid_buffer fail _ c2)|]; intros ok s3 (I3 & Q3 & C3); split; [done|]; split; [done|]; eexists; split; [exact C3|]; destruct ok; [by right|by left]. }
  intros _ s3 (I3 & Q3 & c3 & C3 & E3). assert (EQ : c_cert c3 = c_cert c2 /\ c_chain c3 = c_chain c2 /\ c_key c3 = c_key c2 /\ c_nov2 c3 = true /\ c_nov3 c3 = true /\ c_ver c3 = VNone /\ c_ca c3 = None /\ (c_sid c3 = None \/ c_sid c3 = Some [CName (name_of cert)])).
  { destruct E3 as [->| ->]; cbn [with_sid c_cert c_chain c_key c_nov2 c_nov3 c_ver c_ca c_sid]; split_and!; try congruence; [left; congruence|by right]. }
  destruct EQ as (Q1 & Q2 & Q4 & Q5 & Q6 & Q7 & Q8 & Q9).
  eapply holds_mono; [by eapply (t_post fail match_ ca_path ca_file sni npn data c3)|]. intros ok s4 (I4 & H4). exists L. split; [done|]. split; [done|]. destruct ok.
  + destruct H4 as (c4 & x' & y' & C4 & E1 & E2 & E3' & Q3' & E4 & E5 & Em & E6 & E7 & E8 & E9 & _ & E10). rewrite Q1, X1 in E4. injection E4 as <-. rewrite Q4, X3 in E5. injection E5 as <-. split; [done|]. split; [|done].
    intros _. exists t, t'. split; [done|]. split; [done|]. destruct Q3, Q3'. rewrite q_xc, q_kc in Em. split; [|split].
    * eapply (serves_intro false term_pw s4 t t' c4 x ch l y pw r); [done|congruence|congruence|congruence|congruence|done| | |done|]; rewrite ?q_xc0, ?q_kc0, ?q_xc, ?q_kc; done.
    * exists c4. split; [done|]. split; [congruence|]. split; [congruence|]. unfold asked. by destruct ca_path, ca_file; cbv iota in E10 |- *.
    * unfold sid_of. rewrite C4, E8. done.
  + destruct H4 as [C4 H4]. split; [done|]. split; [done|]. intros Hcm t0 t0' E1 E2 (Hb & c & cs & k & pw0 & r0 & EC & EK' & Hp' & Hm). exfalso.
    rewrite Et in E1. injection E1 as <-. rewrite Et' in E2. injection E2 as <-. destruct Q3. pose proof (H4 Hcm x y) as HM. rewrite Q1, Q4, q_xc, q_kc in HM. specialize (HM X1 X3).
    rewrite upto_clean, EC in X5 by done. injection X5 as X5 _. rewrite EK in EK'. injection EK' as EK' _. congruence.
Qed.
(** kgl_ssl_ctx_new_server2: at most one certificate object is left behind *)
Theorem C73_server2_safe_partial cert key ca_path ca_file sni npn data : cert <> SNull -> key <> SNull ->
  exists ok s L, ctx_new_server2 fail tty files match_ cert key ca_path ca_file sni npn data empty_st = Some (ok, s) /\ (length L <= 1)%nat /\
    (ok = false -> only_left s L) /\
    (ok = true -> owned s L [] [] [] /\ exists t t', cert_text files cert key = Some t /\ text files key = Some t' /\ serves_texts false s t t' match_ term_pw /\
      set_up s (if asked ca_path ca_file then VPeerFail else VNone) (if asked ca_path ca_file then Some (ca_file, ca_path) else None) /\
      (sid_of s = None \/ sid_of s = Some [CName (name_of cert)])) /\
    ((forall i, fail i = false) -> forall t t', cert_text files cert key = Some t -> text files key = Some t' -> good_texts t t' match_ term_pw -> ok = true).
Proof.
  intros Hc Hk. pose proof (server2_holds cert key ca_path ca_file sni npn data Hc Hk) as H. unfold holds in H.
  destruct (ctx_new_server2 fail tty files match_ cert key ca_path ca_file sni npn data empty_st) as [[ok s]|]; [|done]. destruct H as (L & HL & I & H1 & H2 & H3). exists ok, s, L.
  split; [done|]. split; [done|]. split; [intros E; apply inv_none; auto|]. split; [|done]. intros E. split; [by destruct I|auto].
Qed.
(** kgl_ssl_ctx_new_client: the server is verified exactly if authorities are given *)
Theorem C73_client ca_path ca_file npn data :
  exists ok s, ctx_new_client fail ca_path ca_file npn data empty_st = Some (ok, s) /\ (ok = false -> only_left s []) /\
    (ok = true -> owned s [] [] [] [] /\ set_up s (if asked ca_path ca_file then VPeer else VNone) (if asked ca_path ca_file then Some (ca_file, ca_path) else None)) /\
    ((forall i, fail i = false) -> ok = true).
Proof.
  assert (H : holds (ctx_new_client fail ca_path ca_file npn data) empty_st (λ ok s, inv s [] [] [] [] /\ (ok = false -> cx s = None) /\
    (ok = true -> set_up s (if asked ca_path ca_file then VPeer else VNone) (if asked ca_path ca_file then Some (ca_file, ca_path) else None)) /\ (calm -> ok = true))).
  { unfold ctx_new_client. apply holds_bind. eapply holds_mono; [apply t_new; [apply empty_inv|done]|]. intros [|] s1 [I1 H1]; cbn [negb].
    2: { destruct H1 as [C1 Hn]. by apply holds_ret. }
    destruct H1 as (c1 & C1 & B1a & B1b & B1c & B1). unfold conf in B1. injection B1 as B2 B3 B4 B5 B6 _ _ _.
    assert (HIc : forall s1 c1 c2, inv s1 [] [] [] [] -> cx s1 = Some c1 -> c_cert c2 = c_cert c1 -> c_chain c2 = c_chain c1 -> c_key c2 = c_key c1 -> inv (set_cx (Some c2) s1) [] [] [] []).
    { intros s2 c c' J1 J2 E1 E2 E3. eapply inv_cx; [exact J1| | |]; intros i; unfold held; rewrite J2, ?E1, ?E2, ?E3; done. }
    apply holds_bind. apply (holds_mono _ _ (λ ok s2, inv s2 [] [] [] [] /\ exists c2, cx s2 = Some c2 /\ c_nov2 c2 = true /\ c_nov3 c2 = true /\
      (ok = true -> c_ver c2 = (if asked ca_path ca_file then VPeer else VNone) /\ c_ca c2 = (if asked ca_path ca_file then Some (ca_file, ca_path) else None)) /\ (ok = false -> ~ calm))).
    - assert (HY : holds ((let* c0 := get_cx in put_cx (with_ver VPeer (c_ca c0) c0)) ;;; load_verify fail ca_file ca_path) s1
        (λ ok s2, inv s2 [] [] [] [] /\ exists c2, cx s2 = Some c2 /\ c_nov2 c2 = true /\ c_nov3 c2 = true /\ (ok = true -> c_ver c2 = VPeer /\ c_ca c2 = Some (ca_file, ca_path)) /\ (ok = false -> ~ calm))).
      { apply holds_bind, holds_bind. apply (t_cx _ c1); [done|]. apply (t_putcx _ c1); [done|]. assert (J1 : inv (set_cx (Some (with_ver VPeer (c_ca c1) c1)) s1) [] [] [] []) by (by eapply HIc).
        unfold load_verify. apply t_coin'.
        - intros Hnc. apply holds_ret. split; [by apply inv_bump|]. eexists. split; [done|]. done.
        - apply holds_bind. eapply t_cx; [done|]. apply holds_bind. eapply t_putcx; [done|]. apply holds_ret. split; [eapply HIc; [by apply inv_bump|reflexivity|done|done|done]|]. eexists. split; [done|]. done. }
      unfold asked. destruct ca_path as [cp|]; [exact HY|]. destruct ca_file as [cf|]; [exact HY|]. apply holds_ret. split; [done|]. exists c1. done.
    - intros ok s2 (I2 & c2 & C2 & N2 & N3 & T2 & F2). destruct ok; cbn [negb].
      + apply holds_bind, holds_bind. eapply t_cx; [exact C2|]. eapply t_putcx; [exact C2|]. apply holds_ret. split; [by eapply HIc|]. split; [done|]. split; [|done]. intros _. destruct (T2 eq_refl) as [? ?]. eexists. split; [done|]. done.
      + apply holds_bind. eapply holds_mono; [by eapply t_ctx_free|]. intros _ s3 [I3 C3]. apply holds_ret. split; [done|]. split; [done|]. split; [done|]. intros Hcm. by destruct (F2 eq_refl). }
  unfold holds in H. destruct (ctx_new_client fail ca_path ca_file npn data empty_st) as [[ok s]|]; [|done]. destruct H as (I & H1 & H2 & H3). exists ok, s.
  split; [done|]. split; [intros E; apply inv_none; auto|]. split; [|done]. intros E. split; [by destruct I|auto].
Qed.
End p.
