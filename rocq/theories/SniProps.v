(** Property C74: server name and application protocol of a TLS connection. *)
From stdpp Require Import list list_numbers.
From Verif Require Import SniModel SniSpec.
Local Open Scope Z_scope.

(** * SSL_select_next_proto *)
Lemma memeq_spec p q : forall a b, length p = length q -> memeq (p ++ a) (q ++ b) (length p) = Some (bool_decide (p = q)).
Proof.
  revert q. induction p as [|x p IH]; intros [|y q] a b H; [cbn [length memeq]; f_equal; symmetry; by apply bool_decide_eq_true|done|done|]. cbn [length app memeq]. cbn [length] in H. destruct (x =? y) eqn:E.
  - apply Z.eqb_eq in E as ->. rewrite IH by lia. f_equal. apply bool_decide_ext. split; [by intros ->|by intros [=]].
  - apply Z.eqb_neq in E. f_equal. symmetry. apply bool_decide_eq_false. by intros [=].
Qed.
Lemma enc_len ps : (length ps <= length (enc ps))%nat.
Proof. induction ps as [|p ps IH]; cbn [enc length]; [lia|]. rewrite app_length. lia. Qed.
Lemma sel_client_spec p r cs : forall fuel, (length (enc cs) < fuel)%nat -> sel_client fuel (Z.of_nat (length p) :: p ++ r) (enc cs) = Some (bool_decide (p ∈ cs)).
Proof.
  induction cs as [|q cs IH]; intros [|fuel] Hf; try lia; cbn [enc sel_client].
  - f_equal; symmetry; apply bool_decide_eq_false; by apply not_elem_of_nil.
  - cbn [enc length] in Hf. rewrite app_length in Hf. destruct (Z.of_nat (length p) =? Z.of_nat (length q)) eqn:E.
    + apply Z.eqb_eq in E. rewrite Nat2Z.id, memeq_spec by lia. destruct (decide (p = q)) as [Hd|Hd].
      * rewrite (bool_decide_eq_true_2 (p = q)) by done. subst q. f_equal. symmetry. apply bool_decide_eq_true. by left.
      * rewrite (bool_decide_eq_false_2 (p = q)) by done. replace (Z.to_nat (Z.of_nat (length q))) with (length q) by lia. rewrite drop_app. rewrite IH by lia. f_equal. apply bool_decide_ext. rewrite elem_of_cons. naive_solver.
    + apply Z.eqb_neq in E. rewrite Nat2Z.id, drop_app, IH by lia. f_equal. apply bool_decide_ext. rewrite elem_of_cons. split; [by right|]. intros [->|]; [lia|done].
Qed.
(** the first protocol of the server's list that the client offers *)
Theorem C74_select ps cs : forall fuel, (length (enc ps) < fuel)%nat -> select_proto fuel (enc ps) (enc cs) = Some (pick ps cs).
Proof.
  induction ps as [|p ps IH]; intros [|fuel] Hf; try lia; cbn [enc select_proto]; [done|]. cbn [enc length] in Hf. rewrite app_length in Hf.
  rewrite sel_client_spec by lia. unfold pick. destruct (decide (p ∈ cs)) as [Hd|Hd].
  - rewrite (bool_decide_eq_true_2 (p ∈ cs)) by done. rewrite filter_cons_True by done. cbn [head]. rewrite Nat2Z.id, take_app, app_length. destruct (length p + length (enc ps) <? length p)%nat eqn:El; [|done]. apply Nat.ltb_lt in El. lia.
  - rewrite (bool_decide_eq_false_2 (p ∈ cs)) by done. rewrite filter_cons_False by done. rewrite Nat2Z.id, drop_app. rewrite IH by lia. done.
Qed.
Lemma enc_http : enc [HTTP11] = NPN_DEFAULT.
Proof. done. Qed.

Lemma filter_ext_in {A} (P Q : A -> Prop) `{!forall x, Decision (P x)} `{!forall x, Decision (Q x)} (l : list A) : (forall x, x ∈ l -> P x <-> Q x) -> filter P l = filter Q l.
Proof.
  induction l as [|x l IH]; intros HPQ; [done|]. assert (IH' : filter P l = filter Q l) by (apply IH; intros y Hy; apply HPQ; by right). destruct (decide (P x)) as [HP|HP].
  - rewrite !filter_cons_True; [by f_equal| |done]. apply HPQ; [by left|done].
  - rewrite !filter_cons_False; [done| |done]. intros HQ. apply HP, HPQ; [by left|done].
Qed.
Section p.
Context (ctxs : nat -> ctx) (create : nat -> list Z -> bool * option nat) (npn : option Z -> option (list Z)) (on reject : bool) (init : nat) (ps : option Z -> list (list Z)).
Context (Hps : offers npn ps) (Hon : forall i, sn_cb (ctxs i) = true -> on = true).
Notation sni_ := (kgl_ssl_sni create on reject).
Notation hello_ := (client_hello ctxs create npn on reject init).
(** the history of the calls is what the callback answered *)
Definition honest (l : list call) : Prop := forall i c, l !! i = Some c -> create i (c_name c) = (c_obj c, c_ctx c).
Record inv (s : st) : Prop := {
  v_sni : sni s = head (objects (calls s));
  v_last : forall i c, calls s !! i = Some c -> c_obj c = true -> S i = length (calls s);
  v_cur : cur s = chosen init (calls s);
  v_freed : freed s = [];
  v_honest : honest (calls s) }.
Lemma objects_snoc l c : objects (l ++ [c]) = objects l ++ (if c_obj c then [length l] else []).
Proof.
  unfold objects. rewrite app_length. cbn [length]. rewrite Nat.add_comm. cbn [Nat.add]. rewrite seq_S, filter_app. cbn [Nat.add]. f_equal.
  - apply filter_ext_in. intros i Hi. apply elem_of_seq in Hi. by rewrite lookup_app_l by lia.
  - destruct (c_obj c) eqn:E; [rewrite filter_cons_True|rewrite filter_cons_False]; try done; rewrite list_lookup_middle by done; cbn; [by rewrite E|]. intros [= H]. congruence.
Qed.
Lemma objects_none l : objects l = [] -> forall i c, l !! i = Some c -> c_obj c = false.
Proof.
  intros H i c Hi. destruct (c_obj c) eqn:E; [|done]. exfalso. assert (Hin : i ∈ objects l); [|rewrite H in Hin; by apply elem_of_nil in Hin].
  apply elem_of_list_filter. rewrite Hi. cbn. rewrite E. split; [done|]. apply elem_of_seq. apply lookup_lt_Some in Hi. lia.
Qed.
Lemma objects_le s : inv s -> (length (objects (calls s)) <= 1)%nat.
Proof.
  intros HI. pose proof (v_last _ HI) as HL. destruct (objects (calls s)) as [|i [|j l]] eqn:E; cbn; [lia|lia|]. exfalso.
  assert (Hi : i ∈ objects (calls s)) by (rewrite E; by left). assert (Hj : j ∈ objects (calls s)) by (rewrite E; right; by left).
  assert (HN : NoDup (objects (calls s))) by (apply NoDup_filter, NoDup_seq). rewrite E in HN. apply NoDup_cons in HN as [HN _]. apply HN.
  apply elem_of_list_filter in Hi as [Hi _]. apply elem_of_list_filter in Hj as [Hj _].
  destruct (calls s !! i) as [c|] eqn:Ei; [|done]. destruct (calls s !! j) as [c'|] eqn:Ej; [|done]. cbn in Hi, Hj. injection Hi as Hi. injection Hj as Hj.
  pose proof (HL _ _ Ei Hi). pose proof (HL _ _ Ej Hj). assert (i = j) as -> by lia. by left.
Qed.
Lemma sni_none s : inv s -> sni s = None -> objects (calls s) = [].
Proof. intros HI E. rewrite (v_sni _ HI) in E. by destruct (objects (calls s)). Qed.
(** one call of kgl_ssl_sni *)
Lemma sni_step name s : inv s -> on = true -> exists ok s', sni_ name s = Some (ok, s') /\ inv s' /\ refused s' = refused s /\ alpn s' = alpn s /\
  (ok = false -> reject = true /\ name = None /\ sni s = None) /\ (reject = true -> name = None -> sni s = None -> ok = false) /\
  ((calls s' = calls s /\ s' = s /\ (is_Some (sni s) \/ name = None)) \/
   exists nm, name = Some nm /\ sni s = None /\ calls s' = calls s ++ [mkcall nm (fst (create (length (calls s)) nm)) (snd (create (length (calls s)) nm))]).
Proof.
  intros HI Hon1. unfold kgl_ssl_sni. rewrite Hon1. cbn [negb]. destruct (sni s) as [o|] eqn:Es.
  { exists true, s. split_and!; try done. left. split_and!; try done. left. by eexists. }
  destruct name as [nm|].
  2: { exists (negb reject), s. split_and!; try done; [intros H; by destruct reject|by intros ->|]. left. split_and!; try done. by right. }
  destruct (create (length (calls s)) nm) as [o c] eqn:Ec. eexists true, _. split; [done|]. split; [|split_and!; try done; right; exists nm; by rewrite Ec].
  pose proof (sni_none _ HI Es) as Ho. split; cbn [sni calls cur freed].
  - rewrite objects_snoc, Ho. cbn [c_obj]. by destruct o.
  - intros i x Hi Hx. apply lookup_app_Some in Hi as [Hi|[Hi1 Hi]]; [rewrite (objects_none _ Ho _ _ Hi) in Hx; done|].
    rewrite app_length. cbn [length]. apply lookup_lt_Some in Hi. cbn [length] in Hi. lia.
  - unfold chosen. rewrite omap_app. cbn [omap list_omap c_ctx]. destruct c as [c|].
    + by rewrite last_snoc.
    + rewrite app_nil_r. apply (v_cur _ HI).
  - apply (v_freed _ HI).
  - intros i x Hi. apply lookup_app_Some in Hi as [Hi|[Hi1 Hi]]; [by apply (v_honest _ HI)|].
    destruct (i - length (calls s))%nat eqn:En; [|by destruct n]. cbn in Hi. injection Hi as <-. cbn [c_name c_obj c_ctx]. by replace i with (length (calls s)) by lia.
Qed.
Lemma inv_alpn s x : inv s -> inv (set_alpn x s).
Proof. by intros []. Qed.
Lemma inv_refuse s : inv s -> inv (refuse s).
Proof. by intros []. Qed.
Lemma mine_enc d : match npn d with Some l => l | None => NPN_DEFAULT end = enc (ps d).
Proof. destruct (Hps d) as [_ H]. destruct (npn d) as [l|]; [done|]. by rewrite H, enc_http. Qed.
Lemma npn_step name a s : inv s -> (exists cs, a = enc cs) -> exists ok s', kgl_ssl_npn_selected ctxs create npn on reject name a s = Some (ok, s') /\ inv s' /\ refused s' = refused s /\
  (ok = true -> forall cs, a = enc cs -> alpn s' = pick (ps (data (ctxs (cur s')))) cs) /\ (ok = false -> reject = true /\ name = None) /\
  ((is_Some (sni s) \/ on = false \/ name = None) -> cur s' = cur s /\ calls s' = calls s) /\ (ok = true -> reject = true -> name = None -> on = true -> is_Some (sni s)) /\ exists l, calls s' = calls s ++ l.
Proof.
  intros HI [cs0 Ha]. unfold kgl_ssl_npn_selected. destruct on eqn:Eon.
  - destruct (sni_step name s HI Eon) as (ok & s' & E & I' & R' & A' & F' & G' & C'). rewrite Eon in E. rewrite E.
    assert (CP : exists l, calls s' = calls s ++ l) by (destruct C' as [(C' & _)|(nm & _ & _ & C')]; [exists []; by rewrite app_nil_r|by eexists]).
    assert (CK : (is_Some (sni s) \/ true = false \/ name = None) -> cur s' = cur s /\ calls s' = calls s).
    { intros H. destruct C' as [(_ & -> & _)|(nm & -> & Hn & _)]; [done|]. destruct H as [[o Ho]|[|]]; [congruence|done|done]. }
    destruct ok.
    + rewrite mine_enc, Ha, C74_select by lia. eexists true, _. split; [done|]. split; [by apply inv_alpn|]. split; [done|]. split; [|split; [done|split; [exact CK|split; [|exact CP]]]].
      * intros _ cs Hcs. cbn [set_alpn alpn cur]. pose proof (C74_select (ps (data (ctxs (cur s')))) cs0 (S (length (enc (ps (data (ctxs (cur s'))))))) ltac:(lia)) as H1.
        rewrite Hcs, C74_select in H1 by lia. by injection H1.
      * intros _ Hr Hn _. destruct (sni s) as [o|] eqn:Es; [by eexists|]. specialize (G' Hr Hn eq_refl). done.
    + exists false, s'. split; [done|]. split; [done|]. split; [done|]. split; [done|]. destruct (F' eq_refl) as (? & ? & HN). split; [done|]. split; [exact CK|]. split; [done|exact CP].
  - rewrite mine_enc, Ha, C74_select by lia. eexists true, _. split; [done|]. split; [by apply inv_alpn|]. split; [done|]. split; [|split; [done|split; [done|split; [done|exists []; by rewrite app_nil_r]]]].
    intros _ cs Hcs. cbn [set_alpn alpn cur]. pose proof (C74_select (ps (data (ctxs (cur s)))) cs0 (S (length (enc (ps (data (ctxs (cur s))))))) ltac:(lia)) as H1.
    rewrite Hcs, C74_select in H1 by lia. by injection H1.
Qed.
Lemma hello_step h s : inv s -> (forall a, h_alpn h = Some a -> exists cs, wire cs /\ a = enc cs) ->
  exists s', hello_ h s = Some s' /\ inv s' /\ (refused s = true -> s' = s) /\ (exists l, calls s' = calls s ++ l) /\
    (refused s = false -> refused s' = true -> reject = true /\ h_name h = None) /\
    (refused s' = false -> forall p, alpn s' = Some p -> exists cs, h_alpn h = Some (enc cs) /\ pick (ps (data (ctxs (cur s')))) cs = Some p) /\
    (sn_cb (ctxs init) = true -> reject = true -> h_name h = None -> sni s = None -> refused s' = true) /\
    (sn_cb (ctxs init) = true -> (forall n nm, fst (create n nm) = true) -> refused s = false -> refused s' = false ->
       calls s' = (match sni s, h_name h with None, Some nm => calls s ++ [mkcall nm true (snd (create (length (calls s)) nm))] | _, _ => calls s end) /\
       alpn s' = (if al_cb (ctxs (cur s')) then match h_alpn h with None => None | Some _ => alpn s' end else None) /\
       (al_cb (ctxs (cur s')) = true -> forall cs, h_alpn h = Some (enc cs) -> alpn s' = pick (ps (data (ctxs (cur s')))) cs)).
Proof.
  intros HI Hw. unfold client_hello. destruct (refused s) eqn:ER.
  { exists s. split; [done|]. split; [done|]. split; [done|]. split; [exists []; by rewrite app_nil_r|]. split; [done|]. split; [congruence|]. split; [done|]. done. }
  destruct (sn_cb (ctxs (cur s)) || sn_cb (ctxs init)) eqn:ESN.
  - assert (Eon : on = true) by (apply orb_true_iff in ESN as [H|H]; by eapply Hon).
    destruct (sni_step (h_name h) s HI Eon) as (ok & s1 & E & I1 & R1 & A1 & F1 & G1 & C1). rewrite E.
    assert (CP : exists l, calls s1 = calls s ++ l) by (destruct C1 as [(C1 & _)|(nm & _ & _ & C1)]; [exists []; by rewrite app_nil_r|by eexists]).
    destruct ok.
    2: { exists (refuse s1). destruct (F1 eq_refl) as (? & ? & ?). split; [done|]. split; [by apply inv_refuse|]. split; [done|]. split; [done|]. split; [done|]. split; [done|]. split; [done|]. done. }
    assert (Hsn : (forall n nm, fst (create n nm) = true) -> is_Some (h_name h) -> is_Some (sni s1)).
    { intros Hc [nm Hn]. destruct C1 as [(_ & -> & [H|H])|(nm' & _ & Hs & C1)]; [done|congruence|]. rewrite (v_sni _ I1), C1, objects_snoc, (sni_none _ HI Hs). cbn [c_obj]. rewrite Hc. by eexists. }
    assert (HC1 : (forall n nm, fst (create n nm) = true) -> calls s1 = match sni s, h_name h with None, Some nm => calls s ++ [mkcall nm true (snd (create (length (calls s)) nm))] | _, _ => calls s end).
    { intros Hc. destruct C1 as [(C1 & _ & [[o ->]|Hn])|(nm & -> & -> & C1)]; [done|rewrite Hn; by destruct (sni s)|]. by rewrite C1, Hc. }
    destruct (al_cb (ctxs (cur s1))) eqn:EA; [destruct (h_alpn h) as [a|] eqn:Ea|].
    + destruct (Hw a eq_refl) as (cs & Hcs & Hae). destruct (npn_step (h_name h) a s1 I1) as (ok & s2 & E2 & I2 & R2 & T2 & F2 & K2 & N2 & (l2 & C2)); [by exists cs|]. rewrite E2.
      assert (CP2 : exists l, calls s2 = calls s ++ l) by (destruct CP as [l1 CP]; exists (l1 ++ l2); by rewrite C2, CP, app_assoc). destruct ok.
      * exists s2. split; [done|]. split; [done|]. split; [done|]. split; [done|].
        split; [rewrite R2, R1, ER; done|]. split; [intros _ p Hp; exists cs; split; [by rewrite <- Hae|]; by rewrite <- (T2 eq_refl)|]. split; [intros _ Hr Hn Hs; specialize (G1 Hr Hn Hs); done|].
        intros Hsn1 Hc _ _. destruct K2 as (K2 & K3); [destruct (h_name h) as [nm|] eqn:Ehn; [left; apply Hsn; [done|by eexists]|by right; right]|].
        rewrite K3, K2, EA. split; [by apply HC1|]. split; [done|]. intros _ cs' [= Hcs']. rewrite <- K2. by apply T2.
      * exists (refuse s2). destruct (F2 eq_refl) as (? & ?). split; [done|]. split; [by apply inv_refuse|]. split; [done|]. split; [done|]. split; [done|]. split; [done|]. split; [done|]. done.
    + exists (set_alpn None s1). split; [done|]. split; [by apply inv_alpn|]. split; [done|]. split; [done|]. cbn [set_alpn refused alpn cur calls]. split; [rewrite R1, ER; done|]. split; [done|].
      split; [intros _ Hr Hn Hs; specialize (G1 Hr Hn Hs); done|]. intros _ Hc _ _. rewrite EA. split; [by apply HC1|]. done.
    + exists (set_alpn None s1). split; [done|]. split; [by apply inv_alpn|]. split; [done|]. split; [done|]. cbn [set_alpn refused alpn cur calls]. split; [rewrite R1, ER; done|]. split; [done|].
      split; [intros _ Hr Hn Hs; specialize (G1 Hr Hn Hs); done|]. intros _ Hc _ _. rewrite EA. split; [by apply HC1|]. done.
  - apply orb_false_iff in ESN as [_ ESN]. rewrite ESN. destruct (al_cb (ctxs (cur s))) eqn:EA; [destruct (h_alpn h) as [a|] eqn:Ea|].
    + destruct (Hw a eq_refl) as (cs & Hcs & Hae). destruct (npn_step (h_name h) a s HI) as (ok & s2 & E2 & I2 & R2 & T2 & F2 & K2 & N2 & C2); [by exists cs|]. rewrite E2. destruct ok.
      * exists s2. split; [done|]. split; [done|]. split; [done|]. split; [done|]. split; [rewrite R2, ER; done|].
        split; [intros _ p Hp; exists cs; split; [by rewrite <- Hae|]; by rewrite <- (T2 eq_refl)|]. done.
      * exists (refuse s2). destruct (F2 eq_refl) as (? & ?). split; [done|]. split; [by apply inv_refuse|]. split_and!; done.
    + exists (set_alpn None s). split; [done|]. split; [by apply inv_alpn|]. split; [done|]. split; [exists []; cbn; by rewrite app_nil_r|]. cbn [set_alpn refused alpn cur calls]. rewrite ER. done.
    + exists (set_alpn None s). split; [done|]. split; [by apply inv_alpn|]. split; [done|]. split; [exists []; cbn; by rewrite app_nil_r|]. cbn [set_alpn refused alpn cur calls]. rewrite ER. done.
Qed.
Notation run_ := (hellos ctxs create npn on reject init).
Lemma new_inv : inv (new_conn init).
Proof. split; cbn; try done. Qed.
Lemma run_inv l : forall s, inv s -> well_formed l -> exists s', run_ l s = Some s' /\ inv s' /\ (refused s' = false -> refused s = false) /\ (refused s = false -> refused s' = true -> reject = true /\ exists h, h ∈ l /\ h_name h = None).
Proof.
  induction l as [|h l IH]; intros s HI Hw; cbn [hellos]; [exists s; split_and!; try done; congruence|].
  destruct (hello_step h s HI) as (s1 & E1 & I1 & R1 & _ & F1 & _). { intros a Ha. apply (Hw h); [by left|done]. }
  rewrite E1. destruct (IH s1 I1) as (s2 & E2 & I2 & M2 & R2). { intros h' a Hh. apply Hw. by right. }
  exists s2. split; [done|]. split; [done|]. split.
  - intros H. specialize (M2 H). destruct (refused s) eqn:E; [|done]. rewrite (R1 eq_refl) in M2. congruence.
  - intros Hs Hs2. destruct (refused s1) eqn:E.
    + destruct (F1 Hs eq_refl) as [? ?]. split; [done|]. exists h. split; [by left|done].
    + destruct (R2 eq_refl Hs2) as (? & h' & ? & ?). split; [done|]. exists h'. split; [by right|done].
Qed.
(** no ClientHello makes the callbacks fail an assertion or read outside the lists *)
Theorem C74_runs l : well_formed l -> exists s, run_ l (new_conn init) = Some s.
Proof. intros Hw. destruct (run_inv l _ new_inv Hw) as (s & ? & _). by exists s. Qed.
(** at most one SNI object is made; destroying the connection releases what was made, exactly once *)
Theorem C74_objects l s : well_formed l -> run_ l (new_conn init) = Some s -> (length (objects (calls s)) <= 1)%nat /\ freed s = [] /\ freed (destroy s) = objects (calls s).
Proof.
  intros Hw E. destruct (run_inv l _ new_inv Hw) as (s' & E' & HI & _). rewrite E in E'. injection E' as <-. pose proof (objects_le s HI) as HO. split; [done|]. split; [apply HI|].
  unfold destroy. rewrite (v_sni _ HI). destruct (objects (calls s)) as [|i [|]]; cbn [head freed]; [apply HI|by rewrite (v_freed _ HI)|cbn in HO; lia].
Qed.
(** the connection uses the context the callback named last, or the one it started with; the callback is asked no more once it gave an object *)
Theorem C74_context l s : well_formed l -> run_ l (new_conn init) = Some s ->
  cur s = chosen init (calls s) /\ (forall i c, calls s !! i = Some c -> create i (c_name c) = (c_obj c, c_ctx c)) /\ (forall i c, calls s !! i = Some c -> c_obj c = true -> S i = length (calls s)).
Proof.
  intros Hw E. destruct (run_inv l _ new_inv Hw) as (s' & E' & HI & _). rewrite E in E'. injection E' as <-. split; [apply HI|]. split; apply HI.
Qed.
(** a handshake is refused only if the server demands a name and some ClientHello had none *)
Theorem C74_refused l s : well_formed l -> run_ l (new_conn init) = Some s -> refused s = true -> reject = true /\ exists h, h ∈ l /\ h_name h = None.
Proof. intros Hw E HR. destruct (run_inv l _ new_inv Hw) as (s' & E' & HI & _ & H). rewrite E in E'. injection E' as <-. by apply H. Qed.
(** and it is refused if the server demands a name and the first ClientHello has none *)
Theorem C74_nosni h l s : well_formed (h :: l) -> sn_cb (ctxs init) = true -> reject = true -> h_name h = None -> run_ (h :: l) (new_conn init) = Some s -> refused s = true.
Proof.
  intros Hw Hs Hr Hn E. cbn [hellos] in E. destruct (hello_step h (new_conn init) new_inv) as (s1 & E1 & I1 & R1 & _ & F1 & _ & N1 & _). { intros a Ha. apply (Hw h); [by left|done]. }
  rewrite E1 in E. destruct (run_inv l s1 I1) as (s2 & E2 & I2 & M2 & R2). { intros h' a Hh. apply Hw. by right. }
  rewrite E in E2. injection E2 as <-. destruct (refused s) eqn:ER; [done|]. specialize (M2 eq_refl). rewrite N1 in M2 by done. done.
Qed.
Lemma first_gen l : sn_cb (ctxs init) = true -> (forall n nm, fst (create n nm) = true) -> forall s s', inv s -> well_formed l -> (calls s = [] \/ is_Some (sni s)) -> run_ l s = Some s' -> refused s' = false ->
  calls s' = match sni s, head (omap h_name l) with None, Some nm => [mkcall nm true (snd (create 0 nm))] | _, _ => calls s end.
Proof.
  intros Hs Hc. induction l as [|h l IH]; intros s s' HI Hw Hd E HR; cbn [hellos] in E. { injection E as <-. by destruct (sni s). }
  destruct (hello_step h s HI) as (s1 & E1 & I1 & R1 & _ & F1 & _ & _ & C1). { intros a Ha. apply (Hw h); [by left|done]. }
  rewrite E1 in E. assert (Hw' : well_formed l) by (intros h' a Hh; apply Hw; by right).
  destruct (run_inv l s1 I1 Hw') as (s2 & E2 & _ & M2 & _). rewrite E in E2. injection E2 as <-. specialize (M2 HR).
  assert (ER : refused s = false) by (destruct (refused s) eqn:ER; [rewrite (R1 eq_refl) in M2; congruence|done]). destruct (C1 Hs Hc ER M2) as (C & _).
  destruct (sni s) as [o|] eqn:Es.
  - assert (S1 : sni s1 = Some o) by (rewrite (v_sni _ I1), C, <- (v_sni _ HI); done). rewrite (IH s1 s' I1 Hw' (or_intror (mk_is_Some _ _ S1)) E HR), S1. done.
  - destruct Hd as [Hd|[? ?]]; [|done]. rewrite Hd in C. cbn [app length] in C. cbn [omap list_omap]. destruct (h_name h) as [nm|] eqn:Eh.
    + assert (S1 : sni s1 = Some O) by (rewrite (v_sni _ I1), C; done). rewrite (IH s1 s' I1 Hw' (or_intror (mk_is_Some _ _ S1)) E HR), S1. cbn [head]. done.
    + assert (S1 : sni s1 = None) by (rewrite (v_sni _ I1), C; done). rewrite (IH s1 s' I1 Hw' (or_introl C) E HR), S1, C, Hd. done.
Qed.
(** if the callback always gives an object: it is asked exactly once, with the first name, and that answer decides about the context for good *)
Theorem C74_first_name l s : sn_cb (ctxs init) = true -> (forall n nm, fst (create n nm) = true) -> well_formed l -> run_ l (new_conn init) = Some s -> refused s = false ->
  match head (omap h_name l) with
  | None => calls s = [] /\ cur s = init
  | Some nm => calls s = [mkcall nm true (snd (create 0 nm))] /\ cur s = default init (snd (create 0 nm))
  end.
Proof.
  intros Hs Hc Hw E HR. pose proof (first_gen l Hs Hc _ _ new_inv Hw (or_introl eq_refl) E HR) as HF. cbn [sni new_conn calls] in HF.
  destruct (C74_context l s Hw E) as (HC & _). rewrite HF in HC. destruct (head (omap h_name l)) as [nm|]; [|done]. split; [done|]. rewrite HC. unfold chosen. cbn [omap list_omap c_ctx]. by destruct (snd (create 0 nm)).
Qed.
Lemma run_app l1 : forall l2 s, run_ (l1 ++ l2) s = match run_ l1 s with Some s => run_ l2 s | None => None end.
Proof. induction l1 as [|h l1 IH]; intros l2 s; [done|]. cbn [hellos app]. destruct (hello_ h s); [apply IH|done]. Qed.
(** a protocol selected by ALPN is the first one of the protocols named for the context in use that the client offers; if the callback always
    gives an object and the context has protocols, none is selected only if there is no such protocol *)
Theorem C74_alpn l h s : well_formed (l ++ [h]) -> run_ (l ++ [h]) (new_conn init) = Some s -> refused s = false ->
  (forall p, alpn s = Some p -> exists cs, h_alpn h = Some (enc cs) /\ pick (ps (data (ctxs (cur s)))) cs = Some p) /\
  (sn_cb (ctxs init) = true -> (forall n nm, fst (create n nm) = true) -> al_cb (ctxs (cur s)) = true -> forall cs, h_alpn h = Some (enc cs) -> alpn s = pick (ps (data (ctxs (cur s)))) cs).
Proof.
  intros Hw E HR. rewrite run_app in E. destruct (run_inv l _ new_inv) as (s1 & E1 & I1 & _). { intros h' a Hh. apply Hw. apply elem_of_app. by left. }
  rewrite E1 in E. cbn [hellos] in E. destruct (hello_step h s1 I1) as (s2 & E2 & I2 & R2 & _ & F2 & A2 & _ & C2). { intros a Ha. apply (Hw h); [apply elem_of_app; right; by left|done]. }
  rewrite E2 in E. injection E as <-. split; [by apply A2|]. intros Hs Hc Hal cs Hcs.
  assert (ER : refused s1 = false) by (destruct (refused s1) eqn:ER; [rewrite (R2 eq_refl) in HR; congruence|done]). destruct (C2 Hs Hc ER HR) as (_ & _ & C). by apply C.
Qed.
End p.

(** * Runs *)
Definition cx0 : nat -> ctx := λ i, mkc true true (Some (Z.of_nat i)).
(** host "a" has context 1, "b" has context 2; context 1 speaks h2 and http/1.1 *)
Definition mk (obj : bool) : nat -> list Z -> bool * option nat := λ _ n, (obj, if decide (n = [97]) then Some 1%nat else if decide (n = [98]) then Some 2%nat else None).
Definition H2 : list Z := [104; 50].
Definition npn0 : option Z -> option (list Z) := λ d, if decide (d = Some 1) then Some (enc [H2; HTTP11]) else None.
Definition ps0 : option Z -> list (list Z) := λ d, if decide (d = Some 1) then [H2; HTTP11] else [HTTP11].
Theorem C74_demo_offers : offers npn0 ps0.
Proof.
  intros d. unfold npn0, ps0. destruct (decide (d = Some 1)); split; try done; intros p Hp; repeat (apply elem_of_cons in Hp as [->|Hp]; [unfold H2, HTTP11; cbn; lia|]); by apply elem_of_nil in Hp.
Qed.
Definition see (r : option st) := match r with Some s => Some (sni s, cur s, length (calls s), alpn s, refused s) | None => None end.
Theorem C74_demo : see (hellos cx0 (mk true) npn0 true true 0 [mkh (Some [97]) (Some (enc [HTTP11; H2])); mkh (Some [98]) (Some (enc [[120]]))] (new_conn 0)) = Some (Some 0, 1, 1, None, false)%nat /\
  see (hellos cx0 (mk true) npn0 true true 0 [mkh (Some [97]) (Some (enc [HTTP11; H2]))] (new_conn 0)) = Some (Some 0%nat, 1%nat, 1%nat, Some H2, false) /\
  see (hellos cx0 (mk true) npn0 true true 0 [mkh None (Some (enc [HTTP11; H2]))] (new_conn 0)) = Some (None, 0, 0, None, true)%nat.
Proof. by vm_compute. Qed.
(** a callback that names a context but gives no object is asked twice in one handshake, by both callbacks *)
Theorem C74_twice_refuted : exists s, hellos cx0 (mk false) npn0 true false 0 [mkh (Some [97]) (Some (enc [H2]))] (new_conn 0) = Some s /\ c_name <$> calls s = [[97]; [97]].
Proof. eexists. split; [by vm_compute|]. done. Qed.
(** and a second ClientHello with another name then changes the context of the running connection *)
Theorem C74_switch_refuted : exists s1 s2, hellos cx0 (mk false) npn0 true false 0 [mkh (Some [97]) None] (new_conn 0) = Some s1 /\ cur s1 = 1%nat /\
  hellos cx0 (mk false) npn0 true false 0 [mkh (Some [97]) None; mkh (Some [98]) None] (new_conn 0) = Some s2 /\ cur s2 = 2%nat.
Proof. eexists _, _. split; [by vm_compute|]. split; [done|]. split; [by vm_compute|done]. Qed.
