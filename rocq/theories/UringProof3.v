(** C57: the READY list and completions. *)
From Verif Require Export UringProof2.
Local Open Scope Z_scope.

Lemma Vals_app h o1 o2 : Vals h o1 -> Vals (h ++ o1) o2 -> 
  (forall k v, Cb k v ∈ o1 -> retok (h ++ o1) k v -> retok (h ++ o1 ++ o2) k v) -> Vals h (o1 ++ o2).
Proof.
  intros [H1 H1'] [H2 H2'] Hm. rewrite <- app_assoc in H2, H2'. split.
  - intros k v [H|H]%elem_of_app; [|by apply H2]. apply Hm; [done|]. by apply H1.
  - intros k [H|H]%elem_of_app; [|by apply H2']. rewrite app_assoc. inl. by apply H1'.
Qed.
Lemma retok_mono h o k v : Forall quiet o -> retok h k v -> retok (h ++ o) k v.
Proof.
  intros Hq [[-> H]|(c & Hm & Hc)]; [left; split; [done|]; by inl|]. right. exists c. split; [by inl|].
  destruct c; cbn in *.
  - rewrite quiet_app by (done || (by intros [])). destruct Hc as [(H1 & r & H2 & H3)|[H1 H2]]; [left|right]; (split; [done|]).
    + exists r. split; [by inl|done].
    + destruct b; [by inl|done].
  - by inl.
  - done.
  - destruct Hc as [H1 [w H2]]. split; [by inl|]. exists w. by inl.
Qed.

Lemma try_quiet N s o d att sub s' ob : try_event N s o d att sub = Ok s' ob -> Forall quiet ob.
Proof.
  unfold try_event, arm. destruct (slots s !! (o, d)) as [sl|]; [|done]. destruct (cbk sl); try done.
  destruct (buf sl), att; try destruct (get_seq _ _ _); intros [= <- <-]; repeat constructor.
Qed.

Lemma pump_good N h s o aw sw ar sr : Inv h s -> Rdy s -> o ∈ ready s -> good h (pump N s o aw sw ar sr).
Proof.
  intros HI HR Ho. unfold pump. set (s0 := set_ready s (ready s ∖ {[o]})).
  assert (Inv h s0) as HI0 by by apply Inv_ready.
  assert (exists s1 ow, (if fires s0 o W then try_event N s0 o W aw sw else Ok s0 []) = Ok s1 ow /\ Inv (h ++ ow) s1
    /\ ready s1 = ready s0 /\ fires s1 o W = false /\ Vals h ow /\ Forall quiet ow /\ fires s1 o R = fires s0 o R
    /\ (forall o1 d1, o1 <> o -> fires s1 o1 d1 = fires s0 o1 d1)) as (s1 & ow & -> & HI1 & Hr1 & Hf1 & Hv1 & Hq1 & Hfr & Hfo).
  { destruct (fires s0 o W) eqn:Hf.
    - destruct (try_spec N h s0 o W aw sw HI0 Hf) as (s1 & ow & E & H1 & H2 & H3 & H4 & H5). exists s1, ow. split_and!; try done.
      + by eapply try_quiet.
      + by eapply fires_only.
      + intros o1 d1 Hne. eapply fires_only; [done|congruence].
    - exists s0, []. rewrite app_nil_r. split_and!; try done. split; intros k; [intros v|]; intros H; by apply elem_of_nil in H. }
  assert (exists s2 or, (if fires s0 o R then try_event N s1 o R ar sr else Ok s1 []) = Ok s2 or /\ Inv ((h ++ ow) ++ or) s2
    /\ ready s2 = ready s0 /\ fires s2 o W = false /\ fires s2 o R = false /\ Vals (h ++ ow) or /\ Forall quiet or
    /\ (forall o1 d1, o1 <> o -> fires s2 o1 d1 = fires s0 o1 d1)) as (s2 & or & -> & HI2 & Hr2 & Hf2 & Hf2' & Hv2 & Hq2 & Hfo2).
  { destruct (fires s0 o R) eqn:Hf.
    - destruct (try_spec N (h ++ ow) s1 o R ar sr HI1) as (s2 & or & E & H1 & H2 & H3 & H4 & H5); [congruence|].
      exists s2, or. split_and!; try done.
      + congruence.
      + rewrite (fires_only s1 s2 o R); [done|done|congruence].
      + by eapply try_quiet.
      + intros o1 d1 Hne. rewrite (fires_only s1 s2 o R); [by apply Hfo|done|congruence].
    - exists s1, []. rewrite app_nil_r. split_and!; try done. split; intros k; [intros v|]; intros H; by apply elem_of_nil in H. }
  cbn [good]. split_and!.
  - by rewrite app_assoc.
  - intros o1. rewrite Hr2. cbn. rewrite elem_of_difference, elem_of_singleton, (HR o1).
    destruct (decide (o1 = o)) as [->|Hne]; [rewrite Hf2, Hf2'; naive_solver|]. rewrite !Hfo2 by done. change (fires s0) with (fires s). naive_solver.
  - apply Vals_app; [done|done|]. intros k v _ H. rewrite app_assoc. by apply retok_mono.
Qed.

(** taking the first completion *)
Lemma pop_ents s o d k v c : lean s -> cq s = (SOp o d k, v) :: c ->
  ents s (o, d) = [k] /\ ents (set_cq s c) (o, d) = [] /\ (forall y, y <> (o, d) -> ents (set_cq s c) y = ents s y).
Proof.
  intros Hl Hc. assert (ents s (o, d) ≡ₚ k :: ents (set_cq s c) (o, d)) as Hp.
  { unfold ents, L. cbn. rewrite Hc. cbn. rewrite !omap_app. cbn [omap list_omap]. rewrite entof_eq.
    rewrite <- Permutation_middle. by rewrite <- Permutation_middle. }
  specialize (Hl (o, d)). rewrite Hp in Hl. destruct (ents (set_cq s c) (o, d)) eqn:E; [|cbn in Hl; lia].
  split_and!; [by apply Permutation_singleton_r in Hp|done|].
  intros y Hy. unfold ents, L. cbn. rewrite Hc. cbn. rewrite !omap_app. cbn [omap list_omap]. by rewrite entof_ne.
Qed.
Lemma SNull_pop s e v c : cq s = (e, v) :: c -> SNull ∉ L s -> SNull ∉ L (set_cq s c).
Proof. intros E H H1. apply H. unfold L in *. cbn in H1. rewrite E. cbn. rewrite !elem_of_app in *. rewrite elem_of_cons. tauto. Qed.

(** the state after the completion of (o,d) was taken and its slot set to [sl'] *)
Definition after (s : st) (c : list (sqe * Z)) (r : gset nat) (o : nat) (d : dir) (sl' : slot) : st :=
  set_slot (set_ready (set_cq s c) r) o d sl'.
Lemma only_after s o d k v c r sl' : lean s -> cq s = (SOp o d k, v) :: c -> is_Some (slots s !! (o, d)) ->
  only s (after s c r o d sl') (o, d).
Proof.
  intros Hl Hc Hso. destruct (pop_ents s o d k v c Hl Hc) as (H1 & H2 & H3). split; try done; cbn.
  - intros y Hy. by rewrite lookup_insert_ne.
  - rewrite lookup_insert. split; eauto.
  - intros H. eapply (SNull_pop s); done.
Qed.

(** the READY list kept by handle_complete_event in the state [s] *)
Lemma ready_handle h s o d sl sl' : Inv h s -> Rdy s -> slots s !! (o, d) = Some sl -> slots s !! (o, other d) = Some sl' ->
  busy sl = true -> rdy2 sl = false -> rdy sl = false ->
  let r := if busy sl && busy sl' then (if rdy2 sl || rdy2 sl' then ready s else ready s ∖ {[o]}) else ready s ∖ {[o]} in
  (forall o1, o1 <> o -> o1 ∈ r <-> o1 ∈ ready s) /\ (o ∉ poll s -> o ∈ r <-> fires s o (other d) = true).
Proof.
  intros HI HR Hsl Hsl' Hb Hr2 Hr. cbv zeta. rewrite Hb, Hr2. cbn [andb orb].
  assert (fires s o d = false) as Hf by (unfold fires; rewrite Hsl, Hb, Hr, Hr2; done).
  split.
  - intros o1 Hne. destruct (busy sl'), (rdy2 sl'); rewrite ?elem_of_difference, ?elem_of_singleton; tauto.
  - intros Hnp. pose proof (v_key _ _ HI (o, other d)) as Hx. unfold PK in Hx. rewrite Hsl' in Hx. destruct Hx as (_ & Hp & _). cbn in Hp.
    assert (rdy sl' = false) as Hr' by (destruct (rdy sl'); [destruct Hnp; auto|done]).
    assert (fires s o (other d) = busy sl' && rdy2 sl') as Hfo by (unfold fires; by rewrite Hsl', Hr').
    assert (o ∈ ready s <-> fires s o (other d) = true) as Ho.
    { rewrite (HR o). destruct d; cbn [other] in *; rewrite Hf; naive_solver. }
    rewrite Hfo in *. destruct (busy sl'), (rdy2 sl'); cbn [andb] in *; rewrite ?elem_of_difference, ?elem_of_singleton; naive_solver.
Qed.
Lemma rdy_after s s' o d r : Rdy s -> only s s' (o, d) -> ready s' = r -> (forall o1, o1 <> o -> o1 ∈ r <-> o1 ∈ ready s) ->
  (o ∈ r <-> fires s' o d = true \/ fires s o (other d) = true) -> Rdy s'.
Proof.
  intros HR Hon <- H1 H2 o1. destruct (decide (o1 = o)) as [->|Hne].
  - rewrite H2. assert (fires s' o (other d) = fires s o (other d)) as E by (eapply fires_only; [done|by destruct d]).
    rewrite <- E. destruct d; cbn [other]; tauto.
  - rewrite (H1 o1 Hne), (HR o1). rewrite !(fires_only s s' o d) by (done || congruence). done.
Qed.

(** one half of a sendfile ends; [x]: its side *)
Definition side (xf : sfile) (sock : bool) : nat * dir := if sock then (f_st xf, W) else (f_file xf, R).
Definition halfcb (i : nat) (sock : bool) : cb := if sock then SfSock i else SfFile i.
Definition half_open (xf : sfile) (sock : bool) : bool := if sock then f_p0 xf else f_p1 xf.
Lemma sf_half_good h s i xf sock o d v c r sl sl' :
  Inv h s -> cq s = (SOp o d (f_call xf), v) :: c -> sfs s !! i = Some xf -> side xf sock = (o, d) -> half_open xf sock = true ->
  slots s !! (o, d) = Some sl -> busy sl = true -> cbk sl = halfcb i sock ->
  busy sl' = false -> rdy2 sl' = false -> rdy sl' = rdy sl -> buf sl' = buf sl ->
  exists s' ob, sf_result (after s c r o d sl') i sock v = Ok s' ob /\ Inv (h ++ ob) s' /\ only s (set_sfs s' (sfs s)) (o, d) /\ slots s' = slots (after s c r o d sl')
    /\ ready s' = r /\ Vals h ob.
Proof.
  intros HI Hc Hi Hx Hop Hsl Hb Hcb Hb' Hr2' Hr' Hbf. pose proof (Inv_lean _ _ HI) as Hl.
  destruct (pop_ents s o d _ v c Hl Hc) as (He & He0 & Hey). pose proof HI as [Hk Hs Hcl Hg].
  assert (is_Some (slots s !! (o, d))) as Hso by by rewrite Hsl.
  pose proof (only_after s o d _ v c r sl' Hl Hc Hso) as Hon.
  destruct (Hs i xf Hi) as (Q1 & Q2 & Q3 & Q4 & Q5 & Q6 & Q7 & Q8 & Q9 & Q10 & Q11 & Q12).
  assert (KRes (f_call xf) o d v ∈ h) as Hkr by (eapply (v_cq _ _ Hg); rewrite Hc; left).
  set (s1 := after s c r o d sl') in *.
  assert (slots s1 !! (o, d) = Some sl') as Hs1 by (cbn; apply lookup_insert).
  assert (forall y, y <> (o, d) -> slots s1 !! y = slots s !! y) as Hsy by (intros y Hy; by apply (on_slots _ _ _ Hon)).
  assert ((f_file xf, W) <> (o, d)) as HfW.
  { rewrite <- Hx. destruct sock; cbn; congruence. }
  (* the other half *)
  set (xo := side xf (negb sock)).
  assert (xo <> (o, d)) as Hxo by (rewrite <- Hx; unfold xo; destruct sock; cbn; congruence).
  (* nothing else uses the three sides *)
  assert (forall k1 c1, Made k1 c1 ∈ h -> k1 ∉ rets h -> (o, d) ∈ uses c1 -> k1 = f_call xf) as Hown.
  { intros k1 c1 H1 H2 H3. specialize (Hcl k1 c1 H1 H2). destruct c1; cbn in *.
    1,2,3: apply elem_of_list_singleton in H3; destruct Hcl as (sl2 & Hsl2 & _ & Hcb2); rewrite <- H3 in Hsl2;
      destruct sock; cbn in Hcb; congruence.
    destruct Hcl as (i2 & xf2 & Hi2 & Hcf & Hst & Hf). destruct (Hs i2 xf2 Hi2) as (P1 & P2 & P3 & P4 & P5 & P6 & P7 & P8 & P9 & P10 & P11 & P12).
    assert (i2 = i); [|subst i2; congruence].
    subst o0 f. apply elem_of_cons in H3 as [H3|H3]; [|apply elem_of_cons in H3 as [H3|H3]].
    - rewrite <- H3 in P10. destruct (f_p0 xf2); [destruct P10 as (sl2 & Hsl2 & _ & Hcb2)|destruct P10 as [(sl2 & Hsl2 & Hb2) _]].
      + destruct sock; cbn in Hcb; congruence.
      + congruence.
    - rewrite <- H3 in P11. destruct (f_p1 xf2); [destruct P11 as (sl2 & Hsl2 & _ & Hcb2)|destruct P11 as [(sl2 & Hsl2 & Hb2) _]].
      + destruct sock; cbn in Hcb; congruence.
      + congruence.
    - apply elem_of_list_singleton in H3. rewrite <- H3 in P9. destruct P9 as (sl2 & Hsl2 & Hb2 & _). congruence. }
  (* other sendfiles do not use the three sides *)
  assert (forall i2 xf2, sfs s !! i2 = Some xf2 -> i2 <> i -> (o, d) ∉ uses (CSf (f_st xf2) (f_file xf2)) /\ f_call xf2 <> f_call xf) as Hoth.
  { intros i2 xf2 Hi2 Hne. destruct (Hs i2 xf2 Hi2) as (P1 & P2 & P3 & P4 & P5 & P6 & P7 & P8 & P9 & P10 & P11 & P12).
    assert (f_call xf2 <> f_call xf) as Hcne.
    { intros Heq. rewrite Heq in P1. pose proof (v_uniq _ _ Hg _ _ _ P1 Q1) as [= E1 E2].
      rewrite Q4 in Q5. destruct sock; cbn in Hop, Hx, Hcb; rewrite Hop in *; injection Hx as <- <-.
      - rewrite E1 in P10. destruct (f_p0 xf2); [destruct P10 as (sl2 & Hsl2 & _ & Hcb2); congruence|destruct P10 as [(sl2 & Hsl2 & Hb2) _]; congruence].
      - rewrite E2 in P11. destruct (f_p1 xf2); [destruct P11 as (sl2 & Hsl2 & _ & Hcb2); congruence|destruct P11 as [(sl2 & Hsl2 & Hb2) _]; congruence]. }
    split; [|done]. intros H. apply Hcne. by eapply Hown. }
  set (x1 := if sock then Sf (f_st xf) (f_file xf) false (f_p1 xf) (f_refs xf) v (f_skip xf) (f_call xf)
             else Sf (f_st xf) (f_file xf) (f_p0 xf) false (f_refs xf) (f_got xf) (f_skip xf) (f_call xf)).
  assert (f_st x1 = f_st xf /\ f_file x1 = f_file xf /\ f_refs x1 = f_refs xf /\ f_skip x1 = f_skip xf /\ f_call x1 = f_call xf)
    as (X1 & X2 & X3 & X4 & X5) by (by destruct sock).
  unfold sf_result. change (sfs s1) with (sfs s). rewrite Hi. fold x1. rewrite X1, X2, X3, X4, X5, Q3.
  destruct (half_open xf (negb sock)) eqn:Hoo.
  - (* the other half goes on *)
    assert (f_refs xf = 2%nat) as Hrf by (rewrite Q4; destruct sock; cbn in Hop, Hoo; rewrite Hop, Hoo; done).
    rewrite decide_True by lia. rewrite Hrf. cbn [Nat.sub].
    set (x2 := Sf _ _ _ _ _ _ _ _). set (s' := set_sfs s1 _). exists s', [PClose i (negb sock)].
    set (ob := [PClose i (negb sock)]).
    assert (forall k1, k1 ∉ rets h -> k1 ∉ rets (h ++ ob)) as Hmono by (intros k1 H; rewrite rets_app, app_nil_r; done).
    assert (forall a, a ∈ h -> a ∈ h ++ ob) as Hin by (intros a Ha; by inl).
    assert (sfs s' !! i = Some x2) as Hi' by (cbn; apply lookup_insert).
    assert (forall i2, i2 <> i -> sfs s' !! i2 = sfs s !! i2) as Hi2 by (intros i2 Hne; cbn; by rewrite lookup_insert_ne).
    split_and!; try done.
    + split.
      * intros y. destruct (decide (y = (o, d))) as [->|Hne].
        -- pose proof (Hk (o, d)) as Hkx. unfold PK in Hkx |- *. rewrite Hsl in Hkx. change (slots s') with (slots s1). rewrite Hs1. destruct Hkx as (_ & Hp & Hbn).
           rewrite Hr', Hbf. split_and!; [|done|intros H; destruct (Hbn H) as [k' Hk']; exists k'; by inl].
           destruct sl' as [b1 r1 r2 c1 bf1]. cbn in Hb', Hr2'. subst. by constructor.
        -- eapply (PK_frame h s); [apply Hk|by apply Hsy|by apply Hey|done|done|by intros; apply Hmono|].
           intros j xj Hj Hbw. destruct (decide (j = i)) as [->|Hji]; [|exists xj; by rewrite Hi2].
           assert (xj = xf) as -> by congruence. exists x2. split; [done|]. unfold x2. cbn.
           destruct Hbw as [[_ ->]|[_ ->]]; cbn; destruct sock; cbn in Hx, Hne; try done.
      * intros j. destruct (decide (j = i)) as [->|Hji].
        -- intros xj Hj. rewrite Hi' in Hj. injection Hj as <-. unfold okfile, busy_with. unfold x2. cbn [f_call f_st f_file f_skip f_refs f_p0 f_p1 f_got].
           change (slots s') with (slots s1). change (poll s') with (poll s). change (nsf s') with (nsf s).
           split_and!; try done; auto.
           ++ unfold x1. destruct sock; cbn in Hoo |- *; rewrite Hoo; done.
           ++ by rewrite (Hsy _ HfW).
           ++ unfold x1. destruct sock; cbn in Hoo, Hx |- *.
              ** injection Hx as <- <-. split; [by exists sl'|by apply Hin].
              ** rewrite Hoo in *. unfold busy_with in Q10. rewrite Hsy by done. done.
           ++ unfold x1. destruct sock; cbn in Hoo, Hx |- *.
              ** rewrite Hoo in *. unfold busy_with in Q11. rewrite Hsy by done. done.
              ** injection Hx as <- <-. split; [by exists sl'|exists v; by apply Hin].
        -- eapply (PS_frame h s); [apply Hs|by apply Hi2|done|done|]. intros xj Hj. destruct (Hs j xj Hj) as (P1 & P2 & _).
           destruct (Hoth j xj Hj Hji) as [Ha _]. split_and!; [by apply Hmono|done|done|]. intros y Hy. apply Hsy. by intros ->.
      * intros k1 c1 [Hk1|Hk1]%elem_of_app Hk2; [|by mem Hk1].
        assert (k1 ∉ rets h) as Hk3 by (intros H; apply Hk2; rewrite rets_app; by inl). specialize (Hcl k1 c1 Hk1 Hk3).
        assert (forall y, busy_with s y (User k1) -> busy_with s' y (User k1)) as Hbw.
        { intros y (sl2 & Hsl2 & Hb2 & Hcb2). exists sl2. split; [|done]. change (slots s') with (slots s1). rewrite Hsy; [done|]. intros ->. destruct sock; cbn in Hcb; congruence. }
        destruct c1; cbn in *; [by apply Hbw..|]. destruct Hcl as (j & xj & Hj & E1 & E2 & E3).
        destruct (decide (j = i)) as [->|Hji].
        -- exists i, x2. assert (xj = xf) as -> by congruence. done.
        -- exists j, xj. by rewrite lookup_insert_ne.
      * eapply (G_step h s ob s' (CNext 0 R)); try done.
        -- repeat constructor.
        -- intros k' c' H. by mem H.
        -- by left.
        -- exact (only_some _ _ _ Hon).
        -- eapply (SNull_pop s); [done|apply Hg].
        -- intros a b H. left. rewrite Hc. by right.
    + split; intros k'; [intros v'|]; intros H; by mem H.
  - (* both halves have ended *)
    assert (f_refs xf = 1%nat) as Hrf by (rewrite Q4; destruct sock; cbn in Hop, Hoo; rewrite Hop, Hoo; done).
    rewrite decide_False by lia.
    rewrite (Hsy _ HfW). destruct Q9 as (fw & Hfw & Hfb & Hfc). rewrite Hfw, Hfc.
    assert (f_p0 x1 = false /\ f_p1 x1 = false) as [-> ->] by (unfold x1; destruct sock; cbn in *; done).
    set (s' := set_sfs s1 _). set (ob := [_] ++ _). exists s', ob. cbn in ob.
    assert (rets ob = [f_call xf]) as Hrob by done.
    assert (forall k1, k1 ∉ rets h -> k1 <> f_call xf -> k1 ∉ rets (h ++ ob)) as Hmono.
    { intros k1 H H'. rewrite rets_app, Hrob. intros [?|?%elem_of_list_singleton]%elem_of_app; done. }
    assert (forall a, a ∈ h -> a ∈ h ++ ob) as Hin by (intros a Ha; by inl).
    assert (sfs s' !! i = None) as Hi' by (cbn; apply lookup_delete).
    assert (forall i2, i2 <> i -> sfs s' !! i2 = sfs s !! i2) as Hi2 by (intros i2 Hne; cbn; by rewrite lookup_delete_ne).
    (* a busy half on another side belongs to another sendfile *)
    assert (forall y, y <> (o, d) -> busy_with s y (SfSock i) /\ y = (f_st xf, W) \/ busy_with s y (SfFile i) /\ y = (f_file xf, R) -> False) as Hnob.
    { intros y Hne Hbw. destruct sock; cbn in Hx, Hoo.
      - destruct Hbw as [[_ ->]|[(sl2 & Hsl2 & Hb2 & _) ->]]; [done|]. rewrite Hoo in Q11. destruct Q11 as [(sl3 & Hsl3 & Hb3) _]. congruence.
      - destruct Hbw as [[(sl2 & Hsl2 & Hb2 & _) ->]|[_ ->]]; [|done]. rewrite Hoo in Q10. destruct Q10 as [(sl3 & Hsl3 & Hb3) _]. congruence. }
    assert (forall i2 xf2, sfs s !! i2 = Some xf2 -> i2 <> i -> f_call xf2 <> f_call xf) as Hcne by (intros i2 xf2 H1 H2; by apply (Hoth i2 xf2)).
    split_and!; try done.
    + split.
      * intros y. destruct (decide (y = (o, d))) as [->|Hne].
        -- pose proof (Hk (o, d)) as Hkx. unfold PK in Hkx |- *. rewrite Hsl in Hkx. change (slots s') with (slots s1). rewrite Hs1. destruct Hkx as (_ & Hp & Hbn).
           rewrite Hr', Hbf. split_and!; [|done|intros H; destruct (Hbn H) as [k' Hk']; exists k'; by inl].
           destruct sl' as [b1 r1 r2 c1 bf1]. cbn in Hb', Hr2'. subst. by constructor.
        -- pose proof (Hk y) as Hky. 
           assert (forall k1 c1, Made k1 c1 ∈ h -> y ∈ uses c1 -> k1 ∉ rets h -> uses c1 = [y] -> k1 ∉ rets (h ++ ob)) as Hu1.
           { intros k1 c1 H1 H2 H3 H4. apply Hmono; [done|]. intros ->. pose proof (v_uniq _ _ Hg _ _ _ H1 Q1) as ->. done. }
           unfold PK in *. change (slots s') with (slots s1). rewrite Hsy by done.
           assert (ents s' y = ents s y) as Hee by by apply Hey.
           destruct (slots s !! y) as [sy|] eqn:Hsly; [|congruence]. destruct Hky as (Hok & Hp & Hbn).
           split_and!; [|done|intros H; destruct (Hbn H) as [k' Hk']; exists k'; by inl].
           assert (forall a b, a = y.1 -> b = y.2 -> y = (a, b)) as Hyy by (intros a b -> ->; by destruct y).
           destruct Hok as [r0 c0 b0 H1|k b0 H1 H2 H3|k H1 H2 H3 H4|k b0 H1 H2 H3|k r0 H1 H2 H3|j xj b0 H1 H2 H3 H4 H5|j xj b0 H1 H2 H3 H4].
           ++ constructor. congruence.
           ++ apply (ok_fly_rw _ s'); [congruence|by inl|]. eapply Hu1; [done|cbn; apply elem_of_list_singleton; by apply Hyy|done|cbn; f_equal; symmetry; by apply Hyy].
           ++ apply (ok_fly_pl _ s'); [congruence|by inl| |done]. eapply Hu1; [done|cbn; apply elem_of_list_singleton; by apply Hyy|done|cbn; f_equal; symmetry; by apply Hyy].
           ++ apply (ok_rdy _ s'); [congruence|by inl|]. eapply Hu1; [done|cbn; apply elem_of_list_singleton; by apply Hyy|done|cbn; f_equal; symmetry; by apply Hyy].
           ++ apply (ok_next _ s'); [congruence|by inl|]. eapply Hu1; [done|cbn; apply elem_of_list_singleton; by apply Hyy|done|cbn; f_equal; symmetry; by apply Hyy].
           ++ assert (j <> i) as Hji.
              { intros ->. assert (xj = xf) as -> by congruence. eapply (Hnob y); [done|]. left. split; [by eexists|done]. }
              apply (ok_sock _ s' y j xj); try done; [congruence|by rewrite Hi2].
           ++ assert (j <> i) as Hji.
              { intros ->. assert (xj = xf) as -> by congruence. eapply (Hnob y); [done|]. right. split; [by eexists|done]. }
              apply (ok_file _ s' y j xj); try done; [congruence|by rewrite Hi2].
      * intros j. destruct (decide (j = i)) as [->|Hji]; [intros xj Hj; congruence|].
        eapply (PS_frame h s); [apply Hs|by apply Hi2|done|done|]. intros xj Hj. destruct (Hs j xj Hj) as (P1 & P2 & _).
        destruct (Hoth j xj Hj Hji) as [Ha Ha']. split_and!; [by apply Hmono|done|done|]. intros y Hy. apply Hsy. by intros ->.
      * intros k1 c1 [Hk1|Hk1]%elem_of_app Hk2; [|by mem Hk1].
        assert (k1 ∉ rets h) as Hk3 by (intros H; apply Hk2; rewrite rets_app; by inl).
        assert (k1 <> f_call xf) as Hkf by (intros ->; apply Hk2; rewrite rets_app, Hrob; apply elem_of_app; right; by apply elem_of_list_singleton).
        specialize (Hcl k1 c1 Hk1 Hk3).
        assert (forall y, busy_with s y (User k1) -> busy_with s' y (User k1)) as Hbw.
        { intros y (sl2 & Hsl2 & Hb2 & Hcb2). exists sl2. split; [|done]. change (slots s') with (slots s1). rewrite Hsy; [done|]. intros ->. destruct sock; cbn in Hcb; congruence. }
        destruct c1; cbn in *; [by apply Hbw..|]. destruct Hcl as (j & xj & Hj & E1 & E2 & E3).
        destruct (decide (j = i)) as [->|Hji].
        -- assert (xj = xf) as -> by congruence. done.
        -- exists j, xj. by rewrite lookup_delete_ne.
      * eapply (G_step h s ob s' (CNext 0 R)); try done.
        -- repeat constructor.
        -- intros k' c' H. by mem H.
        -- right. exists (f_call xf). split_and!; [done|done|]. by eapply (v_made _ _ Hg).
        -- exact (only_some _ _ _ Hon).
        -- eapply (SNull_pop s); [done|apply Hg].
        -- intros a b H. left. rewrite Hc. by right.
    + split; intros k'; [intros v'|]; intros H; mem H. injection H as -> ->. right. exists (CSf (f_st xf) (f_file xf)). split; [by inl|].
      unfold x1. destruct sock; cbn in Hoo, Hx |- *; injection Hx as <- <-.
      * split; [by inl|]. rewrite Hoo in Q11. destruct Q11 as [_ [w Hw]]. exists w. by inl.
      * rewrite Hoo in Q10. destruct Q10 as [_ Hw]. split; [by inl|]. exists v. by inl.
Qed.
