(** The invariant of the Windows backend is kept by every step that respects the duties. *)
From Verif Require Export IocpProof.
Local Open Scope Z_scope.

Lemma busy_waiting s o x d : I s -> objs s !! o = Some x -> bz (sid x d) = true -> waiting (hist s) o d.
Proof.
  intros HI Eo Eb. assert (Ev : val s (HS o d) = Some (rqo x d)) by (unfold val; by rewrite Eo, Eb). destruct (i_made _ HI _ _ _ Ev) as (c & Hc & Hm).
  exists (rqo x d), c. split_and!; [done..|]. assert (unanswered (hist s) (rqo x d)) as [_ ?] by (apply (k_open _ _ _ (i_k _ HI)); eauto). done.
Qed.
Lemma not_waiting s o x d : I s -> objs s !! o = Some x -> ~ waiting (hist s) o d -> bz (sid x d) = false /\ f2 (sid x d) = false.
Proof.
  intros HI Eo Hw. assert (bz (sid x d) = false) as Eb by (destruct (bz (sid x d)) eqn:E; [|done]; destruct Hw; by eapply busy_waiting). split; [done|].
  destruct (f2 (sid x d)) eqn:E; [|done]. apply (i_f2 _ HI o x d Eo) in E as [? _]. congruence.
Qed.

(** the sockets made by accept *)
Record Sk (s : sys) : Prop := {
  sk_acs : forall o x n, objs s !! o = Some x -> acs x = Some n -> OSock o n ∈ hist s /\ gone (hist s) n = 0%nat;
  sk_own : forall o n, OSock o n ∈ hist s -> gone (hist s) n = 1%nat \/ (gone (hist s) n = 0%nat /\ exists x, objs s !! o = Some x /\ acs x = Some n);
  sk_uniq : forall o o' n, OSock o n ∈ hist s -> OSock o' n ∈ hist s -> o = o';
  sk_lt : forall o n, OSock o n ∈ hist s -> (n < nsk s)%nat;
  sk_gone : forall n, (nsk s <= n)%nat -> gone (hist s) n = 0%nat }.

Lemma step_tr s e s' u : I s -> Sk s -> duty s e -> step s e = Ok s' u -> rtc tr s s'.
Proof.
  intros HI HS HD E. destruct e; cbn [step duty] in E, HD.
  - destruct (objs s !! o) eqn:Eo; [done|]. injection E as <- _. apply rtc_once. by apply T_open.
  - unfold thread_free in E. destruct (acc s) eqn:Ea; cbn in E; [done|]. destruct (objs s !! o) as [x|] eqn:Eo; [|done]. destruct HD as [H1 H2].
    destruct (not_waiting _ _ _ _ HI Eo H1) as [B1 _], (not_waiting _ _ _ _ HI Eo H2) as [B2 _]. cbn in B1, B2. rewrite B1, B2 in E. apply rtc_once.
    assert (Hn : kd x <> KListen -> acs x = None) by by apply (i_nacs _ HI o).
    destruct (kd x) eqn:Ek; cbn in E; [destruct (bool_decide _) in E; [done|]|destruct (bool_decide _) in E; [done|]|..]; injection E as <- _; eapply T_close; try done; by rewrite Hn.
  - unfold thread_free in E. destruct (acc s) eqn:Ea; cbn in E; [done|]. destruct (objs s !! o) as [x|] eqn:Eo; [|done]. destruct HD as [H1 H2].
    destruct (not_waiting _ _ _ _ HI Eo H1) as [B1 B2]. pose proof (i_udp _ HI _ _ Eo) as Hu. cbn in B1, B2.
    assert (E' : kd x <> KListen /\ Ok (start_cb s o x CRead ok) tt = Ok s' u).
    { rewrite B1 in E. destruct (kd x) eqn:Ek; try done. cbn in E. destruct b; [done|]. done. }
    destruct E' as [Ek [= <- _]]. apply rtc_once. unfold start_cb. cbn [cside sid]. rewrite B2. destruct ok.
    + refine (eq_rect _ (tr s) (T_start s o x CRead (match loc x with None => Some LRw | y => y end) Eo Ek B1 Ea eq_refl _ _) _ _).
      * destruct (loc x) eqn:El; [left|right]; eauto. rewrite El. split; [done|]. by left.
      * done.
      * unfold upd_side, list_rw, add_list. cbn. by destruct (loc x) eqn:El; destruct x; cbn in *; subst.
    + eapply (T_fail _ o x CRead); eauto.
  - unfold thread_free in E. destruct (acc s) eqn:Ea; cbn in E; [done|]. destruct (objs s !! o) as [x|] eqn:Eo; [|done].
    destruct (not_waiting _ _ _ _ HI Eo HD) as [B1 B2]. cbn in B1, B2. destruct (kd x) eqn:Ek; try done. rewrite B1, B2 in E. cbn in E. injection E as <- _.
    apply rtc_once. unfold start_cb. cbn [cside sid]. rewrite B2. destruct ok.
    + refine (eq_rect _ (tr s) (T_start s o x CWrite (match loc x with None => Some LRw | y => y end) Eo _ B1 Ea eq_refl _ _) _ _); [congruence|..|done|].
      * destruct (loc x) eqn:El; [left|right]; eauto. rewrite El. split; [done|]. by left.
      * unfold upd_side, list_rw, add_list. cbn. by destruct (loc x) eqn:El; destruct x; cbn in *; subst.
    + eapply (T_fail _ o x CWrite); eauto. congruence.
  - unfold thread_free in E. destruct (acc s) eqn:Ea; cbn in E; [done|]. destruct (objs s !! o) as [x|] eqn:Eo; [|done].
    destruct (not_waiting _ _ _ _ HI Eo HD) as [B1 B2]. cbn in B1, B2. destruct (kd x) eqn:Ek; try done. rewrite B1 in E. cbn in E. injection E as <- _.
    apply rtc_once. unfold start_cb. cbn [cside sid]. rewrite B2. destruct ok.
    + refine (eq_rect _ (tr s) (T_start s o x CSend (match loc x with None => Some LRw | y => y end) Eo _ B1 Ea eq_refl _ _) _ _); [congruence|..|done|].
      * destruct (loc x) eqn:El; [left|right]; eauto. rewrite El. split; [done|]. by left.
      * unfold upd_side, list_rw, add_list. cbn. by destruct (loc x) eqn:El; destruct x; cbn in *; subst.
    + eapply (T_fail _ o x CSend); eauto. congruence.
  - unfold thread_free in E. destruct (acc s) eqn:Ea; cbn in E; [done|]. destruct (objs s !! o) as [x|] eqn:Eo; [|done]. destruct HD as [_ HD].
    destruct (not_waiting _ _ _ _ HI Eo HD) as [B1 B2]. cbn in B1, B2. destruct (kd x) eqn:Ek; try done. rewrite B1 in E. cbn in E.
    destruct (ok && bool_decide (loc x <> None)) eqn:El; [done|]. injection E as <- _. apply rtc_once. unfold start_bool. cbn [cside sid]. rewrite B2. destruct ok.
    + cbn in El. apply bool_decide_eq_false in El. destruct (loc x) eqn:El'; [by destruct El|]. eapply (T_start _ o x CConnect (Some LConn)); try done; [congruence|]. right. eauto.
    + eapply (T_fail _ o x CConnect); eauto. congruence.
  - unfold thread_free in E. destruct (acc s) eqn:Ea; cbn in E; [done|]. destruct (objs s !! o) as [x|] eqn:Eo; [|done]. destruct HD as [H1 H2].
    destruct (not_waiting _ _ _ _ HI Eo H1) as [B1 B2], (not_waiting _ _ _ _ HI Eo H2) as [B3 B4]. destruct (kd x) eqn:Ek; try done. cbn in *. rewrite B1, B3 in E. cbn in E. injection E as <- _.
    apply rtc_once. unfold start_bool.
    assert (Hb : bz (sid x d) = false /\ f2 (sid x d) = false) by by destruct d. destruct Hb as [Hb Hf].
    assert (Hd : cside (match d with R => CAioR | W => CAioW end) = d) by by destruct d. rewrite Hd, Hf. destruct ok.
    + refine (eq_rect _ (tr s) (T_start s o x (match d with R => CAioR | W => CAioW end) (loc x) Eo _ _ Ea _ _ _) _ _); [congruence|by rewrite Hd|by destruct d|left; eauto|by destruct d|].
      rewrite Hd. by destruct d, x.
    + refine (eq_rect _ (tr s) (T_fail s o x (match d with R => CAioR | W => CAioW end) _ Eo _ _ Ea _ (or_intror eq_refl)) _ _); [congruence|by rewrite Hd|by destruct d|by rewrite Hd].
  - unfold thread_free in E. destruct (acc s) eqn:Ea; cbn in E; [done|]. destruct (objs s !! o) as [x|] eqn:Eo; [|done].
    destruct (not_waiting _ _ _ _ HI Eo HD) as [B1 B2]. destruct (kd x) eqn:Ek; try done. rewrite B1, B2 in E. cbn in E. injection E as <- _. apply rtc_once. by eapply (T_next2 _ o x d).
  - unfold thread_free in E. destruct (acc s) eqn:Ea; cbn in E; [done|]. destruct (objs s !! o) as [x|] eqn:Eo; [|done]. destruct HD as [H1 H2].
    destruct (not_waiting _ _ _ _ HI Eo H1) as [B1 _]. destruct (kd x) eqn:Ek; try done. pose proof (i_lis _ HI _ _ Eo Ek) as B3. cbn in B1.
    assert (B4 : f2 (sw x) = false). { destruct (f2 (sw x)) eqn:Ef; [|done]. apply (i_f2 _ HI o x W Eo) in Ef as [? _]. cbn in *; congruence. }
    rewrite B3, B4 in E. destruct (srv x) eqn:Es; injection E as <- _; apply rtc_once.
    + assert (En : acs x = None). { destruct (acs x) as [n|] eqn:En; [|done]. destruct (sk_acs _ HS _ _ _ Eo En) as [Hs Hg]. apply H2 in Hs. lia. }
      refine (eq_rect _ (tr s) (T_acc s o x Eo Ek B1 Ea En) _ _). cbn. by rewrite Es, Ek, En.
    + refine (eq_rect _ (tr s) (T_acc0 s o x Eo Ek B1 Ea Es) _ _). cbn. by rewrite Es, Ek.
  - destruct (acc s) as [[o k]|] eqn:Ea; [|done]. destruct (i_acc _ HI _ _ Ea) as (x & Eo & Ek & B1 & Hk & En). rewrite Eo, En in E. cbn in E.
    assert (B2 : f2 (sr x) = false). { destruct (f2 (sr x)) eqn:Ef; [|done]. apply (i_f2 _ HI o x R Eo) in Ef as [? _]. cbn in *; congruence. }
    destruct sok; cbn in E; [destruct aok; cbn in E|].
    + injection E as <- _. apply rtc_once. rewrite B2. by eapply T_acc_ok.
    + destruct (srv x) eqn:Es; injection E as <- _; [apply rtc_once; by eapply T_acc_retry|]. eapply rtc_l; [by eapply T_acc_retry|]. apply rtc_once. by eapply (T_acc_end _ o k x).
    + destruct (srv x) eqn:Es; injection E as <- _; [done|]. apply rtc_once. by eapply (T_acc_end _ o k x).
  - destruct (objs s !! o) as [x|] eqn:Eo; [|done]. injection E as <- _. apply rtc_once. by eapply T_stop.
  - unfold thread_free in E. destruct (acc s) eqn:Ea; cbn in E; [done|]. destruct (objs s !! o) as [x|] eqn:Eo; [|done]. destruct (kd x) eqn:Ek; try done. injection E as <- _. apply rtc_once. by eapply T_take.
  - destruct ok; injection E as <- _; apply rtc_once; [apply T_post|apply T_drop].
  - destruct (pend s !! i) as [p|] eqn:Ep; [|done]. destruct (decide _) in E; [done|]. injection E as <- _. apply rtc_once. by eapply T_kern.
  - unfold thread_free, pc_idle in E. destruct (acc s) eqn:Ea; cbn in E; [done|]. destruct (pc s) eqn:Ep; try done. cbn in E. destruct (cq s) as [|[[[o d] k] v|k v] l] eqn:Ec; [done|..].
    + unfold handle in E. cbn [objs s_cq] in E. destruct (objs s !! o) as [x|] eqn:Eo; [|done].
      assert (Hx : (if bz (sr x) && bz (sw x) then if f2 (sr x) || f2 (sw x) then x else add_list LRw x else set_loc x None) = set_loc x (after x)).
      { unfold after. destruct (bz (sr x) && bz (sw x)); [destruct (f2 (sr x) || f2 (sw x))|]; by destruct x. }
      rewrite Hx in E. assert (Hy : sid (set_loc x (after x)) d = sid x d) by by destruct d. rewrite Hy in E.
      destruct (bz (sid x d)) eqn:Eb; [|done]. destruct (f2 (sid x d)) eqn:Ef; [done|]. cbn in E. injection E as <- _. apply rtc_once.
      refine (eq_rect _ (tr s) (T_hop s o d k v l x Ec Eo Eb Ef Ep Ea) _ _). unfold upd_side. by destruct d.
    + destruct (decide (k ∈ heap s)); [|done]. injection E as <- _. apply rtc_once. by eapply T_hnext.
  - unfold thread_free, pc_idle in E. destruct (acc s) eqn:Ea; cbn in E; [done|]. destruct (pc s) eqn:Ep; try done. cbn in E. destruct (objs s !! o) as [x|] eqn:Eo; [|done].
    destruct (decide _); [|done]. injection E as <- _. apply rtc_once. by eapply T_ready.
  - unfold thread_free in E. destruct (acc s) eqn:Ea; cbn in E; [done|]. destruct (pc s) eqn:Ep; [done|..].
    + destruct (w2 && w) eqn:Ew; [|injection E as <- _; apply rtc_once; by eapply T_skipW]. apply andb_true_iff in Ew as [-> ->].
      unfold ready_event in E. destruct (objs s !! o) as [x|] eqn:Eo; [|done]. injection E as <- _. apply rtc_once. by eapply T_evW.
    + destruct (r2 && r) eqn:Ew; [|injection E as <- _; apply rtc_once; by eapply T_skipR]. apply andb_true_iff in Ew as [-> ->].
      unfold ready_event in E. destruct (objs s !! o) as [x|] eqn:Eo; [|done]. injection E as <- _. apply rtc_once. by eapply T_evR.
    + destruct (r || w) eqn:Ew; [|injection E as <- _; apply orb_false_iff in Ew as [-> ->]; apply rtc_once; by eapply T_skipE].
      destruct (objs s !! o) as [x|] eqn:Eo; [|done]. injection E as <- _. apply rtc_once. by eapply T_list.
  - unfold thread_free, pc_idle in E. destruct (acc s) eqn:Ea; cbn in E; [done|]. destruct (pc s) eqn:Ep; try done. cbn in E. destruct (objs s !! o) as [x|] eqn:Eo; [|done].
    assert (Hl : (if lf then Ok s tt else if rto x && bz (sr x) then Ok (log [OTmo (rqo x R)] s) tt else Ok (log [OShut o] (put o (set_shut (set_loc x None) true) s)) tt) = Ok s' u
      /\ (loc x = Some LConn \/ loc x = Some LRw)) by (destruct (loc x) as [[]|]; eauto; done).
    destruct Hl as [E' Hl]. destruct lf; [by injection E' as <- _|]. destruct (rto x && bz (sr x)) eqn:Er; injection E' as <- _; apply rtc_once.
    + apply andb_true_iff in Er as [_ Er]. by eapply T_tmo.
    + by eapply T_shut.
Qed.
