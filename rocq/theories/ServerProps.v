(** C48: the server object, its listeners and connections *)
From stdpp Require Import gmap.
From Verif Require Import Lts Count ServerModel.
Local Open Scope Z_scope.

(** ** Specification *)
(** the schedules of the theorems: a posted ssl_ctx update does not run after its listener was destroyed (refuted below) *)
Definition normal (s : st) (e : ev) : Prop :=
  match e with SslUpdate i => match posted s !! i with Some (id, _) => is_Some (lsns s !! id) | None => True end | _ => True end.
Inductive reach : st -> Prop :=
| reach_0 : reach init
| reach_S s e s' o : reach s -> normal s e -> step s e = Ok s' o -> reach s'.
(** the references to one ssl_ctx: the server, each listener, each posted update, the program *)
Definition ctx_refs (s : st) (a : nat) : Z :=
  oz (ctx s) a + summ (λ l, oz (l_ctx l) a) (lsns s) + sumz (λ p : nat * option nat, oz p.2 a) (posted s) + occ a (uctx s).

Record inv (s : st) : Prop := Inv {
  v_alive : alive s = true -> refs s = Z.of_nat (own s) + Z.of_nat (size (lsns s)) + Z.of_nat (length (conns s)) /\ 0 < refs s;
  v_dead : alive s = false -> own s = 0%nat /\ lsns s = ∅ /\ conns s = [] /\ ctx s = None /\ ss s = [];
  v_frees : frees s = if alive s then 0%nat else 1%nat;
  v_nd : NoDup (ss s); v_ss : forall id, id ∈ ss s <-> exists l, lsns s !! id = Some l /\ l_ph l <> PUnlinked;
  v_pos : hpos (heap s); v_heap : forall a, hget (heap s) a = ctx_refs s a;
  v_used : forall id l, lsns s !! id = Some l -> id ∈ used s }.
Lemma inv_init : inv init.
Proof.
  split; cbn; try done.
  - constructor.
  - intros id. rewrite elem_of_nil. split; [done|]. intros (l & H & _). by rewrite lookup_empty in H.
Qed.
Ltac sm := cbn [alive refs start ctx ss lsns conns own heap uctx posted frees stale used s_refs s_start s_ctx s_ss s_lsns s_conns s_own s_heap s_uctx s_posted s_stale s_used l_ph l_ctx fst snd] in *.
Lemma oz_some_occ a b : oz (Some a) b = b2z (bool_decide (a = b)).
Proof. unfold oz. by rewrite (bool_decide_ext (Some a = Some b) (a = b)) by (split; congruence). Qed.
Lemma ctx_parts s a : 0 <= oz (ctx s) a /\ 0 <= summ (λ l, oz (l_ctx l) a) (lsns s) /\ 0 <= sumz (λ p : nat * option nat, oz p.2 a) (posted s) /\ 0 <= occ a (uctx s).
Proof. split_and!; [apply oz_nonneg|apply summ_nonneg; intros; apply oz_nonneg|apply sumz_nonneg; intros; apply oz_nonneg|apply occ_nonneg]. Qed.
(** a listener changes phase within the list *)
Lemma inv_phase s id l p : inv s -> lsns s !! id = Some l -> l_ph l <> PUnlinked -> p <> PUnlinked -> inv (s_lsns (<[id := Lsn p (l_ctx l)]> (lsns s)) s).
Proof.
  intros [I1 I2 I3 I4 I5 I6 I7 I8] Hid Hp Hp'. split; sm; try done.
  - intros Ha. rewrite map_size_insert_Some by done. by apply I1.
  - intros Ha. destruct (I2 Ha) as (_ & E & _). by rewrite E, lookup_empty in Hid.
  - intros x. rewrite I5. destruct (decide (id = x)) as [<-|Hn]; [rewrite lookup_insert|by rewrite lookup_insert_ne].
    split; [intros _; by exists (Lsn p (l_ctx l))|intros _; by exists l].
  - intros a. rewrite I7. unfold ctx_refs; sm. rewrite (summ_upd _ _ _ _ _ Hid). sm. lia.
  - intros x k. destruct (decide (id = x)) as [<-|Hn]; [intros _; by eapply I8|rewrite lookup_insert_ne by done; apply I8].
Qed.
Lemma inv_alive s id l : inv s -> lsns s !! id = Some l -> alive s = true.
Proof. intros I Hid. destruct (alive s) eqn:E; [done|]. destruct (v_dead _ I E) as (_ & E' & _). by rewrite E', lookup_empty in Hid. Qed.
(** dropping one reference of the server: [s] counts one reference too many *)
Lemma release_inv s : alive s = true -> refs s = Z.of_nat (own s) + Z.of_nat (size (lsns s)) + Z.of_nat (length (conns s)) + 1 -> frees s = 0%nat ->
  NoDup (ss s) -> (forall id, id ∈ ss s <-> exists l, lsns s !! id = Some l /\ l_ph l <> PUnlinked) -> hpos (heap s) -> (forall a, hget (heap s) a = ctx_refs s a) ->
  (forall id l, lsns s !! id = Some l -> id ∈ used s) -> exists s', release s = Some s' /\ inv s' /\ lsns s' = lsns s /\ used s' = used s /\ own s' = own s /\ conns s' = conns s.
Proof.
  intros Ha Hr Hf H1 H2 H3 H4 H5. unfold release. rewrite Ha. case_decide as Hd.
  - assert (Ho : own s = 0%nat) by lia. assert (Hz : size (lsns s) = 0%nat) by lia. assert (Hc : length (conns s) = 0%nat) by lia.
    apply map_size_empty_inv in Hz. apply nil_length_inv in Hc. assert (Hs : ss s = []).
    { destruct (ss s) as [|x l] eqn:E; [done|]. destruct (proj1 (H2 x)) as (k & Hk & _); [by left|]. by rewrite Hz, lookup_empty in Hk. }
    rewrite Hs. destruct (unref (heap s) (ctx s)) as [h|] eqn:U.
    2:{ exfalso. revert U. apply unref_ok. intros b. rewrite H4. unfold ctx_refs. pose proof (ctx_parts s b). lia. }
    destruct (unref_spec _ _ _ H3 U) as [P1 P2]. eexists. split; [done|]. split; [|done]. split; sm; try done.
    + congruence.
    + constructor.
    + intros id. rewrite elem_of_nil. split; [done|]. intros (l & E & _). by rewrite Hz, lookup_empty in E.
    + intros a. rewrite P2, H4. unfold ctx_refs; sm. rewrite oz_none. lia.
  - eexists. split; [done|]. split; [|done]. split; sm; try done; [|congruence|by rewrite Ha]. intros _. lia.
Qed.
Lemma inv_close_conn s c : inv s -> c ∈ conns s -> exists s', release (s_conns (remove1 c (conns s)) s) = Some s' /\ inv s' /\ lsns s' = lsns s /\ own s' = own s /\ conns s' = remove1 c (conns s) /\ used s' = used s.
Proof.
  intros I Hc. destruct (alive s) eqn:Ha; [|destruct (v_dead _ I Ha) as (_ & _ & E & _); rewrite E in Hc; by apply elem_of_nil in Hc].
  destruct (release_inv (s_conns (remove1 c (conns s)) s)) as (s' & E1 & E2 & E3 & E4 & E5 & E6); sm; try done.
  - destruct (v_alive _ I Ha) as [-> _]. rewrite (remove1_length c (conns s) Hc). lia.
  - rewrite (v_frees _ I). by rewrite Ha.
  - apply I. - apply I. - apply I. - apply I. - apply I.
  - exists s'. split_and!; done.
Qed.
Lemma inv_own_release s : inv s -> own s <> 0%nat -> exists s', release (s_own (own s - 1) s) = Some s' /\ inv s' /\ lsns s' = lsns s /\ own s' = (own s - 1)%nat /\ conns s' = conns s /\ used s' = used s.
Proof.
  intros I Ho. destruct (alive s) eqn:Ha; [|by destruct (v_dead _ I Ha)].
  destruct (release_inv (s_own (own s - 1) s)) as (s' & E1 & E2 & E3 & E4 & E5 & E6); sm; try done.
  - destruct (v_alive _ I Ha) as [-> _]. lia.
  - rewrite (v_frees _ I). by rewrite Ha.
  - apply I. - apply I. - apply I. - apply I. - apply I.
  - exists s'. split_and!; done.
Qed.
Lemma inv_destroy3 s id x : inv s -> lsns s !! id = Some (Lsn PUnlinked x) ->
  exists s1 h, release s = Some s1 /\ unref (heap s1) x = Some h /\ inv (s_heap h (s_lsns (delete id (lsns s1)) s1)) /\ lsns s1 = lsns s /\ own s1 = own s /\ conns s1 = conns s /\ used s1 = used s.
Proof.
  intros I Hid. pose proof (inv_alive _ _ _ I Hid) as Ha. destruct (v_alive _ I Ha) as [Hr Hp].
  assert (Hsz : size (lsns s) = S (size (delete id (lsns s)))). { rewrite map_size_delete_Some by eauto. assert (size (lsns s) <> 0%nat); [|lia]. rewrite map_size_non_empty_iff. intros E. by rewrite E, lookup_empty in Hid. }
  assert (Hx : forall b, oz x b <= summ (λ l, oz (l_ctx l) b) (lsns s)). { intros b. apply (summ_in (λ l, oz (l_ctx l) b) _ _ _ ltac:(intros; apply oz_nonneg) Hid). }
  unfold release. rewrite Ha. case_decide as Hd.
  - assert (Ho : own s = 0%nat) by lia. assert (Hz : size (delete id (lsns s)) = 0%nat) by lia. assert (Hc : length (conns s) = 0%nat) by lia.
    apply map_size_empty_inv in Hz. apply nil_length_inv in Hc. assert (Hs : ss s = []).
    { destruct (ss s) as [|y l] eqn:E; [done|]. assert (Hy : y ∈ ss s) by (rewrite E; by left). apply (v_ss _ I) in Hy as (k & Hk & Hk'). destruct (decide (id = y)) as [->|Hn]; [rewrite Hid in Hk; injection Hk as <-; done|].
      assert (delete id (lsns s) !! y = Some k) as Ey by (by rewrite lookup_delete_ne). by rewrite Hz, lookup_empty in Ey. }
    rewrite Hs. destruct (unref (heap s) (ctx s)) as [h1|] eqn:U.
    2:{ exfalso. revert U. apply unref_ok. intros b. rewrite (v_heap _ I). unfold ctx_refs. pose proof (ctx_parts s b). lia. }
    destruct (unref_spec _ _ _ (v_pos _ I) U) as [P1 P2].
    destruct (unref h1 x) as [h2|] eqn:U2.
    2:{ exfalso. revert U2. apply unref_ok. intros b. rewrite P2, (v_heap _ I). unfold ctx_refs. pose proof (ctx_parts s b). specialize (Hx b). lia. }
    destruct (unref_spec _ _ _ P1 U2) as [P3 P4]. eexists _, h2. split; [done|]. split; [exact U2|]. split; [|done]. split; sm; try done.
    + by rewrite (v_frees _ I), Ha.
    + constructor.
    + intros y. rewrite elem_of_nil, Hz. split; [done|]. intros (l & E & _). by rewrite lookup_empty in E.
    + intros a. rewrite P4, P2, (v_heap _ I). unfold ctx_refs; sm. rewrite (summ_del _ _ _ _ Hid), oz_none. sm. lia.
    + intros y l. by rewrite Hz, lookup_empty.
  - destruct (unref (heap s) x) as [h2|] eqn:U2.
    2:{ exfalso. revert U2. apply unref_ok. intros b. rewrite (v_heap _ I). unfold ctx_refs. pose proof (ctx_parts s b). specialize (Hx b). lia. }
    destruct (unref_spec _ _ _ (v_pos _ I) U2) as [P3 P4]. eexists _, h2. split; [done|]. split; [exact U2|]. split; [|done]. destruct I as [I1 I2 I3 I4 I5 I6 I7 I8]. split; sm; try done; try congruence.
    + intros _. lia.
    + intros y. rewrite I5. destruct (decide (id = y)) as [<-|Hn]; [rewrite lookup_delete, Hid|by rewrite lookup_delete_ne].
      split; intros (l & [= <-] & ?). done.
    + intros a. rewrite P4, I7. unfold ctx_refs; sm. rewrite (summ_del _ _ _ _ Hid). sm. lia.
    + intros y l. destruct (decide (id = y)) as [<-|Hn]; [by rewrite lookup_delete|rewrite lookup_delete_ne by done; apply I8].
Qed.
(** replacing the ssl_ctx of a listener by [c], whose reference is already counted in [h] *)
Lemma inv_upd s id l c h0 : inv s -> lsns s !! id = Some l -> hpos h0 -> (forall a, hget h0 a = hget (heap s) a + oz c a) ->
  exists h, unref h0 (l_ctx l) = Some h /\ inv (s_heap h (s_lsns (<[id := Lsn (l_ph l) c]> (lsns s)) s)).
Proof.
  intros I Hid Hp Hh. destruct I as [I1 I2 I3 I4 I5 I6 I7 I8].
  assert (Hx : forall b, oz (l_ctx l) b <= summ (λ l, oz (l_ctx l) b) (lsns s)). { intros b. apply (summ_in (λ l, oz (l_ctx l) b) _ _ _ ltac:(intros; apply oz_nonneg) Hid). }
  destruct (unref h0 (l_ctx l)) as [h|] eqn:U.
  2:{ exfalso. revert U. apply unref_ok. intros b. rewrite Hh, I7. unfold ctx_refs. pose proof (ctx_parts s b). specialize (Hx b). pose proof (oz_nonneg c b). lia. }
  destruct (unref_spec _ _ _ Hp U) as [P1 P2]. exists h. split; [done|]. split; sm; try done.
  - intros Ha. rewrite map_size_insert_Some by done. by apply I1.
  - intros Ha. destruct (I2 Ha) as (_ & E & _). by rewrite E, lookup_empty in Hid.
  - intros x. rewrite I5. destruct (decide (id = x)) as [<-|Hn]; [rewrite lookup_insert, Hid|by rewrite lookup_insert_ne].
    split; intros (k & [= <-] & ?); eexists; (split; [done|done]).
  - intros a. rewrite P2, Hh, I7. unfold ctx_refs; sm. rewrite (summ_upd _ _ _ _ _ Hid). sm. lia.
  - intros x k. destruct (decide (id = x)) as [<-|Hn]; [intros _; by eapply I8|rewrite lookup_insert_ne by done; apply I8].
Qed.
Lemma set_loop_inv c l : forall s, inv s -> ctx s = c -> (forall id, id ∈ l -> is_Some (lsns s !! id)) ->
  exists s', set_loop c l s = Some s' /\ inv s' /\ (forall id, is_Some (lsns s' !! id) <-> is_Some (lsns s !! id)) /\ own s' = own s /\ conns s' = conns s /\ start s' = start s /\ used s' = used s
   /\ (forall id k', lsns s' !! id = Some k' -> exists k, lsns s !! id = Some k /\ l_ph k = l_ph k').
Proof.
  induction l as [|id l IH]; intros s I Hc Hl; cbn [set_loop]; [exists s; split_and!; eauto|].
  assert (Hoz : forall b, oz c b <= hget (heap s) b). { intros b. rewrite (v_heap _ I). unfold ctx_refs. pose proof (ctx_parts s b). rewrite Hc in *. lia. }
  destruct (ref (heap s) c) as [h|] eqn:U; [|exfalso; by apply (ref_ok _ _ Hoz)]. destruct (ref_spec _ _ _ (v_pos _ I) U) as [P1 P2].
  change (start (s_heap h s)) with (start s). destruct (start s) eqn:Es.
  - set (s1 := s_posted _ _). assert (I1 : inv s1). { destruct I as [I1 I2 I3 I4 I5 I6 I7 I8]. split; subst s1; sm; try done. intros a. rewrite P2, I7. unfold ctx_refs; sm. rewrite sumz_app, sumz_one. sm. lia. }
    destruct (IH s1 I1 Hc) as (s' & E1 & E2 & E3 & E4 & E5 & E6 & E7 & E8); [intros x Hx; apply Hl; by right|]. exists s'. split_and!; try done. by rewrite E6.
  - destruct (Hl id) as [k Hk]; [by left|]. destruct (inv_upd s id k c h I Hk P1 P2) as (h2 & U2 & I2). unfold upd_ctx. change (lsns (s_heap h s)) with (lsns s). rewrite Hk. change (heap (s_heap h s)) with h. rewrite U2.
    set (s1 := s_heap h2 _) in I2 |- *. destruct (IH s1 I2 Hc) as (s' & E1 & E2 & E3 & E4 & E5 & E6 & E7 & E8).
    { intros x Hx. change (lsns s1) with (<[id := Lsn (l_ph k) c]> (lsns s)). destruct (decide (id = x)) as [<-|Hn]; [by rewrite lookup_insert|rewrite lookup_insert_ne by done; apply Hl; by right]. }
    exists s'. split_and!; try done.
    + intros x. rewrite E3. change (lsns s1) with (<[id := Lsn (l_ph k) c]> (lsns s)). destruct (decide (id = x)) as [<-|Hn]; [rewrite lookup_insert, Hk; by split|by rewrite lookup_insert_ne].
    + by rewrite E6.
    + intros x k' Hk'. destruct (E8 _ _ Hk') as (k2 & F1 & F2). change (lsns s1) with (<[id := Lsn (l_ph k) c]> (lsns s)) in F1.
      destruct (decide (id = x)) as [<-|Hn]; [rewrite lookup_insert in F1; injection F1 as <-; by exists k|rewrite lookup_insert_ne in F1 by done; by exists k2].
Qed.
Lemma step_inv s e : inv s -> normal s e -> match step s e with Crash => False | Ok s' _ => inv s' | Disabled => True end.
Proof.
  intros I Hn. assert (Hdead : own s <> 0%nat -> alive s = true). { intros Ho. destruct (alive s) eqn:E; [done|]. by destruct (v_dead _ I E). }
  destruct e as [| |c|id| |id c ok rearm|id|id|id|c| |c|i]; cbn [step].
  - case_decide as Ho; [done|]. rewrite (Hdead Ho). destruct I as [I1 I2 I3 I4 I5 I6 I7 I8]. specialize (Hdead Ho). split; sm; try done; [|congruence]. intros _. destruct (I1 Hdead). lia.
  - case_decide as Ho; [done|]. destruct (inv_own_release s I Ho) as (s' & -> & I' & _). exact I'.
  - destruct (heap s !! c) as [|] eqn:Hc; [done|]. destruct I as [I1 I2 I3 I4 I5 I6 I7 I8]. split; sm; try done.
    + intros a z. destruct (decide (c = a)) as [<-|]; [rewrite lookup_insert; intros [= <-]; lia|rewrite lookup_insert_ne by done; apply I6].
    + intros a. rewrite hget_ins. unfold ctx_refs; sm. rewrite occ_cons. specialize (I7 a). unfold ctx_refs in I7. case_decide as Hd.
      * subst a. rewrite bool_decide_true by done. cbn [b2z]. unfold hget in I7. rewrite Hc in I7. cbn [default] in I7. cbn in I7. lia.
      * rewrite bool_decide_false by done. cbn [b2z]. lia.
  - case_decide as Ho; [done|]. case_decide as Hu; [done|]. rewrite (Hdead Ho). specialize (Hdead Ho).
    assert (Hoz : forall b, oz (ctx s) b <= hget (heap s) b). { intros b. rewrite (v_heap _ I). unfold ctx_refs. pose proof (ctx_parts s b). lia. }
    destruct (ref (heap s) (ctx s)) as [h|] eqn:U; [|by apply (ref_ok _ _ Hoz)]. destruct (ref_spec _ _ _ (v_pos _ I) U) as [P1 P2].
    destruct I as [I1 I2 I3 I4 I5 I6 I7 I8]. assert (Hf : lsns s !! id = None). { destruct (lsns s !! id) eqn:E; [|done]. by apply I8 in E. } split; sm; try done.
    + intros _. destruct (I1 Hdead) as [-> ?]. rewrite map_size_insert_None by done. lia.
    + congruence.
    + apply NoDup_app. split_and!; [done| |apply NoDup_singleton]. intros x Hx ->%elem_of_list_singleton. apply I5 in Hx as (l & E & _). congruence.
    + intros x. rewrite elem_of_app, elem_of_list_singleton, I5. destruct (decide (id = x)) as [<-|Hx]; [rewrite lookup_insert|rewrite lookup_insert_ne by done].
      * split; [intros _; by eexists|by right].
      * split; [intros [?|?]; [done|congruence]|by left].
    + intros a. rewrite P2, I7. unfold ctx_refs; sm. rewrite summ_new by done. sm. lia.
    + intros x l. destruct (decide (id = x)) as [<-|Hx]; [intros _; by left|rewrite lookup_insert_ne by done; intros; right; by eapply I8].
  - case_decide as Ho; [done|]. rewrite (Hdead Ho). destruct I. by split.
  - destruct (lsns s !! id) as [[[] x]|] eqn:Hid; try done. case_decide as Hc; [done|]. pose proof (inv_alive _ _ _ I Hid) as Ha. rewrite Ha. destruct ok.
    + pose proof (inv_phase s id _ (if start s && rearm then PLive else PDying) I Hid ltac:(done) ltac:(by destruct (start s && rearm))) as [I1 I2 I3 I4 I5 I6 I7 I8]. sm. split; sm; try done; [|congruence].
      intros _. destruct (I1 Ha). cbn [length]. lia.
    + exact (inv_phase s id _ PDying I Hid ltac:(done) ltac:(done)).
  - destruct (lsns s !! id) as [[[] x]|] eqn:Hid; try done. exact (inv_phase s id _ PClosed I Hid ltac:(done) ltac:(done)).
  - destruct (lsns s !! id) as [[[] x]|] eqn:Hid; try done. pose proof (inv_alive _ _ _ I Hid) as Ha. rewrite Ha. assert (Hin : id ∈ ss s) by (apply (v_ss _ I); by eexists).
    destruct (ss s) as [|y l0] eqn:Es; [by apply elem_of_nil in Hin|]. rewrite <- Es in *. destruct I as [I1 I2 I3 I4 I5 I6 I7 I8]. split; sm; try done.
    + intros _. rewrite map_size_insert_Some by done. by apply I1.
    + congruence.
    + by apply remove1_nodup.
    + intros x'. pose proof (remove1_perm id _ Hin) as Hp. destruct (decide (id = x')) as [<-|Hx]; [rewrite lookup_insert|rewrite lookup_insert_ne by done].
      * rewrite Hp in I4. apply NoDup_cons in I4 as [? _]. split; [done|]. intros (l & [= <-] & ?). done.
      * rewrite <- I5. rewrite Hp at 2. rewrite elem_of_cons. split; [by right|intros [?|?]; [congruence|done]].
    + intros a. rewrite I7. unfold ctx_refs; sm. rewrite (summ_upd _ _ _ _ _ Hid). sm. lia.
    + intros x' l. destruct (decide (id = x')) as [<-|Hx]; [intros _; by eapply I8|rewrite lookup_insert_ne by done; apply I8].
  - destruct (lsns s !! id) as [[[] x]|] eqn:Hid; try done. destruct (inv_destroy3 s id x I Hid) as (s1 & h & -> & -> & I' & _). exact I'.
  - case_decide as Hc; [|done]. destruct (inv_close_conn s c I Hc) as (s' & -> & I' & _). exact I'.
  - case_decide as Ho; [done|]. rewrite (Hdead Ho). destruct I. by split.
  - case_decide as Ho; [done|]. destruct (match c with Some c => bool_decide (c ∉ uctx s) | None => false end) eqn:Eu; [done|]. rewrite (Hdead Ho). specialize (Hdead Ho).
    assert (G : match unref (heap s) (ctx s) with None => False | Some h =>
        let s := s_heap h (s_uctx (match c with Some c => remove1 c (uctx s) | None => uctx s end) (s_ctx c s)) in match lift (set_loop c (ss s) s) with Crash => False | Ok s' _ => inv s' | Disabled => True end end).
    { destruct (unref (heap s) (ctx s)) as [h|] eqn:U.
      2:{ revert U. apply unref_ok. intros b. rewrite (v_heap _ I). unfold ctx_refs. pose proof (ctx_parts s b). lia. }
      destruct (unref_spec _ _ _ (v_pos _ I) U) as [P1 P2]. intros s1. assert (I1 : inv s1).
      { destruct I as [I1 I2 I3 I4 I5 I6 I7 I8]. split; subst s1; sm; try done; [congruence|]. intros a. rewrite P2, I7. unfold ctx_refs; sm. destruct c as [c|].
        - apply bool_decide_eq_false in Eu. apply dec_stable in Eu. assert (occ a (uctx s) = oz (Some c) a + occ a (remove1 c (uctx s))) as ->; [|lia].
          rewrite oz_some_occ. clear -Eu. induction (uctx s) as [|y l IH]; [by apply elem_of_nil in Eu|]. cbn [remove1]. rewrite occ_cons. destruct (decide (c = y)) as [->|Hd]; [lia|]. rewrite occ_cons.
          apply elem_of_cons in Eu as [?|Eu]; [done|]. rewrite (IH Eu). lia.
        - rewrite oz_none. lia. }
      destruct (set_loop_inv c (ss s1) s1 I1 eq_refl) as (s' & -> & I' & _); [|exact I']. intros id Hid. apply (v_ss _ I1) in Hid as (l & -> & _). eauto. }
    destruct (ctx s) as [x|] eqn:Ex; [destruct c as [c|]; [|done]|]; destruct (unref (heap s) _); exact G.
  - destruct (posted s !! i) as [[id c]|] eqn:Hi; [|done]. cbn [normal] in Hn. rewrite Hi in Hn. destruct Hn as [l Hid]. unfold upd_ctx. change (lsns (s_posted _ s)) with (lsns s). rewrite Hid.
    change (heap (s_posted _ s)) with (heap s).
    pose proof (sumz_in (λ p : nat * option nat, oz p.2 0) (posted s) (id, c)) as _.
    (* the state in which the reference of the posted update is dropped *)
    assert (Hge : forall a, oz (l_ctx l) a + oz c a <= hget (heap s) a).
    { intros a. rewrite (v_heap _ I). unfold ctx_refs. pose proof (summ_in (λ l, oz (l_ctx l) a) _ _ _ ltac:(intros; apply oz_nonneg) Hid).
      pose proof (sumz_in (λ p : nat * option nat, oz p.2 a) _ _ ltac:(intros; apply oz_nonneg) (elem_of_list_lookup_2 _ _ _ Hi)). sm. pose proof (ctx_parts s a). lia. }
    destruct (unref (heap s) (l_ctx l)) as [h|] eqn:U.
    2:{ revert U. apply unref_ok. intros b. specialize (Hge b). pose proof (oz_nonneg c b). lia. }
    destruct (unref_spec _ _ _ (v_pos _ I) U) as [P1 P2]. cbn [lift]. destruct I as [I1 I2 I3 I4 I5 I6 I7 I8]. split; sm; try done.
    + intros Ha. rewrite map_size_insert_Some by done. by apply I1.
    + intros Ha. destruct (I2 Ha) as (_ & E & _). by rewrite E, lookup_empty in Hid.
    + intros x. rewrite I5. destruct (decide (id = x)) as [<-|Hx]; [rewrite lookup_insert, Hid|by rewrite lookup_insert_ne].
      split; intros (k & [= <-] & ?); eexists; (split; [done|done]).
    + intros a. rewrite P2, I7. unfold ctx_refs; sm. rewrite (summ_upd _ _ _ _ _ Hid), (sumz_del _ _ _ _ Hi). sm. lia.
    + intros x k. destruct (decide (id = x)) as [<-|Hx]; [intros _; by eapply I8|rewrite lookup_insert_ne by done; apply I8].
Qed.
Lemma reach_i s : reach s -> inv s.
Proof. induction 1 as [|s e s' o _ IH Hn Hs]; [apply inv_init|]. pose proof (step_inv s e IH Hn) as P. by rewrite Hs in P. Qed.

(** ** C48 *)
(** no schedule fails an assertion (in particular "no listener is left when the server is freed") or uses the server, a listener
    or an ssl_ctx after it was freed, posted ssl_ctx updates of destroyed listeners excepted *)
Theorem C48_safe_partial : forall s e, reach s -> normal s e -> step s e <> Crash.
Proof. intros s e Hr Hn E. pose proof (step_inv s e (reach_i s Hr) Hn) as P. by rewrite E in P. Qed.
(** the server is freed exactly when the program, the listeners and the connections have all let go of it, and only once *)
Theorem C48_freed_partial : forall s, reach s ->
  (alive s = false <-> own s = 0%nat /\ lsns s = ∅ /\ conns s = []) /\ frees s = (if alive s then 0 else 1)%nat.
Proof.
  intros s Hr. pose proof (reach_i s Hr) as I. split; [|apply I]. split.
  - intros Ha. destruct (v_dead _ I Ha) as (? & ? & ? & _). done.
  - intros (Ho & Hl & Hc). destruct (alive s) eqn:Ha; [|done]. destruct (v_alive _ I Ha) as [E1 E2]. rewrite Ho, Hl, Hc in E1. rewrite map_size_empty in E1. cbn in E1. lia.
Qed.
(** an ssl_ctx is alive exactly while the server, a listener, a posted update or the program refers to it *)
Theorem C48_ssl_ctx_partial : forall s a, reach s ->
  (is_Some (heap s !! a) <-> ctx s = Some a \/ (exists id l, lsns s !! id = Some l /\ l_ctx l = Some a) \/ (exists id, (id, Some a) ∈ posted s) \/ a ∈ uctx s).
Proof.
  intros s a Hr. pose proof (reach_i s Hr) as I. pose proof (v_heap _ I a) as E. unfold ctx_refs in E. pose proof (ctx_parts s a) as Hp. split.
  - intros [z Hz]. pose proof (v_pos _ I _ _ Hz). unfold hget in E. rewrite Hz in E. cbn in E.
    destruct (decide (0 < oz (ctx s) a)) as [G|G]; [left; by apply oz_pos|right].
    destruct (decide (0 < summ (λ l, oz (l_ctx l) a) (lsns s))) as [G2|G2]; [left|right].
    { apply summ_pos in G2 as (id & l & H1 & H2). exists id, l. split; [done|]. by apply oz_pos. }
    destruct (decide (0 < sumz (λ p : nat * option nat, oz p.2 a) (posted s))) as [G3|G3]; [left|right; apply occ_in; lia].
    apply sumz_pos in G3 as ([id c] & H1 & H2). apply oz_pos in H2. cbn in H2. subst c. by exists id.
  - intros Hx. apply hget_live. rewrite E. destruct Hx as [Hx|[(id & l & H1 & H2)|[(id & Hx)|Hx]]].
    + rewrite Hx, oz_same. rewrite Hx in Hp. lia.
    + pose proof (summ_in (λ l, oz (l_ctx l) a) _ _ _ ltac:(intros; apply oz_nonneg) H1) as G. cbn in G. rewrite H2, oz_same in G. lia.
    + pose proof (sumz_in (λ p : nat * option nat, oz p.2 a) _ _ ltac:(intros; apply oz_nonneg) Hx) as G. cbn [snd] in G. rewrite oz_same in G. lia.
    + apply occ_in in Hx. lia.
Qed.
(** kserver_close stops a server: until it is opened again each listener hands out at most one more connection *)
Definition isacc (id : nat) (e : ev) : bool := match e with Accept i _ true _ => bool_decide (i = id) | _ => false end.
Definition noopen (e : ev) : Prop := match e with Open => False | _ => True end.
Definition gone (s : st) (id : nat) : Prop := id ∈ used s /\ (forall l, lsns s !! id = Some l -> l_ph l <> PLive).
Lemma release_same s s' : release s = Some s' -> lsns s' = lsns s /\ used s' = used s /\ start s' = start s.
Proof. unfold release. destruct (alive s); [|done]. case_decide; [|intros [= <-]; done]. destruct (ss s); [|done]. destruct (unref _ _); [|done]. intros [= <-]. done. Qed.
Lemma upd_same s id c s' : upd_ctx s id c = Some s' -> used s' = used s /\ start s' = start s /\ (forall x k', lsns s' !! x = Some k' -> exists k, lsns s !! x = Some k /\ l_ph k = l_ph k').
Proof.
  unfold upd_ctx. destruct (lsns s !! id) as [l|] eqn:E; [|done]. destruct (unref _ _); [|done]. intros [= <-]. sm. split_and!; [done|done|].
  intros x k'. destruct (decide (id = x)) as [<-|]; [rewrite lookup_insert; intros [= <-]; by exists l|rewrite lookup_insert_ne by done; intros; by exists k'].
Qed.
Lemma set_loop_same c l : forall s s', set_loop c l s = Some s' -> used s' = used s /\ start s' = start s /\ (forall x k', lsns s' !! x = Some k' -> exists k, lsns s !! x = Some k /\ l_ph k = l_ph k').
Proof.
  induction l as [|id l IH]; intros s s'; cbn [set_loop]; [intros [= <-]; split_and!; eauto|]. destruct (ref (heap s) c) as [h|]; [|done]. change (start (s_heap h s)) with (start s). destruct (start s) eqn:Es.
  - intros H. destruct (IH _ _ H) as (A & B & C). split_and!; [done|by rewrite B|done].
  - destruct (upd_ctx (s_heap h s) id c) as [s1|] eqn:E; [|done]. intros H. destruct (IH _ _ H) as (A & B & C). destruct (upd_same _ _ _ _ E) as (A' & B' & C'). split_and!; [by rewrite A, A'|by rewrite B, B'|].
    intros x k' Hk. destruct (C _ _ Hk) as (k & K1 & K2). destruct (C' _ _ K1) as (k2 & K3 & K4). exists k2. split; [done|congruence].
Qed.
(** one step of a closed server *)
Lemma closed_step s e s' o id : start s = false -> noopen e -> step s e = Ok s' o ->
  start s' = false /\ (gone s id -> gone s' id) /\ (isacc id e = true -> (exists l, lsns s !! id = Some l) -> (forall x l, lsns s !! x = Some l -> x ∈ used s) -> ~ gone s id /\ gone s' id).
Proof.
  intros Hs Hno He. unfold gone. destruct e as [| |c|i| |i c ok rearm|i|i|i|c| |c|i]; cbn [step isacc] in *.
  - case_decide; [done|]. destruct (alive s); [|done]. injection He as <- _. done.
  - case_decide; [done|]. destruct (release _) as [s1|] eqn:E; [|done]. injection He as <- _. destruct (release_same _ _ E) as (-> & -> & ->). done.
  - destruct (heap s !! c); [done|]. injection He as <- _. done.
  - case_decide; [done|]. case_decide as Hu; [done|]. destruct (alive s); [|done]. destruct (ref _ _) as [h|]; [|done]. injection He as <- _. sm. split_and!; [done| |done].
    intros [H1 H2]. split; [by right|]. destruct (decide (i = id)) as [->|]; [done|by rewrite lookup_insert_ne].
  - done.
  - destruct (lsns s !! i) as [[[] x]|] eqn:Hi; try done. case_decide; [done|]. destruct (alive s); [|done]. destruct ok; injection He as <- _; sm; rewrite ?Hs.
    + split_and!; [done| |].
      * intros [H1 H2]. split; [done|]. destruct (decide (i = id)) as [->|]; [rewrite lookup_insert; intros l [= <-]; done|by rewrite lookup_insert_ne].
      * intros ->%bool_decide_eq_true _ Hu. split; [intros [_ H2]; by apply (H2 _ Hi)|]. split; [by eapply Hu|]. intros l. rewrite lookup_insert. intros [= <-]. done.
    + split_and!; [done| |done]. intros [H1 H2]. split; [done|]. destruct (decide (i = id)) as [->|]; [rewrite lookup_insert; intros l [= <-]; done|by rewrite lookup_insert_ne].
  - destruct (lsns s !! i) as [[[] x]|] eqn:Hi; try done. injection He as <- _. sm. split_and!; [done| |done]. intros [H1 H2]. split; [done|]. destruct (decide (i = id)) as [->|]; [rewrite lookup_insert; intros l [= <-]; done|by rewrite lookup_insert_ne].
  - destruct (lsns s !! i) as [[[] x]|] eqn:Hi; try done. destruct (alive s); [|done]. destruct (ss s); [done|]. injection He as <- _. sm. split_and!; [done| |done].
    intros [H1 H2]. split; [done|]. destruct (decide (i = id)) as [->|]; [rewrite lookup_insert; intros l0 [= <-]; done|by rewrite lookup_insert_ne].
  - destruct (lsns s !! i) as [[[] x]|] eqn:Hi; try done. destruct (release s) as [s1|] eqn:E; [|done]. destruct (unref _ _) as [h|]; [|done]. injection He as <- _. sm.
    destruct (release_same _ _ E) as (-> & -> & ->). split_and!; [done| |done]. intros [H1 H2]. split; [done|]. destruct (decide (i = id)) as [->|]; [by rewrite lookup_delete|by rewrite lookup_delete_ne].
  - case_decide; [|done]. destruct (release _) as [s1|] eqn:E; [|done]. injection He as <- _. destruct (release_same _ _ E) as (-> & -> & ->). done.
  - case_decide; [done|]. destruct (alive s); [|done]. injection He as <- _. done.
  - case_decide; [done|]. destruct (match c with Some c => bool_decide (c ∉ uctx s) | None => false end); [done|]. destruct (alive s); [|done].
    assert (G : forall h l r, lift (set_loop c l (s_heap h (s_uctx r (s_ctx c s)))) = Ok s' o -> start s' = false /\
      (id ∈ used s /\ (forall l, lsns s !! id = Some l -> l_ph l <> PLive) -> id ∈ used s' /\ (forall l, lsns s' !! id = Some l -> l_ph l <> PLive))).
    { intros h l r. destruct (set_loop _ _ _) as [s1|] eqn:E; [|done]. intros [= -> _]. destruct (set_loop_same _ _ _ _ E) as (A & B & C). rewrite A, B. split; [done|]. intros [H1 H2]. split; [done|].
      intros k' Hk'. destruct (C _ _ Hk') as (k & K1 & K2). rewrite <- K2. by apply H2. }
    assert (G' : start s' = false /\ (id ∈ used s /\ (forall l, lsns s !! id = Some l -> l_ph l <> PLive) -> id ∈ used s' /\ (forall l, lsns s' !! id = Some l -> l_ph l <> PLive))).
    { destruct (ctx s); [destruct c; [|injection He as <- _; done]|]; (destruct (unref _ _); [|done]); by apply G in He. }
    destruct G'. split_and!; done.
  - destruct (posted s !! i) as [[y c]|]; [|done]. destruct (upd_ctx _ _ _) as [s1|] eqn:E; [|done]. injection He as <- _. destruct (upd_same _ _ _ _ E) as (A & B & C). rewrite A, B. split_and!; [done| |done].
    intros [H1 H2]. split; [done|]. intros k' Hk'. destruct (C _ _ Hk') as (k & K1 & K2). rewrite <- K2. by apply H2.
Qed.
(** a normal run *)
Fixpoint nrun (s : st) (es : list ev) : option st := match es with [] => Some s | e :: es => match step s e with Ok s' _ => nrun s' es | _ => None end end.
Fixpoint nnormal (s : st) (es : list ev) : Prop := match es with [] => True | e :: es => normal s e /\ match step s e with Ok s' _ => nnormal s' es | _ => True end end.
Lemma gone_noacc es : forall s s' id, start s = false -> Forall noopen es -> nrun s es = Some s' -> gone s id -> length (List.filter (isacc id) es) = 0%nat.
Proof.
  induction es as [|e es IH]; intros s s' id Hs Hno He Hg; [done|]. apply Forall_cons in Hno as [N1 N2]. cbn [nrun] in He. destruct (step s e) as [| |s1 o] eqn:Es; try done.
  destruct (closed_step s e s1 o id Hs N1 Es) as (A & B & C). cbn [List.filter]. destruct (isacc id e) eqn:Ei; [|apply (IH s1 s' id); [done|done|done|by apply B]].
  exfalso. destruct e as [| |c|i| |i c ok rearm|i|i|i|c| |c|i]; try done. cbn [isacc] in Ei. destruct ok; [|done]. apply bool_decide_eq_true in Ei as ->. cbn [step] in Es.
  destruct (lsns s !! id) as [[[] x]|] eqn:Hi; try done. destruct Hg as [_ Hg]. by apply (Hg _ Hi).
Qed.
Theorem C48_close_partial : forall s es s' id, reach s -> start s = false -> Forall noopen es -> nnormal s es -> nrun s es = Some s' -> (length (List.filter (isacc id) es) <= 1)%nat.
Proof.
  intros s es. revert s. induction es as [|e es IH]; intros s s' id Hr Hs Hno Hnn He; [cbn; lia|]. apply Forall_cons in Hno as [N1 N2]. cbn [nrun nnormal] in *. destruct Hnn as [Hn Hnn].
  destruct (step s e) as [| |s1 o] eqn:Es; try done. destruct (closed_step s e s1 o id Hs N1 Es) as (A & B & C). cbn [List.filter]. destruct (isacc id e) eqn:Ei.
  - assert (Hl : exists l, lsns s !! id = Some l).
    { destruct e as [| |c|i| |i c ok rearm|i|i|i|c| |c|i]; try done. cbn [isacc] in Ei. destruct ok; [|done]. apply bool_decide_eq_true in Ei as ->. cbn [step] in Es. destruct (lsns s !! id); [eauto|done]. }
    destruct (C eq_refl Hl (v_used _ (reach_i s Hr))) as [_ Hg]. cbn [length]. rewrite (gone_noacc es s1 s' id A N2 He Hg). lia.
  - apply (IH s1 s' id); try done. by eapply reach_S.
Qed.
(** the server can always be got rid of: when accepts fail or stop, connections are closed and the program lets go, it is freed *)
Definition windown (e : ev) : Prop := match e with Accept _ _ false _ | Destroy1 _ | Destroy2 _ | Destroy3 _ | ConnClose _ | OwnRelease => True | _ => False end.
Definition lw (l : lsn) : Z := match l_ph l with PLive => 4 | PDying => 3 | PClosed => 2 | PUnlinked => 1 end.
Definition mu (s : st) : Z := Z.of_nat (own s) + Z.of_nat (length (conns s)) + summ lw (lsns s).
Lemma lw_pos l : 0 < lw l. Proof. unfold lw. destruct (l_ph l); lia. Qed.
Lemma mu_nonneg s : 0 <= mu s.
Proof. unfold mu. assert (0 <= summ lw (lsns s)); [|lia]. apply summ_nonneg. intros l. pose proof (lw_pos l). lia. Qed.
Theorem C48_windown_partial : forall s, reach s -> exists es s', Forall windown es /\ nrun s es = Some s' /\ alive s' = false /\ frees s' = 1%nat.
Proof.
  intros s Hr. pose proof (reach_i s Hr) as I. clear Hr. remember (Z.to_nat (mu s)) as m eqn:Em. revert s Em I. induction m as [m IHm] using lt_wf_ind. intros s -> I.
  assert (Hgo : forall e s1, windown e -> normal s e -> step s e = Ok s1 () -> mu s1 < mu s -> exists es s', Forall windown es /\ nrun s es = Some s' /\ alive s' = false /\ frees s' = 1%nat).
  { intros e s1 He Hn Es Hm. pose proof (step_inv s e I Hn) as P. rewrite Es in P. destruct (IHm (Z.to_nat (mu s1))) with (s := s1) as (es & s' & D1 & D2 & D3); [|done|done|].
    { pose proof (mu_nonneg s1). lia. } exists (e :: es), s'. split_and!; [by constructor|cbn; by rewrite Es|apply D3|apply D3]. }
  destruct (conns s) as [|c cs] eqn:Ec.
  2:{ assert (Hc : c ∈ conns s) by (rewrite Ec; by left). destruct (inv_close_conn s c I Hc) as (s1 & E1 & _ & E3 & E4 & E5 & _). apply (Hgo (ConnClose c) s1); [done|done| |].
      - cbn [step]. rewrite decide_True by done. by rewrite E1.
      - unfold mu. rewrite E3, E4, E5. rewrite (remove1_length c (conns s) Hc). lia. }
  destruct (decide (own s = 0%nat)) as [Ho|Ho].
  2:{ destruct (inv_own_release s I Ho) as (s1 & E1 & _ & E3 & E4 & E5 & _). apply (Hgo OwnRelease s1); [done|done| |].
      - cbn [step]. rewrite decide_False by done. by rewrite E1.
      - unfold mu. rewrite E3, E4, E5. lia. }
  destruct (decide (lsns s = ∅)) as [Hl|Hl].
  { assert (Ha : alive s = false). { destruct (alive s) eqn:Ha; [|done]. destruct (v_alive _ I Ha) as [E1 E2]. rewrite Ho, Hl, Ec, map_size_empty in E1. cbn in E1. lia. }
    exists [], s. split_and!; [by apply Forall_nil|done|done|]. by rewrite (v_frees _ I), Ha. }
  apply map_choose in Hl as (id & [ph x] & Hid). pose proof (inv_alive _ _ _ I Hid) as Ha.
  assert (Hup : forall p, lw (Lsn p x) < lw (Lsn ph x) -> mu (s_lsns (<[id := Lsn p x]> (lsns s)) s) < mu s).
  { intros p Hp. unfold mu; sm. rewrite (summ_upd _ _ _ _ _ Hid). lia. }
  destruct ph.
  - apply (Hgo (Accept id 0 false true) (s_lsns (<[id := Lsn PDying x]> (lsns s)) s)); [done|done| |by apply Hup]. cbn [step]. rewrite Hid. rewrite decide_False by (rewrite Ec; apply not_elem_of_nil). by rewrite Ha.
  - apply (Hgo (Destroy1 id) (s_lsns (<[id := Lsn PClosed x]> (lsns s)) s)); [done|done| |by apply Hup]. cbn [step]. by rewrite Hid.
  - assert (Hin : id ∈ ss s) by (apply (v_ss _ I); by eexists). apply (Hgo (Destroy2 id) (s_ss (remove1 id (ss s)) (s_lsns (<[id := Lsn PUnlinked x]> (lsns s)) s))); [done|done| |].
    + cbn [step]. rewrite Hid, Ha. destruct (ss s); [by apply elem_of_nil in Hin|done].
    + unfold mu; sm. rewrite (summ_upd _ _ _ _ _ Hid). cbn. lia.
  - destruct (inv_destroy3 s id x I Hid) as (s1 & h & E1 & E2 & _ & E3 & E4 & E5 & _). apply (Hgo (Destroy3 id) (s_heap h (s_lsns (delete id (lsns s1)) s1))); [done|done| |].
    + cbn [step]. by rewrite Hid, E1, E2.
    + unfold mu; sm. rewrite E3, E4, E5, (summ_del _ _ _ _ Hid). cbn. lia.
Qed.
(** ** refuted *)
(** kserver_set_ssl_ctx posts an update for a listener that is destroyed before the update runs *)
Theorem C48_ssl_update_refuted : match run step init [Listen 0; Open; NewCtx 9; SetSsl (Some 9%nat); Accept 0 0 false true; Destroy1 0; Destroy2 0; Destroy3 0] with Ok s _ => step s (SslUpdate 0) = Crash | _ => False end.
Proof. vm_compute. reflexivity. Qed.
(** kserver_close shuts down the descriptor of a listener that another thread has already closed (and the system may have reused) *)
Theorem C48_stale_close_refuted : match run step init [Listen 0; Open; Accept 0 0 false true; Destroy1 0; Close] with Ok s _ => stale s = 1%nat | _ => False end.
Proof. vm_compute. reflexivity. Qed.
(** ** non-trivial executions *)
Definition demo : list ev := [NewCtx 9; SetSsl (Some 9%nat); Listen 0; Listen 1; Open; Accept 0 100 true true; Accept 1 101 true true; NewCtx 8; SetSsl (Some 8%nat); SslUpdate 0; SslUpdate 0; Close; Accept 0 102 true true; Destroy1 0; Destroy2 0; Destroy3 0;
  Accept 1 103 false true; Destroy1 1; OwnRelease; ConnClose 100; ConnClose 102; Destroy2 1; Destroy3 1].
Example demo_ok : match run step init demo with Ok s _ => (alive s, refs s, conns s, map_to_list (heap s)) = (true, 1, [101]%nat, [(8%nat, 1)]) | _ => False end.
Proof. vm_compute. reflexivity. Qed.
Example demo_end : match run step init (demo ++ [ConnClose 101]) with Ok s _ => (alive s, frees s, map_to_list (heap s)) = (false, 1%nat, []) | _ => False end.
Proof. vm_compute. reflexivity. Qed.
