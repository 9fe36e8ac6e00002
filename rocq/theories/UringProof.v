(** C57: invariant and preservation lemmas. *)
From Verif Require Export UringSpec.
Local Open Scope Z_scope.

(** ** invariant *)
Definition L (s : st) : list sqe := sq s ++ infl s ++ (cq s).*1.
Definition entof (x : nat * dir) (e : sqe) : option nat :=
  match e with SOp o d k => if decide ((o, d) = x) then Some k else None | _ => None end.
Definition ents (s : st) (x : nat * dir) : list nat := omap (entof x) (L s).
Definition rwbuf (p b : bool) : bufk := if b then BUser else if p then BNone else BNull.

(** the states of one side of an object *)
Inductive okslot (h : list obs) (s : st) (x : nat * dir) : slot -> Prop :=
| ok_idle r c b : ents s x = [] -> okslot h s x (Slot false r false c b)
| ok_fly_rw k b : ents s x = [k] -> Made k (CRw x.1 x.2 b) ∈ h -> k ∉ rets h ->
    okslot h s x (Slot true false false (User k) (rwbuf (bool_decide (x.1 ∈ poll s)) b))
| ok_fly_pl k : ents s x = [k] -> Made k (CPlain x.1 x.2) ∈ h -> k ∉ rets h -> x.1 ∉ poll s ->
    okslot h s x (Slot true false false (User k) BNone)
| ok_rdy k b : ents s x = [] -> Made k (CRw x.1 x.2 b) ∈ h -> k ∉ rets h ->
    okslot h s x (Slot true true false (User k) (rwbuf true b))
| ok_next k r : ents s x = [] -> Made k (CNext x.1 x.2) ∈ h -> k ∉ rets h ->
    okslot h s x (Slot true r true (User k) BNone)
| ok_sock i xf b : ents s x = [f_call xf] -> sfs s !! i = Some xf -> x = (f_st xf, W) -> f_p0 xf = true -> b <> BNull ->
    okslot h s x (Slot true false false (SfSock i) b)
| ok_file i xf b : ents s x = [f_call xf] -> sfs s !! i = Some xf -> x = (f_file xf, R) -> f_p1 xf = true ->
    okslot h s x (Slot true false false (SfFile i) b).
Definition PK (h : list obs) (s : st) (x : nat * dir) : Prop :=
  match slots s !! x with
  | None => ents s x = []
  | Some sl => okslot h s x sl /\ (rdy sl = true -> x.1 ∈ poll s) /\ (buf sl = BNull -> exists k, Made k (CRw x.1 x.2 false) ∈ h)
  end.
Definition busy_with (s : st) (x : nat * dir) (c : cb) : Prop := exists sl, slots s !! x = Some sl /\ busy sl = true /\ cbk sl = c.
Definition okfile (h : list obs) (s : st) (i : nat) (xf : sfile) : Prop :=
  Made (f_call xf) (CSf (f_st xf) (f_file xf)) ∈ h /\ f_call xf ∉ rets h /\ f_skip xf = false
  /\ f_refs xf = ((if f_p0 xf then 1 else 0) + (if f_p1 xf then 1 else 0))%nat /\ (1 <= f_refs xf)%nat
  /\ f_st xf <> f_file xf /\ f_st xf ∉ poll s /\ f_file xf ∉ poll s
  /\ (exists sl, slots s !! (f_file xf, W) = Some sl /\ busy sl = false /\ cbk sl = User (f_call xf))
  /\ (if f_p0 xf then busy_with s (f_st xf, W) (SfSock i)
      else (exists sl, slots s !! (f_st xf, W) = Some sl /\ busy sl = false) /\ KRes (f_call xf) (f_st xf) W (f_got xf) ∈ h)
  /\ (if f_p1 xf then busy_with s (f_file xf, R) (SfFile i)
      else (exists sl, slots s !! (f_file xf, R) = Some sl /\ busy sl = false) /\ exists v, KRes (f_call xf) (f_file xf) R v ∈ h)
  /\ (i < nsf s)%nat.
Definition PS (h : list obs) (s : st) (i : nat) : Prop := forall xf, sfs s !! i = Some xf -> okfile h s i xf.
(** a call that has not returned *)
Definition PC (h : list obs) (s : st) (k : nat) (c : call) : Prop :=
  match c with
  | CSf o f => exists i xf, sfs s !! i = Some xf /\ f_call xf = k /\ f_st xf = o /\ f_file xf = f
  | CRw o d _ | CPlain o d | CNext o d => busy_with s (o, d) (User k)
  end.
Record G (h : list obs) (s : st) : Prop := mkG {
  v_live : forall o d, is_Some (slots s !! (o, d)) <-> live h o;
  v_poll : forall o, o ∈ poll s <-> Polled o ∈ h;
  v_born : forall o, o ∈ born s <-> Born o ∈ h;
  v_null : SNull ∉ L s;
  v_made : forall k c, Made k c ∈ h -> (k < next s)%nat;
  v_uniq : forall k c c', Made k c ∈ h -> Made k c' ∈ h -> c = c';
  v_ret : forall k, k ∈ rets h -> (k < next s)%nat;
  v_nd : NoDup (rets h);
  v_cq : forall o d k v, (SOp o d k, v) ∈ cq s -> KRes k o d v ∈ h;
  v_dead : forall o, Dead o ∈ h -> Born o ∈ h;
  v_pb : forall o, Polled o ∈ h -> Born o ∈ h
}.
Record Inv (h : list obs) (s : st) : Prop := mkInv {
  v_key : forall x, PK h s x;
  v_sf : forall i, PS h s i;
  v_call : forall k c, Made k c ∈ h -> k ∉ rets h -> PC h s k c;
  v_g : G h s
}.
(** the READY list holds exactly the objects with a request that can be served at once *)
Definition Rdy (s : st) : Prop := forall o, o ∈ ready s <-> fires s o R = true \/ fires s o W = true.

Lemma rets_app h o : rets (h ++ o) = rets h ++ rets o.
Proof. apply omap_app. Qed.
Lemma ents_app s e x : omap (entof x) (L (put s e)) ≡ₚ ents s x ++ option_list (entof x e).
Proof.
  unfold ents, L, put. cbn. rewrite !omap_app. cbn. destruct (entof x e) as [k|]; cbn; [|by rewrite !app_nil_r].
  rewrite <- !app_assoc. apply Permutation_app_head. rewrite app_assoc. rewrite (app_assoc _ _ [k]). rewrite <- app_assoc. apply Permutation_app_comm.
Qed.
Lemma ents_put s e x : ents s x = [] -> ents (put s e) x = option_list (entof x e).
Proof.
  intros H. pose proof (ents_app s e x) as Hp. rewrite H in Hp. cbn in Hp. unfold ents.
  destruct (entof x e); cbn in *; [by apply Permutation_singleton_r in Hp|by apply Permutation_nil_r in Hp].
Qed.
Lemma ents_put_ne s e x : entof x e = None -> ents (put s e) x = ents s x.
Proof.
  intros H. unfold ents, L, put. cbn. rewrite !omap_app. cbn. rewrite H. cbn. by rewrite app_nil_r.
Qed.
Lemma perm_eq (l l' : list nat) : l ≡ₚ l' -> (length l <= 1)%nat -> l' = l.
Proof.
  intros H Hl. destruct l as [|a [|b l]]; cbn in Hl; [by apply Permutation_nil_l in H|by apply Permutation_singleton_l in H|lia].
Qed.
Lemma ents_le h s x : PK h s x -> (length (ents s x) <= 1)%nat.
Proof.
  unfold PK. destruct (slots s !! x) as [sl|]; [|intros ->; cbn; lia].
  intros (H & _). destruct H; match goal with E : ents s x = _ |- _ => rewrite E end; cbn; lia.
Qed.

(** frames *)
Lemma PK_frame h s h' s' x : PK h s x ->
  slots s' !! x = slots s !! x -> ents s' x = ents s x -> (x.1 ∈ poll s' <-> x.1 ∈ poll s) ->
  (forall a, a ∈ h -> a ∈ h') ->
  (forall k c, Made k c ∈ h -> x ∈ uses c -> k ∉ rets h -> k ∉ rets h') ->
  (forall i xf, sfs s !! i = Some xf -> (busy_with s x (SfSock i) /\ x = (f_st xf, W) \/ busy_with s x (SfFile i) /\ x = (f_file xf, R)) ->
     exists xf', sfs s' !! i = Some xf' /\ f_call xf' = f_call xf /\ f_st xf' = f_st xf /\ f_file xf' = f_file xf
       /\ (x.2 = W -> f_p0 xf' = f_p0 xf) /\ (x.2 = R -> f_p1 xf' = f_p1 xf)) ->
  PK h' s' x.
Proof.
  intros HP Hs He Hpo Hh Hr Hsf. unfold PK in *. rewrite Hs. destruct (slots s !! x) as [sl|] eqn:Hx; [|congruence].
  destruct HP as (Hok & Hp & Hb). split_and!.
  2:{ intros H. apply Hpo. auto. }
  2:{ intros H. destruct (Hb H) as [k Hk]. eauto. }
  assert (forall o d, x = (o, d) -> x ∈ [(x.1, x.2)]) as Hself by (intros o d ->; by apply elem_of_list_singleton).
  assert (x ∈ [(x.1, x.2)]) as Hx1 by (destruct x; by eapply Hself).
  destruct Hok as [r c b H1|k b H1 H2 H3|k H1 H2 H3 H4|k b H1 H2 H3|k r H1 H2 H3|i xf b H1 H2 H3 H4 H5|i xf b H1 H2 H3 H4].
  - constructor. congruence.
  - rewrite <- (bool_decide_ext _ _ Hpo). econstructor; [congruence|eauto|eauto].
  - econstructor; [congruence|eauto|eauto|]. by rewrite Hpo.
  - econstructor; [congruence|eauto|eauto].
  - econstructor; [congruence|eauto|eauto].
  - destruct (Hsf i xf H2) as (xf' & Hx' & Hc & Hst & Hf & Hp0 & _).
    { left. split; [|done]. by eexists. }
    eapply (ok_sock _ _ _ _ xf'); [congruence|done|congruence| |done]. rewrite Hp0; [done|by subst x].
  - destruct (Hsf i xf H2) as (xf' & Hx' & Hc & Hst & Hf & _ & Hp1).
    { right. split; [|done]. by eexists. }
    eapply (ok_file _ _ _ _ xf'); [congruence|done|congruence|]. rewrite Hp1; [done|by subst x].
Qed.
Lemma PS_frame h s h' s' i : PS h s i -> sfs s' !! i = sfs s !! i -> (nsf s <= nsf s')%nat ->
  (forall a, a ∈ h -> a ∈ h') ->
  (forall xf, sfs s !! i = Some xf ->
     f_call xf ∉ rets h' /\ (f_st xf ∈ poll s' -> f_st xf ∈ poll s) /\ (f_file xf ∈ poll s' -> f_file xf ∈ poll s)
     /\ forall x, x ∈ uses (CSf (f_st xf) (f_file xf)) -> slots s' !! x = slots s !! x) ->
  PS h' s' i.
Proof.
  intros HP Hs Hn Hh Hx xf Hxf. rewrite Hs in Hxf. destruct (Hx xf Hxf) as (H0 & Ha & Hb & Hu).
  destruct (HP xf Hxf) as (H1 & H2 & H3 & H4 & H5 & H6 & H7 & H8 & H9 & H10 & H11 & H12).
  assert (slots s' !! (f_st xf, W) = slots s !! (f_st xf, W)) as E1 by (apply Hu; cbn; left).
  assert (slots s' !! (f_file xf, R) = slots s !! (f_file xf, R)) as E2 by (apply Hu; cbn; right; left).
  assert (slots s' !! (f_file xf, W) = slots s !! (f_file xf, W)) as E3 by (apply Hu; cbn; right; right; left).
  unfold okfile, busy_with. rewrite E1, E2, E3. split_and!; try done; try lia; auto.
  - destruct (f_p0 xf); [done|]. destruct H10; auto.
  - destruct (f_p1 xf); [done|]. destruct H11 as [? [v ?]]; eauto.
Qed.

(** the global part under a step that creates, destroys and converts nothing *)
Definition quiet (a : obs) : Prop := match a with Born _ | Dead _ | Polled _ => False | _ => True end.
Lemma quiet_app h o a : Forall quiet o -> ~ quiet a -> a ∈ h ++ o <-> a ∈ h.
Proof.
  intros Hq Ha. rewrite elem_of_app. split; [|by left]. intros [H|H]; [done|]. rewrite Forall_forall in Hq. by destruct Ha; apply Hq.
Qed.
Lemma G_step h s o s' c0 : G h s -> Forall quiet o ->
  (forall k c, Made k c ∈ o -> k = next s /\ c = c0 /\ next s' = S (next s)) -> (next s <= next s')%nat ->
  (rets o = [] \/ exists k, rets o = [k] /\ k ∉ rets h /\ (k < next s')%nat) ->
  (forall x, is_Some (slots s' !! x) <-> is_Some (slots s !! x)) -> poll s' = poll s -> born s' = born s -> SNull ∉ L s' ->
  (forall a b, (a, b) ∈ cq s' -> (a, b) ∈ cq s \/ match a with SOp o1 d k => KRes k o1 d b ∈ o | _ => True end) ->
  G (h ++ o) s'.
Proof.
  intros [H1 H2 H3 H4 H5 H6 H7 H8 H9 H10 H11] Hq Hm Hn Hr Hs Hp Hb HL Hc. split.
  - intros a d. rewrite Hs, H1. unfold live. rewrite !quiet_app by (done || (by intros [])). done.
  - intros a. rewrite Hp, H2. rewrite quiet_app by (done || (by intros [])). done.
  - intros a. rewrite Hb, H3. rewrite quiet_app by (done || (by intros [])). done.
  - done.
  - intros k c [H|H]%elem_of_app; [apply H5 in H; lia|]. apply Hm in H as (-> & _ & ->). lia.
  - intros k c c' [H|H]%elem_of_app [H'|H']%elem_of_app; [by eapply H6| | |].
    + apply Hm in H' as (-> & _). apply H5 in H. lia.
    + apply Hm in H as (-> & _). apply H5 in H'. lia.
    + apply Hm in H as (_ & -> & _). apply Hm in H' as (_ & -> & _). done.
  - intros k. rewrite rets_app. intros [H|H]%elem_of_app; [apply H7 in H; lia|].
    destruct Hr as [Hr|(k' & Hr & _ & Hk)]; rewrite Hr in H; [by apply elem_of_nil in H|].
    by apply elem_of_list_singleton in H as ->.
  - rewrite rets_app. destruct Hr as [Hr|(k' & Hr & Hk' & Hk)]; rewrite Hr; [by rewrite app_nil_r|].
    apply NoDup_app. split_and!; [done| |apply NoDup_singleton]. intros k Hk1 Hk2. by apply elem_of_list_singleton in Hk2 as ->.
  - intros a d k v Hin. apply elem_of_app. destruct (Hc _ _ Hin) as [H|H]; [left; by apply H9|by right].
  - intros a. rewrite !quiet_app by (done || (by intros [])). apply H10.
  - intros a. rewrite !quiet_app by (done || (by intros [])). apply H11.
Qed.

Lemma okslot_out h s x sl : okslot h s x sl -> busy sl = true ->
  (forall i xf, sfs s !! i = Some xf -> okfile h s i xf) -> out h x.
Proof.
  intros H Hb Hsf. assert (x ∈ [(x.1, x.2)]) as Hx1 by (destruct x; by apply elem_of_list_singleton).
  destruct H as [r c b H1|k b H1 H2 H3|k H1 H2 H3 H4|k b H1 H2 H3|k r H1 H2 H3|i xf b H1 H2 H3 H4 H5|i xf b H1 H2 H3 H4].
  - done.
  - by exists k, (CRw x.1 x.2 b).
  - by exists k, (CPlain x.1 x.2).
  - by exists k, (CRw x.1 x.2 b).
  - by exists k, (CNext x.1 x.2).
  - destruct (Hsf i xf H2) as (Ha & Hb' & _). exists (f_call xf), (CSf (f_st xf) (f_file xf)). split_and!; [done| |done]. subst x. cbn. left.
  - destruct (Hsf i xf H2) as (Ha & Hb' & _). exists (f_call xf), (CSf (f_st xf) (f_file xf)). split_and!; [done| |done]. subst x. cbn. right. left.
Qed.

(** a side that no unreturned call uses is idle *)
Lemma idle h s x : Inv h s -> ~ out h x ->
  ents s x = [] /\ (forall sl, slots s !! x = Some sl -> busy sl = false /\ rdy2 sl = false)
  /\ (forall i xf, sfs s !! i = Some xf -> x ∉ uses (CSf (f_st xf) (f_file xf))).
Proof.
  intros [Hk Hs Hc Hg] Ho.
  assert (forall sl, slots s !! x = Some sl -> busy sl = false) as Hb.
  { intros sl Hsl. specialize (Hk x). unfold PK in Hk. rewrite Hsl in Hk. destruct Hk as (Hk & _).
    destruct (busy sl) eqn:Hb; [|done]. destruct Ho. eapply okslot_out; [done|done|]. intros i xf Hi. by apply Hs. }
  split_and!.
  - specialize (Hk x). unfold PK in Hk. destruct (slots s !! x) as [sl|] eqn:Hsl; [|done]. destruct Hk as (Hk & _).
    specialize (Hb sl eq_refl). by destruct Hk.
  - intros sl Hsl. specialize (Hb sl Hsl). split; [done|]. specialize (Hk x). unfold PK in Hk. rewrite Hsl in Hk.
    destruct Hk as (Hk & _). by destruct Hk.
  - intros i xf Hi Hx. apply Ho. destruct (Hs i xf Hi) as (Ha & Hb' & _). by eexists _, _.
Qed.

Lemma rets_mono h o k : k ∉ rets h -> (rets o = [] \/ exists k', rets o = [k'] /\ k' <> k) -> k ∉ rets (h ++ o).
Proof.
  intros Hk Ho. rewrite rets_app, elem_of_app. intros [H|H]; [done|]. destruct Ho as [Ho|(k' & Ho & Hne)]; rewrite Ho in H.
  - by apply elem_of_nil in H.
  - by apply elem_of_list_singleton in H.
Qed.

(** [s'] differs from [s] at side [x] only *)
Record only (s s' : st) (x : nat * dir) : Prop := mkOnly {
  on_slots : forall y, y <> x -> slots s' !! y = slots s !! y;
  on_some : is_Some (slots s' !! x) <-> is_Some (slots s !! x);
  on_ents : forall y, y <> x -> ents s' y = ents s y;
  on_poll : poll s' = poll s;
  on_born : born s' = born s;
  on_sfs : sfs s' = sfs s;
  on_nsf : nsf s' = nsf s;
  on_null : SNull ∉ L s -> SNull ∉ L s'
}.
Lemma only_some s s' x : only s s' x -> forall y, is_Some (slots s' !! y) <-> is_Some (slots s !! y).
Proof. intros H y. destruct (decide (y = x)) as [->|Hne]; [apply H|]. by rewrite (on_slots _ _ _ H y Hne). Qed.

(** a new call on side [x]; it may return at once *)
Lemma Inv_new h s s' x c o : Inv h s -> ~ out h x -> only s s' x -> uses c = [x] -> next s' = S (next s) -> cq s' = cq s ->
  Made (next s) c ∈ o -> Forall quiet o -> (forall k' c', Made k' c' ∈ o -> k' = next s /\ c' = c) ->
  (rets o = [] /\ busy_with s' x (User (next s)) \/ rets o = [next s]) ->
  PK (h ++ o) s' x -> Inv (h ++ o) s'.
Proof.
  intros HI Ho Hon Hu Hn Hcq Hm Hq Hmo Hr Hx. destruct (idle h s x HI Ho) as (_ & _ & Hisf). destruct HI as [Hk Hs Hc Hg].
  assert (next s ∉ rets h) as Hnr by (intros H; apply (v_ret _ _ Hg) in H; lia).
  assert (forall k, k ∉ rets h -> (k < next s)%nat -> k ∉ rets (h ++ o)) as Hmono.
  { intros k Hk1 Hk2. apply rets_mono; [done|]. destruct Hr as [[Hr _]|Hr]; [by left|]. right. exists (next s). split; [done|lia]. }
  split.
  - intros y. destruct (decide (y = x)) as [->|Hne]; [done|].
    eapply (PK_frame h s); [apply Hk|by apply (on_slots _ _ _ Hon)|by apply (on_ents _ _ _ Hon)|by rewrite (on_poll _ _ _ Hon)| | |].
    + intros a Ha. apply elem_of_app. by left.
    + intros k c1 Hk1 _ Hk2. apply Hmono; [done|]. by eapply (v_made _ _ Hg).
    + intros i xf Hi _. exists xf. rewrite (on_sfs _ _ _ Hon). done.
  - intros i. eapply (PS_frame h s); [apply Hs|by rewrite (on_sfs _ _ _ Hon)|rewrite (on_nsf _ _ _ Hon); lia| |].
    + intros a Ha. apply elem_of_app. by left.
    + intros xf Hi. destruct (Hs i xf Hi) as (Ha & Hb & _). rewrite (on_poll _ _ _ Hon). split_and!; try done.
      * apply Hmono; [done|]. by eapply (v_made _ _ Hg).
      * intros y Hy. apply (on_slots _ _ _ Hon). intros ->. by destruct (Hisf i xf Hi).
  - intros k c1 [Hk1|Hk1]%elem_of_app Hk2.
    + assert (k ∉ rets h) as Hk3 by (intros H; apply Hk2; rewrite rets_app; apply elem_of_app; by left).
      specialize (Hc k c1 Hk1 Hk3).
      assert (forall y, uses c1 = [y] -> busy_with s y (User k) -> busy_with s' y (User k)) as Hbw.
      { intros y Hy (sl & Hsl & Hbs). exists sl. split; [|done]. rewrite (on_slots _ _ _ Hon); [done|]. intros ->.
        apply Ho. exists k, c1. rewrite Hy. split_and!; try done. by apply elem_of_list_singleton. }
      destruct c1; cbn in *; [by apply Hbw..|]. by rewrite (on_sfs _ _ _ Hon).
    + destruct (Hmo _ _ Hk1) as [-> ->]. destruct Hr as [[_ Hr]|Hr].
      2:{ destruct Hk2. rewrite rets_app, Hr. apply elem_of_app. right. by apply elem_of_list_singleton. }
      destruct c; cbn in Hu; try done; injection Hu as <-; done.
  - eapply (G_step h s o s' c); [done|done| |lia| |by apply (only_some _ _ x)|apply Hon|apply Hon|apply Hon, Hg|].
    + intros k c' H. apply Hmo in H as [-> ->]. done.
    + destruct Hr as [[Hr _]|Hr]; [by left|]. right. exists (next s). split_and!; [done|done|lia].
    + intros a b H. rewrite Hcq in H. by left.
Qed.

(** side [x] changes while its call [k] goes on or returns *)
Lemma Inv_same h s s' x c k o : Inv h s -> only s s' x -> next s' = next s -> (forall a, a ∈ cq s' -> a ∈ cq s) ->
  busy_with s x (User k) -> Made k c ∈ h -> uses c = [x] -> k ∉ rets h -> Forall quiet o -> (forall k' c', Made k' c' ∉ o) ->
  (rets o = [] /\ busy_with s' x (User k) \/ rets o = [k]) ->
  PK (h ++ o) s' x -> Inv (h ++ o) s'.
Proof.
  intros HI Hon Hn Hcq Hbx Hm Hu Hkr Hq Hmo Hr Hx. destruct HI as [Hk Hs Hc Hg].
  (* another unreturned call does not use x *)
  assert (forall k1 c1, Made k1 c1 ∈ h -> k1 ∉ rets h -> x ∈ uses c1 -> k1 = k) as Hown.
  { intros k1 c1 H1 H2 H3. specialize (Hc k1 c1 H1 H2).
    destruct Hbx as (sl & Hsl & Hb & Hcb).
    destruct c1; cbn in *.
    1,2,3: apply elem_of_list_singleton in H3 as ->; destruct Hc as (sl' & Hsl' & _ & Hcb'); congruence.
    destruct Hc as (i & xf & Hi & Hcf & Hst & Hf). destruct (Hs i xf Hi) as (Q1 & Q2 & Q3 & Q4 & Q5 & Q6 & Q7 & Q8 & Q9 & Q10 & Q11 & Q12).
    subst. assert (forall i', cbk sl <> SfSock i') as Hnk by congruence. assert (forall i', cbk sl <> SfFile i') as Hnf by congruence.
    pose proof (Hk x) as Hkx. unfold PK in Hkx. rewrite Hsl in Hkx. destruct Hkx as (Hok & _).
    apply elem_of_cons in H3 as [->|H3]; [|apply elem_of_cons in H3 as [->|H3]].
    - destruct (f_p0 xf); [destruct Q10 as (sl' & Hsl' & _ & Hcb'); congruence|].
      destruct Q10 as [(sl' & Hsl' & Hb') _]. congruence.
    - destruct (f_p1 xf); [destruct Q11 as (sl' & Hsl' & _ & Hcb'); congruence|].
      destruct Q11 as [(sl' & Hsl' & Hb') _]. congruence.
    - apply elem_of_list_singleton in H3 as ->. destruct Q9 as (sl' & Hsl' & Hb' & _). congruence. }
  assert (forall k1, k1 ∉ rets h -> k1 <> k -> k1 ∉ rets (h ++ o)) as Hmono.
  { intros k1 Hk1 Hk2. apply rets_mono; [done|]. destruct Hr as [[Hr _]|Hr]; [by left|]. right. by exists k. }
  assert (x ∈ uses c) as Hxu by (rewrite Hu; by apply elem_of_list_singleton).
  split.
  - intros y. destruct (decide (y = x)) as [->|Hne]; [done|].
    eapply (PK_frame h s); [apply Hk|by apply (on_slots _ _ _ Hon)|by apply (on_ents _ _ _ Hon)|by rewrite (on_poll _ _ _ Hon)| | |].
    + intros a Ha. apply elem_of_app. by left.
    + intros k1 c1 Hk1 Hy Hk2. apply Hmono; [done|]. intros ->. assert (c1 = c) as -> by by eapply (v_uniq _ _ Hg).
      rewrite Hu in Hy. by apply elem_of_list_singleton in Hy.
    + intros i xf Hi _. exists xf. rewrite (on_sfs _ _ _ Hon). done.
  - intros i. eapply (PS_frame h s); [apply Hs|by rewrite (on_sfs _ _ _ Hon)|rewrite (on_nsf _ _ _ Hon); lia| |].
    + intros a Ha. apply elem_of_app. by left.
    + intros xf Hi. destruct (Hs i xf Hi) as (Ha & Hb & _). rewrite (on_poll _ _ _ Hon).
      assert (f_call xf <> k) as Hfk.
      { intros Heq. rewrite Heq in Ha. assert (CSf (f_st xf) (f_file xf) = c) as <- by by eapply (v_uniq _ _ Hg). done. }
      split_and!; try done.
      * by apply Hmono.
      * intros y Hy. apply (on_slots _ _ _ Hon). intros ->. apply Hfk. by eapply Hown.
  - intros k1 c1 [Hk1|Hk1]%elem_of_app Hk2; [|by destruct (Hmo k1 c1)].
    assert (k1 ∉ rets h) as Hk3 by (intros H; apply Hk2; rewrite rets_app; apply elem_of_app; by left).
    destruct (decide (k1 = k)) as [->|Hne].
    + assert (c1 = c) as -> by by eapply (v_uniq _ _ Hg). destruct Hr as [[_ Hr]|Hr].
      2:{ destruct Hk2. rewrite rets_app, Hr. apply elem_of_app. right. by apply elem_of_list_singleton. }
      destruct c; cbn in Hu; try done; injection Hu as <-; done.
    + specialize (Hc k1 c1 Hk1 Hk3).
      assert (forall y, uses c1 = [y] -> busy_with s y (User k1) -> busy_with s' y (User k1)) as Hbw.
      { intros y Hy (sl & Hsl & Hbs). exists sl. split; [|done]. rewrite (on_slots _ _ _ Hon); [done|]. intros ->.
        apply Hne. eapply Hown; [done|done|]. rewrite Hy. by apply elem_of_list_singleton. }
      destruct c1; cbn in *; [by apply Hbw..|]. by rewrite (on_sfs _ _ _ Hon).
  - eapply (G_step h s o s' c); [done|done| |lia| |by apply (only_some _ _ x)|apply Hon|apply Hon|apply Hon, Hg|].
    + intros k1 c1 H. by destruct (Hmo k1 c1).
    + destruct Hr as [[Hr _]|Hr]; [by left|]. right. exists k. split_and!; [done|done|]. rewrite Hn. by eapply (v_made _ _ Hg).
    + intros a b H. left. by apply Hcq.
Qed.

(** a step that only moves entries, adds or removes timeout entries, or changes the READY list *)
Lemma Inv_move h s s' o : Inv h s -> slots s' = slots s -> poll s' = poll s -> sfs s' = sfs s -> next s' = next s -> nsf s' = nsf s ->
  born s' = born s -> (forall x, ents s' x ≡ₚ ents s x) -> SNull ∉ L s' ->
  Forall quiet o -> (forall k c, Made k c ∉ o) -> rets o = [] ->
  (forall a b, (a, b) ∈ cq s' -> (a, b) ∈ cq s \/ match a with SOp o1 d k => KRes k o1 d b ∈ o | _ => True end) ->
  Inv (h ++ o) s'.
Proof.
  intros HI E1 E2 E3 E4 E5 E6 He HL Hq Hm Hr Hc. pose proof HI as [Hk Hs Hcl Hg].
  assert (forall x, ents s' x = ents s x) as He'.
  { intros x. apply perm_eq; [by symmetry|]. eapply ents_le, Hk. }
  assert (rets (h ++ o) = rets h) as Hrr by (by rewrite rets_app, Hr, app_nil_r).
  assert (forall a, a ∈ h -> a ∈ h ++ o) as Hin by (intros a Ha; apply elem_of_app; by left).
  split.
  - intros x. eapply (PK_frame h s); [apply Hk|by rewrite E1|done|by rewrite E2|done| |].
    + intros. by rewrite Hrr.
    + intros i xf Hi _. exists xf. by rewrite E3.
  - intros i. eapply (PS_frame h s); [apply Hs|by rewrite E3|lia|done|].
    intros xf Hi. rewrite Hrr, E2, E1. destruct (Hs i xf Hi) as (_ & ? & _). done.
  - intros k c [Hk1|Hk1]%elem_of_app Hk2; [|by destruct (Hm k c)]. rewrite Hrr in Hk2. specialize (Hcl k c Hk1 Hk2).
    destruct c; cbn in *; unfold busy_with in *; rewrite ?E1, ?E3; done.
  - eapply (G_step h s o s' (CNext 0 R)); try done.
    + intros k c H. by destruct (Hm k c).
    + lia.
    + by left.
    + intros x. by rewrite E1.
Qed.

Definition lean (s : st) : Prop := forall x, (length (ents s x) <= 1)%nat.
Lemma Inv_lean h s : Inv h s -> lean s.
Proof. intros [Hk _ _ _] x. eapply ents_le, Hk. Qed.
Lemma L_submit s : L (submit s) ≡ₚ L s.
Proof. unfold L, submit. cbn. rewrite <- app_assoc. rewrite app_assoc, (Permutation_app_comm (infl s)). by rewrite <- app_assoc. Qed.
Lemma ents_submit s x : ents (submit s) x ≡ₚ ents s x.
Proof. unfold ents. apply omap_Permutation, L_submit. Qed.
(** getting an entry changes the queues only *)
Lemma get_seq_spec N s sub s' : lean s -> get_seq N s sub = Some s' ->
  slots s' = slots s /\ poll s' = poll s /\ ready s' = ready s /\ sfs s' = sfs s /\ cq s' = cq s /\ next s' = next s /\ nsf s' = nsf s
  /\ born s' = born s /\ hist s' = hist s /\ (forall x, ents s' x = ents s x) /\ (SNull ∉ L s -> SNull ∉ L s').
Proof.
  intros Hl. unfold get_seq. destruct (decide _); [intros [= <-]; split_and!; done|]. destruct sub; [|done].
  destruct (decide _); [|done]. intros [= <-]. split_and!; try done.
  - intros x. apply perm_eq; [by rewrite ents_submit|apply Hl].
  - by rewrite L_submit.
Qed.

Lemma SNull_put s e : SNull ∉ L s -> e <> SNull -> SNull ∉ L (put s e).
Proof.
  intros H1 H2 H. apply H1. unfold L, put in *. cbn in *. rewrite !elem_of_app in *. rewrite elem_of_list_singleton in H.
  destruct H as [[H|H]|[H|H]]; auto. by destruct H2.
Qed.
Lemma entof_ne o d k y : y <> (o, d) -> entof y (SOp o d k) = None.
Proof. intros H. cbn. rewrite decide_False; [done|]. congruence. Qed.
Lemma entof_eq o d k : entof (o, d) (SOp o d k) = Some k.
Proof. cbn. by rewrite decide_True. Qed.

(** queueing a request for side (o,d) *)
Lemma queue_spec N s sub s1 o d k sl : lean s -> get_seq N s sub = Some s1 -> ents s (o, d) = [] -> is_Some (slots s !! (o, d)) ->
  let s2 := put (set_slot s1 o d sl) (SOp o d k) in
  only s s2 (o, d) /\ next s2 = next s /\ cq s2 = cq s /\ ready s2 = ready s /\ slots s2 = <[(o, d) := sl]> (slots s)
  /\ ents s2 (o, d) = [k] /\ nsf s2 = nsf s /\ lean s2.
Proof.
  intros Hl Hg He Hso s2. destruct (get_seq_spec N s sub s1 Hl Hg) as (E1 & E2 & E3 & E4 & E5 & E6 & E7 & E8 & E9 & E10 & E11).
  assert (slots s2 = <[(o, d) := sl]> (slots s)) as Hsl by (unfold s2; cbn; by rewrite E1).
  assert (ents s2 (o, d) = [k]) as He2.
  { unfold s2. rewrite ents_put.
    - by rewrite entof_eq.
    - by rewrite <- He, <- E10. }
  assert (forall y, y <> (o, d) -> ents s2 y = ents s y) as Hey.
  { intros y Hy. unfold s2. rewrite ents_put_ne by by apply entof_ne. rewrite <- E10. done. }
  split_and!; try done.
  - split; try done.
    + intros y Hy. rewrite Hsl. by rewrite lookup_insert_ne.
    + rewrite Hsl, lookup_insert. split; [|by eauto]. intros _. done.
    + intros H. unfold s2. apply SNull_put; [|done]. by apply E11.
  - intros y. destruct (decide (y = (o, d))) as [->|Hy]; [rewrite He2; cbn; lia|]. rewrite Hey by done. apply Hl.
Qed.

Lemma arm_spec N s o d k sl b sub : lean s -> ents s (o, d) = [] -> is_Some (slots s !! (o, d)) -> rdy sl = false -> rdy2 sl = false ->
  let r := arm N s o d k sl b sub in
  only s r.1 (o, d) /\ next r.1 = next s /\ cq r.1 = cq s /\ ready r.1 = ready s /\ nsf r.1 = nsf s
  /\ (r.2 = [] /\ slots r.1 !! (o, d) = Some (Slot true false false (User k) (rwbuf (bool_decide (o ∈ poll s)) b)) /\ ents r.1 (o, d) = [k]
      \/ r.2 = [NoSqe k; Cb k (-1)] /\ ents r.1 (o, d) = [] /\ exists b', b' <> BNull /\ slots r.1 !! (o, d) = Some (Slot false false false (User k) b')).
Proof.
  intros Hl He Hso Hr1 Hr2. unfold arm. rewrite Hr1, Hr2. destruct (get_seq N s sub) as [s1|] eqn:Hg.
  - destruct (get_seq_spec N s sub s1 Hl Hg) as (E1 & E2 & _).
    assert ((if b then BUser else if decide (o ∈ poll s) then BNone else BNull) = rwbuf (bool_decide (o ∈ poll s)) b) as Hbk.
    { unfold rwbuf. destruct b; [done|]. case_decide; [by rewrite bool_decide_true|by rewrite bool_decide_false]. }
    rewrite Hbk. set (sl2 := Slot true _ _ _ _).
    destruct (queue_spec N s sub s1 o d k sl2 Hl Hg He Hso) as (Q1 & Q2 & Q3 & Q4 & Q5 & Q6 & Q7 & _). cbv zeta. cbn [fst snd].
    split_and!; try done. left. split_and!; try done. rewrite Q5. apply lookup_insert.
  - cbn. split_and!; try done.
    + split; try done; cbn.
      * intros y Hy. by rewrite lookup_insert_ne.
      * rewrite lookup_insert. split; [|by eauto]. intros _. done.
    + right. split_and!; try done. exists (if b then BUser else BNone). split; [by destruct b|]. apply lookup_insert.
Qed.
