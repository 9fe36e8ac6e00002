(** C81: from kserver_open to the accept callback.  Model: SrvModel.v *)
From Verif Require Import SrvModel.

(** * Every run *)
Record SI (s : sv) : Prop := {
  i_once : accepted s ≡ₚ (k_conn <$> calls s) ++ ((λ q, q.1.1) <$> queue s);
  i_nd : NoDup (accepted s ++ lost s);
  i_call : forall k, k ∈ calls s -> bound s !! k_conn k = Some (k_sel k) /\
     exists h, home s !! k_ss k = Some h /\ (k_alive k = false -> k_sel k ≠ h);
  i_queue : forall c id t, (c, id, t) ∈ queue s -> bound s !! c = Some t /\ exists h, home s !! id = Some h /\ t ≠ h;
  i_home : forall id l, lsns s !! id = Some l -> home s !! id = Some (l_sel l);
  i_bound : forall c t, bound s !! c = Some t -> c ∈ accepted s }.
Lemma SI_init : SI sv_init.
Proof.
  constructor; cbn; try done; [constructor|intros k Hk; by apply elem_of_nil in Hk|intros c id t Hk; by apply elem_of_nil in Hk].
Qed.
Lemma SI_lsns m s : SI s -> (forall id l, m !! id = Some l -> home s !! id = Some (l_sel l)) -> SI (set_lsns m s).
Proof. intros [I1 I2 I3 I4 I5 I6] H. constructor; cbn; done. Qed.
Lemma SI_step s e s' o : SI s -> sstep s e = Ok s' o -> SI s'.
Proof.
  intros SIs H. pose proof SIs as [I1 I2 I3 I4 I5 I6]. destruct e as [ks|id ok| |id ok|id c p ssl|id ok|id|i|]; cbn [sstep] in H.
  - destruct (opening s); [done|]. destruct (start s); [done|]. by injection H as <- _.
  - destruct (opening s) as [[[|k ks] r]|]; try done. case_decide as Hh; [|done]. destruct ok; [|by injection H as <- _]. injection H as <- _.
    constructor; cbn; try done.
    + intros x Hx. destruct (I3 x Hx) as (A & h & B & C). split; [done|]. exists h. split; [|done]. rewrite lookup_insert_ne; [done|]. by intros ->; rewrite B in Hh.
    + intros x y t Hx. destruct (I4 x y t Hx) as (A & h & B & C). split; [done|]. exists h. split; [|done]. rewrite lookup_insert_ne; [done|]. by intros ->; rewrite B in Hh.
    + intros x l Hx. destruct (decide (x = id)) as [->|Hne].
      * rewrite lookup_insert in Hx. injection Hx as <-. by rewrite lookup_insert.
      * rewrite lookup_insert_ne in Hx by done. rewrite lookup_insert_ne by done. by apply I5.
  - destruct (opening s) as [[[|k ks] r]|]; try done. by injection H as <- _.
  - destruct (lsns s !! id) as [[k []]|] eqn:El; try done. destruct ok; injection H as <- _; apply SI_lsns; try done; intros x l Hx.
    + destruct (decide (x = id)) as [->|Hne]; [rewrite lookup_insert in Hx; injection Hx as <-; by apply I5 in El|]. rewrite lookup_insert_ne in Hx by done. by apply I5.
    + apply lookup_delete_Some in Hx as [_ Hx]. by apply I5.
  - destruct (lsns s !! id) as [[k []]|] eqn:El; try done. case_decide as Hc; [done|]. pose proof (I5 _ _ El) as Hh. cbn in Hh.
    assert (Hcb : bound s !! c = None). { destruct (bound s !! c) eqn:E; [|done]. apply I6 in E. destruct Hc. apply elem_of_app. by left. }
    assert (Hlx : forall x l, <[id := Lsn k InCb]> (lsns s) !! x = Some l -> home s !! x = Some (l_sel l)).
    { intros x l Hx. destruct (decide (x = id)) as [->|Hne]; [rewrite lookup_insert in Hx; by injection Hx as <-|]. rewrite lookup_insert_ne in Hx by done. by apply I5. }
    destruct ssl.
    + set (t := if multi s then k else p) in *.
      assert (Hb : forall x y, bound s !! x = Some y -> <[c := t]> (bound s) !! x = Some y).
      { intros x y Hx. rewrite lookup_insert_ne; [done|]. by intros ->; rewrite Hcb in Hx. }
      assert (Hnd : NoDup ((accepted s ++ [c]) ++ lost s)).
      { assert (Hp : (accepted s ++ [c]) ++ lost s ≡ₚ c :: accepted s ++ lost s) by (rewrite <- app_assoc; cbn; by rewrite Permutation_middle).
        rewrite Hp. by constructor. }
      assert (Hbc : forall x y, <[c := t]> (bound s) !! x = Some y -> x ∈ accepted s ++ [c]).
      { intros x y Hx. apply elem_of_app. apply lookup_insert_Some in Hx as [[-> _]|[_ Hx]]; [right; by apply elem_of_list_singleton|left; by eapply I6]. }
      case_decide as Ht; injection H as <- _; constructor; cbn; try done.
      * rewrite fmap_app. cbn. rewrite I1. solve_Permutation.
      * intros x Hx. apply elem_of_app in Hx as [Hx|Hx].
        -- destruct (I3 x Hx) as (A & h & B & C). split; [by apply Hb|]. by exists h.
        -- apply elem_of_list_singleton in Hx as ->. cbn. rewrite lookup_insert. split; [done|]. by exists k.
      * intros x y z Hx. destruct (I4 x y z Hx) as (A & B). split; [by apply Hb|done].
      * rewrite fmap_app. cbn. rewrite I1. solve_Permutation.
      * intros x Hx. destruct (I3 x Hx) as (A & h & B & C). split; [by apply Hb|]. by exists h.
      * intros x y z Hx. apply elem_of_app in Hx as [Hx|Hx].
        -- destruct (I4 x y z Hx) as (A & B). split; [by apply Hb|done].
        -- apply elem_of_list_singleton in Hx as [= -> -> ->]. rewrite lookup_insert. split; [done|]. by exists k.
    + injection H as <- _. constructor; cbn; try done.
      * assert (Hp : accepted s ++ lost s ++ [c] ≡ₚ c :: accepted s ++ lost s) by solve_Permutation. rewrite Hp. by constructor.
      * intros x l Hx. apply lookup_delete_Some in Hx as [_ Hx]. by apply I5.
  - destruct (lsns s !! id) as [[k []]|] eqn:El; try done. destruct (start s && ok); injection H as <- _; apply SI_lsns; try done; intros x l Hx.
    + destruct (decide (x = id)) as [->|Hne]; [rewrite lookup_insert in Hx; injection Hx as <-; by apply I5 in El|]. rewrite lookup_insert_ne in Hx by done. by apply I5.
    + apply lookup_delete_Some in Hx as [_ Hx]. by apply I5.
  - destruct (lsns s !! id) as [[k []]|] eqn:El; try done. injection H as <- _. apply SI_lsns; try done. intros x l Hx.
    apply lookup_delete_Some in Hx as [_ Hx]. by apply I5.
  - destruct (queue s !! i) as [[[c id] t]|] eqn:Eq; [|done]. injection H as <- _.
    pose proof (delete_Permutation _ _ _ Eq) as HP. constructor; cbn; try done.
    + assert (HP2 : ((λ q : nat * nat * nat, q.1.1) <$> queue s) ≡ₚ c :: ((λ q : nat * nat * nat, q.1.1) <$> delete i (queue s))) by (by rewrite HP at 1).
      rewrite I1, HP2, fmap_app. cbn. solve_Permutation.
    + intros x Hx. apply elem_of_app in Hx as [Hx|Hx]; [by apply I3|]. apply elem_of_list_singleton in Hx as ->. cbn.
      destruct (I4 c id t) as (A & h & B & C); [by eapply elem_of_list_lookup_2|]. split; [done|]. by exists h.
    + intros x y z Hx. apply I4. assert (Hin : (x, y, z) ∈ (c, id, t) :: delete i (queue s)) by (by apply elem_of_cons; right). by rewrite <- HP in Hin.
  - by injection H as <- _.
Qed.
Lemma SI_run s : reachable sstep sv_init s -> SI s.
Proof. intros H. eapply reach_inv; [apply SI_init| |exact H]. intros s0 e s1 o. apply SI_step. Qed.

(** every connection accepted is handed to the program's callback once or is queued for it; none that was not accepted is handed over;
    with the queue empty, all of them were *)
Theorem C81_exactly_once s : reachable sstep sv_init s ->
  accepted s ≡ₚ (k_conn <$> calls s) ++ ((λ q, q.1.1) <$> queue s) /\ NoDup (k_conn <$> calls s) /\
  (queue s = [] -> forall c, c ∈ accepted s -> exists k, k ∈ calls s /\ k_conn k = c).
Proof.
  intros H. apply SI_run in H as [I1 I2 I3 I4 I5 I6]. split_and!; [done| |].
  - apply NoDup_app in I2 as [I2 _]. rewrite I1 in I2. by apply NoDup_app in I2 as [? _].
  - intros Hq c Hc. rewrite I1, Hq in Hc. cbn in Hc. rewrite app_nil_r in Hc. apply elem_of_list_fmap in Hc as (k & -> & Hk). by exists k.
Qed.
(** on the thread of the selector the connection belongs to *)
Theorem C81_thread s k : reachable sstep sv_init s -> k ∈ calls s -> bound s !! k_conn k = Some (k_sel k).
Proof. intros H Hk. apply SI_run in H. by apply (i_call _ H). Qed.
(** a callback that runs on the listener's own selector gets a live listener; with two listeners or more that is every callback of
    a connection accepted now, and it runs at once *)
Theorem C81_listener_alive_partial s k : reachable sstep sv_init s -> k ∈ calls s -> home s !! k_ss k = Some (k_sel k) -> k_alive k = true.
Proof.
  intros H Hk Hh. apply SI_run in H. destruct (i_call _ H k Hk) as (_ & h & B & C). rewrite Hh in B. injection B as <-.
  destruct (k_alive k); [done|]. by destruct C.
Qed.
Theorem C81_multi s id c p s' o : reachable sstep sv_init s -> 2 <= size (lsns s) -> sstep s (EAccept id c p true) = Ok s' o ->
  exists k, home s !! id = Some k /\ calls s' = calls s ++ [Call c k id true] /\ queue s' = queue s.
Proof.
  intros HR Hm H. apply SI_run in HR. cbn in H. destruct (lsns s !! id) as [[k []]|] eqn:El; try done. case_decide; [done|].
  unfold multi in H. rewrite bool_decide_true in H by done. rewrite decide_True in H by done. injection H as <- _. cbn.
  exists k. split; [|done]. by apply (i_home _ HR) in El.
Qed.
(** the selector of a connection of a server with a single listener may be another one: the callback can find the listener freed *)
Definition dead_run : list sev :=
  [EOpen [0]; ETurn 1 true; EOpened; ENext 1 true; EAccept 1 10 5 true; EClose; EReturn 1 true; EQueued 0].
Theorem C81_listener_alive_refuted : exists s os, run sstep sv_init dead_run = Ok s os /\ calls s = [Call 10 5 1 false].
Proof. eexists _, _. split; vm_compute; reflexivity. Qed.
(** so also while the selectors are still being opened one after the other *)
Definition early_run : list sev := [EOpen [0; 1]; ETurn 1 true; ENext 1 true; EAccept 1 10 1 true; ETurn 2 true; EOpened; ENext 2 true].
Theorem C81_early_accept : exists s os, run sstep sv_init early_run = Ok s os /\ queue s = [(10, 1, 1)] /\ size (lsns s) = 2.
Proof. eexists _, _. split; [vm_compute; reflexivity|]. split; vm_compute; reflexivity. Qed.

(** * Listening *)
(** without a failed accept, a TLS object that could not be made, a failed request and a close, every listener stays *)
Definition nofail (e : sev) : Prop := match e with ENext _ ok | EReturn _ ok | EAccept _ _ _ ok => ok = true | EError _ | EClose => False | _ => True end.
Record LI (s : sv) : Prop := {
  l_home : forall id k, home s !! id = Some k -> exists p, lsns s !! id = Some (Lsn k p);
  l_start : home s ≠ ∅ -> start s = true;
  l_open : forall ks, opening s = Some (ks, true) -> home s ≠ ∅ }.
Lemma LI_upd s id k p q : LI s -> lsns s !! id = Some (Lsn k p) -> LI (set_lsns (<[id := Lsn k q]> (lsns s)) s).
Proof.
  intros [L1 L2 L3] E. constructor; cbn; try done. intros x y Hx. destruct (L1 x y Hx) as [z Hz]. destruct (decide (x = id)) as [->|Hne].
  - rewrite lookup_insert. rewrite E in Hz. injection Hz as <- _. by eexists.
  - rewrite lookup_insert_ne by done. by eexists.
Qed.
Lemma LI_step s e s' o : SI s -> LI s -> nofail e -> sstep s e = Ok s' o -> LI s'.
Proof.
  intros HS L Hn H. pose proof L as [L1 L2 L3]. destruct e as [ks|id ok| |id ok|id c p ssl|id ok|id|i|]; cbn in Hn; cbn [sstep] in H; try done; subst.
  - destruct (opening s) eqn:Eo; [done|]. destruct (start s) eqn:Es; [done|]. injection H as <- _. constructor; cbn; [done| |done].
    intros X. exfalso. by apply L2 in X.
  - destruct (opening s) as [[[|k ks] r]|] eqn:Eo; try done. case_decide as Hh; [|done]. destruct ok; injection H as <- _.
    + constructor; cbn; try done.
      * intros x y Hx. destruct (decide (x = id)) as [->|Hne].
        -- rewrite lookup_insert in Hx. injection Hx as <-. rewrite lookup_insert. by eexists.
        -- rewrite lookup_insert_ne in Hx by done. rewrite lookup_insert_ne by done. by apply L1.
      * intros _ _. apply insert_non_empty.
    + constructor; cbn; try done. intros ks' [= -> ->]. by eapply L3.
  - destruct (opening s) as [[[|k ks] r]|] eqn:Eo; try done. injection H as <- _. constructor; cbn; done.
  - destruct (lsns s !! id) as [[k []]|] eqn:El; try done. injection H as <- _. by eapply LI_upd.
  - destruct (lsns s !! id) as [[k []]|] eqn:El; try done. case_decide; [done|].
    pose proof (LI_upd _ _ _ _ InCb L El) as [M1 M2 M3]. cbn in M1, M2, M3. case_decide; injection H as <- _; constructor; cbn; assumption.
  - destruct (lsns s !! id) as [[k []]|] eqn:El; try done. rewrite L2 in H.
    + injection H as <- _. by eapply LI_upd.
    + pose proof (i_home _ HS _ _ El) as Hh. intros E. rewrite E in Hh. by rewrite lookup_empty in Hh.
  - destruct (queue s !! i) as [[[c id] t]|] eqn:Eq; [|done]. injection H as <- _. constructor; cbn; done.
Qed.
Lemma LI_run es : forall s s' os, SI s -> LI s -> Forall nofail es -> run sstep s es = Ok s' os -> LI s'.
Proof.
  induction es as [|e es IH]; intros s s' os HS HL Hn; cbn; [by intros [= <- <-]|].
  apply Forall_cons in Hn as [Hn Hns]. destruct (sstep s e) as [| |s1 o] eqn:E; try done.
  destruct (run sstep s1 es) as [| |s2 os2] eqn:E2; try done. intros [= <- <-].
  eapply IH; [| |done|done]; [by eapply SI_step|by eapply LI_step].
Qed.
Lemma LI_init : LI sv_init.
Proof. by constructor. Qed.
Theorem C81_keeps_listening_partial es s os : run sstep sv_init es = Ok s os -> Forall nofail es ->
  forall id k, home s !! id = Some k -> start s = true /\ exists p, lsns s !! id = Some (Lsn k p).
Proof.
  intros H Hn id k Hh. destruct (LI_run _ _ _ _ SI_init LI_init Hn H) as [L1 L2 L3]. split; [|by apply L1].
  apply L2. intros E. rewrite E in Hh. by rewrite lookup_empty in Hh.
Qed.
(** there with the accept callback returned and the request accepted, a listener asks for the next connection *)
Theorem C81_rearmed s id k : lsns s !! id = Some (Lsn k InCb) -> start s = true ->
  exists s', sstep s (EReturn id true) = Ok s' SNone /\ lsns s' !! id = Some (Lsn k Armed).
Proof. intros E Hs. cbn. rewrite E, Hs. cbn. eexists. split; [done|]. cbn. by rewrite lookup_insert. Qed.

(** one accept that fails - or one connection whose TLS object cannot be made - ends the listener for good: with no listener left
    nothing is accepted any more, the server still counts as started and cannot be opened again *)
Definition dead (s : sv) : Prop := lsns s = ∅ /\ opening s = None /\ start s = true.
Lemma dead_step s e s' o : dead s -> sstep s e = Ok s' o -> e ≠ EClose -> dead s' /\ accepted s' = accepted s.
Proof.
  intros (A & B & C) H He. unfold dead. destruct e as [ks|id ok| |id ok|id c p ssl|id ok|id|i|]; cbn [sstep] in H; rewrite ?A, ?B, ?C, ?lookup_empty in H; try done.
  destruct (queue s !! i) as [[[c id] t]|]; [|done]. by injection H as <- _.
Qed.
Lemma dead_run_all es : forall s s' os, dead s -> EClose ∉ es -> run sstep s es = Ok s' os -> dead s' /\ accepted s' = accepted s.
Proof.
  induction es as [|e es IH]; intros s s' os HD Hn; cbn; [by intros [= <- <-]|].
  apply not_elem_of_cons in Hn as [Hn Hns]. destruct (sstep s e) as [| |s1 o] eqn:E; try done.
  destruct (run sstep s1 es) as [| |s2 os2] eqn:E2; try done. intros [= <- <-].
  destruct (dead_step _ _ _ _ HD E) as [D1 D2]; [done|]. rewrite <- D2. by eapply IH.
Qed.
Definition error_run : list sev := [EOpen [0]; ETurn 1 true; EOpened; ENext 1 true; EAccept 1 10 0 true; EReturn 1 true; EError 1].
Definition tls_run : list sev := [EOpen [0]; ETurn 1 true; EOpened; ENext 1 true; EAccept 1 10 0 true; EReturn 1 true; EAccept 1 11 0 false].
Theorem C81_accept_error_refuted es : es = error_run \/ es = tls_run ->
  exists s os, run sstep sv_init es = Ok s os /\ start s = true /\
    (forall ks, sstep s (EOpen ks) = Crash) /\
    (forall es' s' os', EClose ∉ es' -> run sstep s es' = Ok s' os' -> accepted s' = accepted s).
Proof.
  assert (HG : forall s os, run sstep sv_init es = Ok s os -> dead s -> exists s os, run sstep sv_init es = Ok s os /\ start s = true /\
    (forall ks, sstep s (EOpen ks) = Crash) /\
    (forall es' s' os', EClose ∉ es' -> run sstep s es' = Ok s' os' -> accepted s' = accepted s)).
  { intros s os Hr HD. exists s, os. destruct HD as (A & B & C). split_and!; [done|done| |].
    - intros ks. cbn. by rewrite B, C.
    - intros es' s' os' Hn Hr'. by eapply (dead_run_all es' s s' os' (conj A (conj B C))). }
  intros [->| ->]; (eapply HG; [vm_compute; reflexivity|split; [apply map_size_empty_iff; vm_compute; reflexivity|split; reflexivity]]).
Qed.

(** * Closing *)
(** after a close with no kserver_open running or begun, each listener accepts at most one connection more - none if it is in the
    accept callback - and then is gone *)
Definition credit (l : lsn) : nat := match l_ph l with InCb => 0 | _ => 1 end.
Definition credits (m : gmap nat lsn) : nat := sum_list_with (λ q, credit q.2) (map_to_list m).
Lemma slw_perm {A} (f : A -> nat) (l l' : list A) : l ≡ₚ l' -> sum_list_with f l = sum_list_with f l'.
Proof. induction 1; cbn; lia. Qed.
Lemma credits_insert m id l : m !! id = None -> credits (<[id := l]> m) = credit l + credits m.
Proof. intros H. unfold credits. by rewrite (slw_perm _ _ _ (map_to_list_insert m id l H)). Qed.
Lemma credits_delete m id l : m !! id = Some l -> credits m = credit l + credits (delete id m).
Proof. intros H. rewrite <- (credits_insert (delete id m) id l) by apply lookup_delete. by rewrite insert_delete. Qed.
Lemma credits_upd m id l l' : m !! id = Some l -> credits (<[id := l']> m) + credit l = credits m + credit l'.
Proof.
  intros H. rewrite (credits_delete m id l H), <- (insert_delete_insert m id l'), (credits_insert (delete id m) id l') by apply lookup_delete. lia.
Qed.
Definition noopen (e : sev) : Prop := match e with EOpen _ => False | _ => True end.
Lemma closed_step s e s' o : start s = false -> opening s = None -> noopen e -> sstep s e = Ok s' o ->
  start s' = false /\ opening s' = None /\ length (accepted s') + credits (lsns s') <= length (accepted s) + credits (lsns s) /\
  (forall id, lsns s !! id = None -> lsns s' !! id = None).
Proof.
  intros Hs Ho Hn H. destruct e as [ks|id ok| |id ok|id c p ssl|id ok|id|i|]; cbn [sstep] in H; rewrite ?Ho, ?Hs in H; try done.
  - destruct (lsns s !! id) as [[k []]|] eqn:El; try done. destruct ok; injection H as <- _; cbn; split_and!; try done.
    + pose proof (credits_upd _ _ _ (Lsn k Armed) El) as E. cbn in E. lia.
    + intros x Hx. rewrite lookup_insert_ne; [done|]. by intros ->; rewrite El in Hx.
    + pose proof (credits_delete _ _ _ El) as E. cbn in E. lia.
    + intros x Hx. apply lookup_delete_None. by right.
  - destruct (lsns s !! id) as [[k []]|] eqn:El; try done. case_decide; [done|]. destruct ssl; [case_decide|]; injection H as <- _; cbn; split_and!; try done.
    1,3: pose proof (credits_upd _ _ _ (Lsn k InCb) El) as E; cbn in E; rewrite app_length; cbn; lia.
    1,2: intros x Hx; rewrite lookup_insert_ne; [done|]; by intros ->; rewrite El in Hx.
    + pose proof (credits_delete _ _ _ El) as E. cbn in E. lia.
    + intros x Hx. apply lookup_delete_None. by right.
  - destruct (lsns s !! id) as [[k []]|] eqn:El; try done. injection H as <- _; cbn; split_and!; try done.
    + pose proof (credits_delete _ _ _ El) as E. cbn in E. lia.
    + intros x Hx. apply lookup_delete_None. by right.
  - destruct (lsns s !! id) as [[k []]|] eqn:El; try done. injection H as <- _; cbn; split_and!; try done.
    + pose proof (credits_delete _ _ _ El) as E. cbn in E. lia.
    + intros x Hx. apply lookup_delete_None. by right.
  - destruct (queue s !! i) as [[[c id] t]|]; [|done]. by injection H as <- _.
  - by injection H as <- _.
Qed.
Lemma closed_run es : forall s s' os, start s = false -> opening s = None -> Forall noopen es -> run sstep s es = Ok s' os ->
  length (accepted s') + credits (lsns s') <= length (accepted s) + credits (lsns s) /\ (forall id, lsns s !! id = None -> lsns s' !! id = None).
Proof.
  induction es as [|e es IH]; intros s s' os Hs Ho Hn; cbn; [by intros [= <- <-]|].
  apply Forall_cons in Hn as [Hn Hns]. destruct (sstep s e) as [| |s1 o] eqn:E; try done.
  destruct (run sstep s1 es) as [| |s2 os2] eqn:E2; try done. intros [= <- <-].
  destruct (closed_step _ _ _ _ Hs Ho Hn E) as (A & B & C & D).
  destruct (IH _ _ _ A B Hns E2) as (F & G). split; [lia|]. intros id Hid. by apply G, D.
Qed.
Lemma credits_size m : credits m <= size m.
Proof.
  induction m as [|id l m Hm IH] using map_ind; [done|]. rewrite credits_insert, map_size_insert_None by done.
  assert (credit l <= 1) by (unfold credit; destruct (l_ph l); lia). lia.
Qed.
Theorem C81_closed_partial s s1 o es s' os : sstep s EClose = Ok s1 o -> opening s = None -> Forall noopen es -> run sstep s1 es = Ok s' os ->
  length (accepted s') <= length (accepted s) + size (lsns s) /\ (forall id, lsns s !! id = None -> lsns s' !! id = None).
Proof.
  intros H Ho Hn Hr. cbn in H. injection H as <- _. destruct (closed_run es (set_start false s) s' os eq_refl Ho Hn Hr) as (A & B). cbn in A, B. split; [|done].
  pose proof (credits_size (lsns s)). lia.
Qed.
(** ... and a listener in the callback does not accept again: the return destroys it *)
Theorem C81_closed_return s id k ok : start s = false -> lsns s !! id = Some (Lsn k InCb) ->
  exists s', sstep s (EReturn id ok) = Ok s' SNone /\ lsns s' !! id = None.
Proof. intros Hs E. cbn. rewrite E, Hs. cbn. eexists. split; [done|]. cbn. by rewrite lookup_delete. Qed.
(** but a close while kserver_open still runs is undone by its next turn: the server goes on accepting *)
Definition undone_run : list sev :=
  [EOpen [0; 1]; ETurn 1 true; EClose; ETurn 2 true; EOpened; ENext 2 true; EAccept 2 10 1 true; EReturn 2 true; EAccept 2 11 1 true; EReturn 2 true].
Theorem C81_close_during_open_refuted : exists s os, run sstep sv_init undone_run = Ok s os /\ start s = true /\ lsns s !! 2 = Some (Lsn 1 Armed) /\
  accepted s = [10; 11].
Proof. eexists _, _. split_and!; vm_compute; reflexivity. Qed.

(** * The result of kserver_open *)
(** false: no listener was made and the server may be opened again *)
Record OI (s : sv) : Prop := { o_false : forall ks, opening s = Some (ks, false) -> start s = false }.
Lemma OI_step s e s' o : OI s -> sstep s e = Ok s' o -> OI s'.
Proof.
  intros [O1] H. destruct e as [ks|id ok| |id ok|id c p ssl|id ok|id|i|]; cbn [sstep] in H.
  - destruct (opening s) eqn:Eo; [done|]. destruct (start s) eqn:Es; [done|]. injection H as <- _. constructor; cbn. by intros ks' _.
  - destruct (opening s) as [[[|k ks] r]|] eqn:Eo; try done. case_decide as Hh; [|done]. destruct ok; injection H as <- _; constructor; cbn; intros ks' [= <- E]; try done.
    subst r. by eapply O1.
  - destruct (opening s) as [[[|k ks] r]|] eqn:Eo; try done. injection H as <- _. by constructor.
  - destruct (lsns s !! id) as [[k []]|] eqn:El; try done. destruct ok; injection H as <- _; constructor; exact O1.
  - destruct (lsns s !! id) as [[k []]|] eqn:El; try done. case_decide; [done|]. destruct ssl; [case_decide|]; injection H as <- _; constructor; exact O1.
  - destruct (lsns s !! id) as [[k []]|] eqn:El; try done. destruct (start s && ok); injection H as <- _; constructor; exact O1.
  - destruct (lsns s !! id) as [[k []]|] eqn:El; try done. injection H as <- _; constructor; exact O1.
  - destruct (queue s !! i) as [[[c id] t]|]; [|done]. injection H as <- _; constructor; exact O1.
  - injection H as <- _. by constructor.
Qed.
Lemma OI_run s : reachable sstep sv_init s -> OI s.
Proof. intros H. eapply reach_inv; [|intros s0 e s1 o; apply OI_step|exact H]. constructor. cbn. done. Qed.
Theorem C81_open_false s s' : reachable sstep sv_init s -> sstep s EOpened = Ok s' (SOpened false) -> start s' = false /\ opening s' = None.
Proof.
  intros HR H. pose proof (OI_run _ HR) as HO.
  cbn in H. destruct (opening s) as [[[|k ks] r]|] eqn:Eo; try done. injection H as <- Hr. subst r. cbn. split; [by eapply (o_false _ HO)|done].
Qed.
(** true: one of the selectors listens - the others may not *)
Theorem C81_open_all_refuted : exists s os, run sstep sv_init [EOpen [0; 1]; ETurn 1 true; ETurn 2 false; EOpened] = Ok s os /\
  os = [SNone; SNone; SNone; SOpened true] /\ forall id l, lsns s !! id = Some l -> l_sel l = 0.
Proof.
  eexists _, _. split; [vm_compute; reflexivity|]. split; [done|]. intros id l H. apply elem_of_map_to_list in H. vm_compute in H.
  apply elem_of_list_singleton in H as [= -> ->]. done.
Qed.

Definition ok_run : list sev :=
  [EOpen [0; 1]; ETurn 1 true; ENext 1 true; ETurn 2 true; EOpened; ENext 2 true; EAccept 1 10 1 true; EAccept 2 11 0 true; EReturn 1 true;
   EReturn 2 true; EAccept 1 12 1 true; EReturn 1 true].
Theorem C81_example : exists s os, run sstep sv_init ok_run = Ok s os /\ Forall nofail ok_run /\
  calls s = [Call 10 0 1 true; Call 11 1 2 true; Call 12 0 1 true] /\ queue s = [] /\
  exists s1 os1, run sstep s [EClose; EAccept 1 13 1 true; EReturn 1 true; EAccept 2 14 0 true; EReturn 2 true] = Ok s1 os1 /\
    lsns s1 = ∅ /\ accepted s1 = [10; 11; 12; 13; 14].
Proof.
  eexists _, _. split; [vm_compute; reflexivity|]. split; [repeat constructor|]. split; [done|]. split; [done|].
  eexists _, _. split; [vm_compute; reflexivity|]. split; [apply map_size_empty_iff; vm_compute; reflexivity|done].
Qed.
