(** C50: the thread pool *)
From stdpp Require Import gmap.
From Verif Require Import Lts ThreadModel.
Local Open Scope Z_scope.

(** ** Specification *)
(** the states of a pool thread, as the user sees them *)
Definition idle (h : th) : bool := match h with Th PParked CNull _ _ false _ => true | _ => false end.
(** it has been given a job and has not yet called it *)
Definition pending (h : th) : bool := match h with Th PNew _ _ _ false _ => true | Th PParked CStart _ _ true _ => true | _ => false end.
Definition running (h : th) : bool := match h with Th PWork _ _ _ false _ => true | Th PEnded _ _ _ false _ => true | _ => false end.
Definition ending (h : th) : bool := match h with Th PParked CEnd _ _ true _ => true | _ => false end.
Definition busy (h : th) : bool := pending h || running h.
(** number of threads with a property, number of occurrences of a job in a list *)
Definition b2z (b : bool) : Z := if b then 1 else 0.
Definition cntm (f : th -> bool) (m : gmap nat th) : Z := map_fold (λ _ h a, b2z (f h) + a) 0 m.
Fixpoint occ (j : nat) (l : list nat) : Z := match l with [] => 0 | x :: l => (if decide (x = j) then 1 else 0) + occ j l end.
(** schedules without foreign signals and with a sensible argument of kthread_flush *)
Definition normal (e : ev) : Prop := match e with ExtSig _ => False | Flush min _ => 0 <= min | _ => True end.
Definition reach (s : st) : Prop := exists es os, Forall normal es /\ run step init es = Ok s os.

(** ** counting lemmas *)
Lemma cntm_new f m t h : m !! t = None -> cntm f (<[t := h]> m) = b2z (f h) + cntm f m.
Proof. intros H. unfold cntm. rewrite map_fold_insert_L; [done|intros; lia|done]. Qed.
Lemma cntm_empty f : cntm f ∅ = 0. Proof. apply map_fold_empty. Qed.
Lemma cntm_del f m t h : m !! t = Some h -> cntm f (delete t m) = cntm f m - b2z (f h).
Proof. intros H. rewrite <- (insert_delete m t h H) at 2. rewrite cntm_new by apply lookup_delete. lia. Qed.
Lemma cntm_upd f m t h h' : m !! t = Some h -> cntm f (<[t := h']> m) = cntm f m - b2z (f h) + b2z (f h').
Proof. intros H. rewrite <- insert_delete_insert, cntm_new by apply lookup_delete. rewrite (cntm_del _ _ _ _ H). lia. Qed.
Lemma cntm_nonneg f m : 0 <= cntm f m.
Proof. induction m as [|t h m Hm IH] using map_ind; [rewrite cntm_empty; lia|]. rewrite cntm_new by done. unfold b2z. destruct (f h); lia. Qed.
Lemma cntm_pos f m : 0 < cntm f m -> exists t h, m !! t = Some h /\ f h = true.
Proof.
  induction m as [|t h m Hm IH] using map_ind; [rewrite cntm_empty; lia|]. rewrite cntm_new by done. destruct (f h) eqn:E; [exists t, h; by rewrite lookup_insert|].
  cbn. intros H. destruct (IH H) as (u & k & H1 & H2). exists u, k. split; [|done]. rewrite lookup_insert_ne; [done|congruence].
Qed.
Lemma occ_nonneg j l : 0 <= occ j l. Proof. induction l as [|x l IH]; cbn; [lia|]. case_decide; lia. Qed.
Lemma occ_in j l : j ∈ l <-> 0 < occ j l.
Proof.
  induction l as [|x l IH]; cbn; [rewrite elem_of_nil; lia|]. rewrite elem_of_cons, IH. pose proof (occ_nonneg j l). case_decide; [subst; split; [lia|by left]|].
  split; [intros [|]; [congruence|lia]|intros; right; lia].
Qed.
Lemma occ_nodup l : NoDup l <-> forall j, occ j l <= 1.
Proof.
  induction l as [|x l IH]; cbn; [split; [intros _ j; lia|intros _; constructor]|]. rewrite NoDup_cons, IH. split.
  - intros [H1 H2] j. case_decide; [|specialize (H2 j); lia]. subst. destruct (decide (0 < occ j l)) as [G|G]; [by apply occ_in in G|lia].
  - intros H. split.
    + intros Hx. apply occ_in in Hx. specialize (H x). rewrite decide_True in H by done. lia.
    + intros j. specialize (H j). case_decide; lia.
Qed.

(** ** the invariant *)
Record inv (s : st) : Prop := Inv {
  i_wf : forall t h, ths s !! t = Some h -> idle h || busy h || ending h = true;
  i_nodup : NoDup (free s);
  i_free : forall t, t ∈ free s <-> exists h, ths s !! t = Some h /\ idle h = true;
  i_nfree : nfree s = Z.of_nat (length (free s));
  i_nwork : nwork s = cntm busy (ths s);
  i_idle : nfree s = cntm idle (ths s);
  i_jobs : forall j, occ j (accepted s) = occ j (started s) + cntm (λ h, pending h && bool_decide (t_job h = j)) (ths s);
  i_sort : forall i k a b ha hb, (i < k)%nat -> free s !! i = Some a -> free s !! k = Some b -> ths s !! a = Some ha -> ths s !! b = Some hb -> (t_stamp ha < t_stamp hb)%nat;
  i_stamp : forall a ha, a ∈ free s -> ths s !! a = Some ha -> (t_stamp ha < parks s)%nat
}.
Lemma inv_init : inv init.
Proof.
  split; cbn; try done; try (by rewrite cntm_empty).
  - constructor.
  - intros t. rewrite elem_of_nil. split; [done|]. intros (h & H & _). by rewrite lookup_empty in H.
Qed.
(** a thread outside of the list moves on, staying outside *)
Lemma inv_move s t h h' st' w : inv s -> ths s !! t = Some h -> idle h = false -> idle h' = false -> busy h' || ending h' = true ->
  w = nwork s - b2z (busy h) + b2z (busy h') ->
  (forall j, occ j st' + b2z (pending h' && bool_decide (t_job h' = j)) = occ j (started s) + b2z (pending h && bool_decide (t_job h = j))) ->
  inv (St (<[t := h']> (ths s)) (free s) w (nfree s) (accepted s) st' (parks s)).
Proof.
  intros [I1 I2 I3 I4 I5 I6 I7 I8 I9] Ht Hi Hi' Hb Hw Hj. assert (Hnf : t ∉ free s) by (rewrite I3; intros (k & K1 & K2); congruence).
  assert (Hne : forall a, a ∈ free s -> a <> t) by (intros a Ha ->; done).
  split; cbn [ths free nwork nfree accepted started parks]; try done.
  - intros u k Hu. destruct (decide (t = u)) as [->|]; [rewrite lookup_insert in Hu; injection Hu as <-; rewrite Hi'; done|]. rewrite lookup_insert_ne in Hu by done. by eapply I1.
  - intros u. rewrite I3. destruct (decide (t = u)) as [->|].
    + rewrite lookup_insert. split; intros (k & K1 & K2); exfalso; [congruence|]. injection K1 as <-. congruence.
    + by rewrite lookup_insert_ne.
  - rewrite (cntm_upd _ _ _ _ _ Ht). lia.
  - rewrite (cntm_upd _ _ _ _ _ Ht), Hi, Hi'. cbn. lia.
  - intros j. rewrite (cntm_upd _ _ _ _ _ Ht). specialize (I7 j). specialize (Hj j). lia.
  - intros i k a b ha hb Hik Hx Hy Ha Hb'. rewrite lookup_insert_ne in Ha by (apply not_eq_sym, Hne; by eapply elem_of_list_lookup_2). rewrite lookup_insert_ne in Hb' by (apply not_eq_sym, Hne; by eapply elem_of_list_lookup_2). by eapply (I8 i k a b).
  - intros a ha Ha Hl. rewrite lookup_insert_ne in Hl by (by apply not_eq_sym, Hne). by eapply I9.
Qed.
(** a thread is taken off the list *)
Lemma inv_off s t h h' l1 l2 w acc : inv s -> free s = l1 ++ t :: l2 -> ths s !! t = Some h -> idle h' = false -> busy h' || ending h' = true ->
  w = nwork s + b2z (busy h') ->
  (forall j, occ j acc = occ j (accepted s) + b2z (pending h' && bool_decide (t_job h' = j))) ->
  inv (St (<[t := h']> (ths s)) (l1 ++ l2) w (nfree s - 1) acc (started s) (parks s)).
Proof.
  intros [I1 I2 I3 I4 I5 I6 I7 I8 I9] Hf Ht Hi' Hb Hw Hj. assert (Hin : t ∈ free s) by (rewrite Hf; set_solver).
  assert (Hi : idle h = true) by (apply I3 in Hin as (k & K1 & K2); congruence).
  assert (Hbz : busy h = false) by (destruct h as [[] [] ? ? [] ?]; done). assert (Hp : pending h = false) by (destruct h as [[] [] ? ? [] ?]; done).
  assert (Hnd : t ∉ l1 ++ l2 /\ NoDup (l1 ++ l2)).
  { rewrite Hf in I2. assert (P : l1 ++ t :: l2 ≡ₚ t :: l1 ++ l2) by (symmetry; apply Permutation_middle). rewrite P in I2. by apply NoDup_cons in I2. }
  destruct Hnd as [Hnt Hnd]. assert (Hne : forall a, a ∈ l1 ++ l2 -> t <> a) by (intros a Ha ->; done).
  assert (Hsub : forall a, a ∈ l1 ++ l2 -> a ∈ free s) by (intros a; rewrite Hf; set_solver).
  split; cbn [ths free nwork nfree accepted started parks]; try done.
  - intros u k Hu. destruct (decide (t = u)) as [->|]; [rewrite lookup_insert in Hu; injection Hu as <-; rewrite Hi'; done|]. rewrite lookup_insert_ne in Hu by done. by eapply I1.
  - intros u. destruct (decide (t = u)) as [->|].
    + rewrite lookup_insert. split; [done|]. intros (k & K1 & K2). injection K1 as <-. congruence.
    + rewrite lookup_insert_ne by done. rewrite <- I3, Hf. set_solver.
  - rewrite I4, Hf, !app_length. cbn [length]. lia.
  - rewrite (cntm_upd _ _ _ _ _ Ht), Hbz. cbn. lia.
  - rewrite (cntm_upd _ _ _ _ _ Ht), Hi, Hi'. cbn. lia.
  - intros j. rewrite (cntm_upd _ _ _ _ _ Ht), Hp. specialize (I7 j). specialize (Hj j). cbn. lia.
  - intros i k a b ha hb Hik Hx Hy Ha Hb'. rewrite lookup_insert_ne in Ha by (apply Hne; by eapply elem_of_list_lookup_2). rewrite lookup_insert_ne in Hb' by (apply Hne; by eapply elem_of_list_lookup_2).
    assert (X : forall i a, (l1 ++ l2) !! i = Some a -> free s !! (if decide (i < length l1)%nat then i else S i) = Some a).
    { clear -Hf. intros i a H. rewrite Hf. case_decide; [rewrite lookup_app_l in * by done; done|]. rewrite lookup_app_r in * by lia. rewrite Nat.sub_succ_l by lia. done. }
    eapply (I8 _ _ a b); [|by apply X|by apply X|done|done]. do 2 case_decide; lia.
  - intros a ha Ha Hl. rewrite lookup_insert_ne in Hl by (by apply Hne). by eapply (I9 a ha); [apply Hsub|].
Qed.
Lemma inv_new s t job : inv s -> t ∉ dom (ths s) -> inv (St (<[t := Th PNew CNull job 0 false 0%nat]> (ths s)) (free s) (nwork s + 1) (nfree s) (job :: accepted s) (started s) (parks s)).
Proof.
  intros [I1 I2 I3 I4 I5 I6 I7 I8 I9] Ht. apply not_elem_of_dom in Ht. assert (Hnf : t ∉ free s) by (rewrite I3; intros (k & K1 & K2); congruence).
  assert (Hne : forall a, a ∈ free s -> t <> a) by (intros a Ha ->; done).
  split; cbn [ths free nwork nfree accepted started parks]; try done.
  - intros u k Hu. destruct (decide (t = u)) as [->|]; [rewrite lookup_insert in Hu; by injection Hu as <-|]. rewrite lookup_insert_ne in Hu by done. by eapply I1.
  - intros u. rewrite I3. destruct (decide (t = u)) as [->|].
    + rewrite lookup_insert. split; intros (k & K1 & K2); exfalso; [congruence|]. injection K1 as <-. done.
    + by rewrite lookup_insert_ne.
  - rewrite cntm_new by done. cbn. lia.
  - rewrite cntm_new by done. cbn. lia.
  - intros j. rewrite cntm_new by done. specialize (I7 j). cbn [pending andb t_job occ]. unfold b2z. destruct (decide (job = j)) as [->|]; [rewrite bool_decide_true by done|rewrite bool_decide_false by done]; lia.
  - intros i k a b ha hb Hik Hx Hy Ha Hb'. rewrite lookup_insert_ne in Ha by (apply Hne; by eapply elem_of_list_lookup_2). rewrite lookup_insert_ne in Hb' by (apply Hne; by eapply elem_of_list_lookup_2). by eapply (I8 i k a b).
  - intros a ha Ha Hl. rewrite lookup_insert_ne in Hl by (by apply Hne). by eapply I9.
Qed.
Lemma inv_del s t h : inv s -> ths s !! t = Some h -> ending h = true -> inv (St (delete t (ths s)) (free s) (nwork s) (nfree s) (accepted s) (started s) (parks s)).
Proof.
  intros [I1 I2 I3 I4 I5 I6 I7 I8 I9] Ht He. assert (Hi : idle h = false /\ busy h = false /\ pending h = false) by (destruct h as [[] [] ? ? [] ?]; done). destruct Hi as (Hi & Hbz & Hp).
  assert (Hnf : t ∉ free s) by (rewrite I3; intros (k & K1 & K2); congruence). assert (Hne : forall a, a ∈ free s -> t <> a) by (intros a Ha ->; done).
  split; cbn [ths free nwork nfree accepted started parks]; try done.
  - intros u k Hu. apply lookup_delete_Some in Hu as [_ Hu]. by eapply I1.
  - intros u. rewrite I3. destruct (decide (t = u)) as [->|].
    + rewrite lookup_delete. split; intros (k & K1 & K2); exfalso; [congruence|done].
    + by rewrite lookup_delete_ne.
  - rewrite (cntm_del _ _ _ _ Ht), Hbz. cbn. lia.
  - rewrite (cntm_del _ _ _ _ Ht), Hi. cbn. lia.
  - intros j. rewrite (cntm_del _ _ _ _ Ht), Hp. specialize (I7 j). cbn. lia.
  - intros i k a b ha hb Hik Hx Hy Ha Hb'. apply lookup_delete_Some in Ha as [_ Ha], Hb' as [_ Hb']. by eapply (I8 i k a b).
  - intros a ha Ha Hl. apply lookup_delete_Some in Hl as [_ Hl]. by eapply I9.
Qed.
Lemma inv_park s t j et c k0 : inv s -> ths s !! t = Some (Th PEnded c j et false k0) ->
  inv (St (<[t := Th PParked CNull j et false (parks s)]> (ths s)) (free s ++ [t]) (nwork s - 1) (nfree s + 1) (accepted s) (started s) (S (parks s))).
Proof.
  intros [I1 I2 I3 I4 I5 I6 I7 I8 I9] Ht. assert (Hnf : t ∉ free s) by (rewrite I3; intros (k & K1 & K2); rewrite Ht in K1; by injection K1 as <-).
  assert (Hne : forall a, a ∈ free s -> t <> a) by (intros a Ha ->; done).
  split; cbn [ths free nwork nfree accepted started parks].
  - intros u k Hu. destruct (decide (t = u)) as [->|]; [rewrite lookup_insert in Hu; by injection Hu as <-|]. rewrite lookup_insert_ne in Hu by done. by eapply I1.
  - apply NoDup_app. split_and!; [done| |apply NoDup_singleton]. intros x Hx Hy. apply elem_of_list_singleton in Hy as ->. done.
  - intros u. rewrite elem_of_app, elem_of_list_singleton. destruct (decide (t = u)) as [->|].
    + rewrite lookup_insert. split; [intros _; by eexists|by right].
    + rewrite lookup_insert_ne, <- I3 by done. split; [intros [|]; congruence|by left].
  - rewrite I4, app_length. cbn [length]. lia.
  - rewrite (cntm_upd _ _ _ _ _ Ht). cbn. lia.
  - rewrite (cntm_upd _ _ _ _ _ Ht). cbn. lia.
  - intros i. rewrite (cntm_upd _ _ _ _ _ Ht). specialize (I7 i). cbn. lia.
  - intros i k a b ha hb Hik Hx Hy Ha Hb'. pose proof (lookup_lt_Some _ _ _ Hy) as Hl. rewrite app_length in Hl. cbn in Hl.
    rewrite lookup_app_l in Hx by lia. assert (Hain : a ∈ free s) by (by eapply elem_of_list_lookup_2). rewrite lookup_insert_ne in Ha by (by apply Hne).
    destruct (decide (k < length (free s))%nat).
    + rewrite lookup_app_l in Hy by done. rewrite lookup_insert_ne in Hb' by (apply Hne; by eapply elem_of_list_lookup_2). by eapply (I8 i k a b).
    + rewrite lookup_app_r in Hy by lia. apply list_lookup_singleton_Some in Hy as [_ <-]. rewrite lookup_insert in Hb'. injection Hb' as <-. cbn. by eapply I9.
  - intros a ha Ha Hl. apply elem_of_app in Ha as [Ha|Ha].
    + rewrite lookup_insert_ne in Hl by (by apply Hne). specialize (I9 _ _ Ha Hl). lia.
    + apply elem_of_list_singleton in Ha as ->. rewrite lookup_insert in Hl. injection Hl as <-. cbn. lia.
Qed.
(** what kthread_flush does *)
Definition expired (now : Z) (m : gmap nat th) (t : nat) : Prop := exists h, m !! t = Some h /\ now - t_et h > 60.
Lemma idle_of s t : inv s -> t ∈ free s -> exists h, ths s !! t = Some h /\ idle h = true. Proof. intros I. apply I. Qed.
Lemma flush_ok min now l : forall s, 0 <= min -> inv s -> free s = l ->
  exists pre l' m, flush_loop min now l (ths s) (nfree s) = Some (l', m, Z.of_nat (length l')) /\ l = pre ++ l' /\
    inv (St m l' (nwork s) (Z.of_nat (length l')) (accepted s) (started s) (parks s)) /\
    Forall (expired now (ths s)) pre /\ (forall t, t ∉ pre -> m !! t = ths s !! t) /\ (forall t h, t ∈ pre -> m !! t = Some h -> ending h = true) /\
    (pre <> [] -> min <= Z.of_nat (length l')) /\
    (Z.of_nat (length l') <= min \/ l' = [] \/ exists t r, l' = t :: r /\ ~ expired now (ths s) t).
Proof.
  induction l as [|t l IH]; intros s Hm HI Hf; cbn [flush_loop]; pose proof (i_nfree _ HI) as Hn; rewrite Hf in Hn.
  - rewrite Hn. cbn [length]. rewrite decide_True by lia. exists [], [], (ths s). split_and!; try done; try (by right; left).
    + destruct s; cbn in *. rewrite Hf, Hn in HI. done.
    + intros u h Hu. by apply elem_of_nil in Hu.
  - destruct (idle_of s t HI) as (h & Ht & Hi); [rewrite Hf; set_solver|]. rewrite Hn. case_decide as Hd.
    + exists [], (t :: l), (ths s). split_and!; try done; [|intros u h2 Hu; by apply elem_of_nil in Hu|by left]. destruct s; cbn in *. rewrite Hf, Hn in HI. done.
    + rewrite Ht. case_decide as Hx.
      * exists [], (t :: l), (ths s). split_and!; try done; [destruct s; cbn in *; rewrite Hf, Hn in HI; done|intros u h2 Hu; by apply elem_of_nil in Hu|]. right. right. exists t, l. split; [done|]. intros (h2 & E2 & G). rewrite Ht in E2. injection E2 as <-. lia.
      * set (s1 := St (<[t := tell h CEnd (t_job h)]> (ths s)) l (nwork s) (nfree s - 1) (accepted s) (started s) (parks s)).
        assert (Htell : idle (tell h CEnd (t_job h)) = false /\ busy (tell h CEnd (t_job h)) = false /\ ending (tell h CEnd (t_job h)) = true /\ pending (tell h CEnd (t_job h)) = false) by (destruct h as [[] [] ? ? [] ?]; done).
        destruct Htell as (T1 & T2 & T3 & T4).
        assert (HI1 : inv s1).
        { apply (inv_off s t h _ [] l); try done; [by rewrite T3, orb_true_r|rewrite T2; cbn; lia|]. intros j. rewrite T4. cbn. lia. }
        assert (Hnt : t ∉ l). { pose proof (i_nodup _ HI) as ND. rewrite Hf in ND. by apply NoDup_cons in ND as [? _]. }
        destruct (IH s1 Hm HI1 eq_refl) as (pre & l' & m & E & El & HI2 & P1 & P2 & P3 & P4 & P5).
        cbn [ths nfree s1] in E. assert (Hnn : nfree s - 1 = Z.of_nat (length (t :: l)) - 1) by lia. rewrite Hnn in E. rewrite E.
        assert (Hsame : forall u, u <> t -> ths s1 !! u = ths s !! u) by (intros u Hu; cbn; by rewrite lookup_insert_ne).
        exists (t :: pre), l', m. split_and!; try done.
        -- by rewrite El.
        -- constructor; [exists h; split; [done|lia]|]. apply Forall_forall. intros u Hu. pose proof (proj1 (Forall_forall _ _) P1 u Hu) as (k & K1 & K2). exists k. rewrite Hsame in K1; [done|]. intros ->. apply Hnt. rewrite El. set_solver.
        -- intros u Hu. apply not_elem_of_cons in Hu as [Hu1 Hu2]. rewrite P2 by done. by apply Hsame.
        -- intros u k Hu Hk. apply elem_of_cons in Hu as [->|Hu]; [|by eapply P3]. destruct (decide (t ∈ pre)) as [|Hp]; [by eapply P3|]. rewrite P2 in Hk by done. cbn in Hk. rewrite lookup_insert in Hk. by injection Hk as <-.
        -- intros _. destruct pre as [|u pre]; [cbn in El; subst l'|by apply P4]. cbn [length] in Hd. lia.
        -- destruct P5 as [P5|[P5|(u & r & -> & P5)]]; [by left|by right; left|right; right]. exists u, r. split; [done|]. intros (k & K1 & K2). apply P5. exists k. split; [|done]. rewrite Hsame; [done|]. intros ->. apply Hnt. rewrite El. set_solver.
Qed.
Lemma close_ok l : forall s, inv s -> free s = l -> exists m, close_loop l (ths s) (nfree s) = Some (m, 0) /\ inv (St m [] (nwork s) 0 (accepted s) (started s) (parks s)).
Proof.
  induction l as [|t l IH]; intros s HI Hf; cbn [close_loop]; pose proof (i_nfree _ HI) as Hn; rewrite Hf in Hn.
  - exists (ths s). rewrite Hn. split; [done|]. destruct s; cbn in *. rewrite Hf, Hn in HI. done.
  - destruct (idle_of s t HI) as (h & Ht & Hi); [rewrite Hf; set_solver|]. rewrite Ht.
    assert (Htell : idle (tell h CEnd 0) = false /\ busy (tell h CEnd 0) = false /\ ending (tell h CEnd 0) = true /\ pending (tell h CEnd 0) = false) by (destruct h as [[] [] ? ? [] ?]; done).
    destruct Htell as (T1 & T2 & T3 & T4).
    assert (HI1 : inv (St (<[t := tell h CEnd 0]> (ths s)) l (nwork s) (nfree s - 1) (accepted s) (started s) (parks s))).
    2: { destruct (IH _ HI1 eq_refl) as (m & E & I2). cbn [ths nfree nwork accepted started parks] in *. by exists m. }
    apply (inv_off s t h _ [] l); try done; [by rewrite T3, orb_true_r|rewrite T2; cbn; lia|]. intros j. rewrite T4. cbn. lia.
Qed.
Lemma last_split (l : list nat) t : last l = Some t -> l = removelast l ++ [t].
Proof. intros H. apply last_Some in H as [l' ->]. by rewrite removelast_last. Qed.
Lemma inv_step s e : normal e -> inv s -> match step s e with Disabled => True | Crash => False | Ok s' _ => inv s' end.
Proof.
  intros Hn HI. destruct e as [job nid ok|t|t now|t|t|min now| |t]; cbn [step]; cbn in Hn.
  - destruct (last (free s)) as [t|] eqn:El.
    + apply last_split in El. destruct (idle_of s t HI) as (h & Ht & Hi); [rewrite El; set_solver|]. rewrite Ht.
      assert (Htell : idle (tell h CStart job) = false /\ busy (tell h CStart job) = true /\ pending (tell h CStart job) = true) by (destruct h as [[] [] ? ? [] ?]; done). destruct Htell as (T1 & T2 & T3).
      pose proof (inv_off s t h (tell h CStart job) (removelast (free s)) [] (nwork s + 1) (job :: accepted s) HI El Ht T1) as G. rewrite app_nil_r in G. apply G; [by rewrite T2|rewrite T2; done|].
      intros j. rewrite T3. cbn [occ andb tell t_job]. unfold b2z. destruct (decide (job = j)); [rewrite bool_decide_true by done|rewrite bool_decide_false by done]; lia.
    + case_decide; [done|]. destruct ok; [|done]. by apply inv_new.
  - destruct (ths s !! t) as [h|] eqn:Ht; [|done]. pose proof (i_wf _ HI _ _ Ht) as Hw. destruct h as [[] c j et [] k]; try done.
    eapply (inv_move s t _ _ _ _ HI Ht); try done; [cbn; lia|]. intros i. cbn [occ pending andb t_job]. unfold b2z. destruct (decide (j = i)); [rewrite bool_decide_true by done|rewrite bool_decide_false by done]; lia.
  - destruct (ths s !! t) as [h|] eqn:Ht; [|done]. pose proof (i_wf _ HI _ _ Ht) as Hw. destruct h as [[] c j et [] k]; try done.
    eapply (inv_move s t _ _ _ _ HI Ht); try done. cbn; lia.
  - destruct (ths s !! t) as [h|] eqn:Ht; [|done]. pose proof (i_wf _ HI _ _ Ht) as Hw. destruct h as [[] c j et [] k]; try done. by eapply inv_park.
  - destruct (ths s !! t) as [h|] eqn:Ht; [|done]. pose proof (i_wf _ HI _ _ Ht) as Hw. destruct h as [[] [] j et [] k]; try done.
    + eapply (inv_move s t _ _ _ _ HI Ht); try done; [cbn; lia|]. intros i. cbn [occ pending andb t_job]. unfold b2z. destruct (decide (j = i)); [rewrite bool_decide_true by done|rewrite bool_decide_false by done]; lia.
    + by eapply inv_del.
  - destruct (flush_ok min now (free s) s Hn HI eq_refl) as (pre & l' & m & -> & _ & HI2 & _). done.
  - destruct (close_ok (free s) s HI eq_refl) as (m & -> & HI2). by rewrite decide_True.
  - done.
Qed.
Lemma run_reach es : forall s, Forall normal es -> inv s -> match run step s es with Disabled => True | Crash => False | Ok s' _ => inv s' end.
Proof.
  induction es as [|e es IH]; intros s F HI; cbn [run]; [done|]. apply Forall_cons in F as [F1 F]. pose proof (inv_step s e F1 HI) as H. destruct (step s e) as [| |s1 o]; try done.
  specialize (IH s1 F H). destruct (run step s1 es); done.
Qed.
Lemma reach_inv s : reach s -> inv s.
Proof. intros (es & os & F & R). pose proof (run_reach es init F inv_init) as H. by rewrite R in H. Qed.

(** ** C50 *)
(** no schedule touches a freed thread record or fails an assertion *)
Theorem C50_safe : forall es, Forall normal es -> run step init es <> Crash.
Proof. intros es F H. pose proof (run_reach es init F inv_init) as G. by rewrite H in G. Qed.
(** the counters are the numbers of busy and of idle threads; the free list holds each idle thread once *)
Theorem C50_counters : forall s, reach s -> nwork s = cntm busy (ths s) /\ nfree s = cntm idle (ths s) /\ nfree s = Z.of_nat (length (free s)) /\
  NoDup (free s) /\ (forall t, t ∈ free s <-> exists h, ths s !! t = Some h /\ idle h = true).
Proof. intros s H. apply reach_inv in H. destruct H. done. Qed.
(** every accepted job is called at most once, and either has been called or is held by a thread that can call it now *)
Theorem C50_exactly_once : forall s, reach s -> NoDup (accepted s) ->
  NoDup (started s) /\ (forall j, j ∈ started s -> j ∈ accepted s) /\
  (forall j, j ∈ accepted s -> j ∈ started s \/ exists t e s', (e = Begin t \/ e = Take t) /\ step s e = Ok s' true /\ started s' = j :: started s).
Proof.
  intros s H HN. apply reach_inv in H. pose proof (i_jobs _ H) as J. split_and!.
  - apply occ_nodup. intros j. pose proof (proj1 (occ_nodup _) HN j). specialize (J j). pose proof (cntm_nonneg (λ h, pending h && bool_decide (t_job h = j)) (ths s)). lia.
  - intros j Hj. apply occ_in in Hj. apply occ_in. specialize (J j). pose proof (cntm_nonneg (λ h, pending h && bool_decide (t_job h = j)) (ths s)). lia.
  - intros j Hj. destruct (decide (j ∈ started s)) as [|Hs]; [by left|right]. apply occ_in in Hj. assert (O : occ j (started s) = 0) by (pose proof (occ_nonneg j (started s)); destruct (decide (0 < occ j (started s))) as [G|]; [by apply occ_in in G|lia]).
    specialize (J j). match type of J with _ = _ + ?c => assert (P : 0 < c) by lia end. apply cntm_pos in P as (t & h & Ht & Hp). apply andb_true_iff in Hp as [Hp Hq]. apply bool_decide_eq_true in Hq. exists t.
    destruct h as [[] [] j' et [] k]; try done; cbn in Hq; subst j'; (exists (Begin t); eexists; split_and!; [by left|cbn; by rewrite Ht|done]) || (exists (Take t); eexists; split_and!; [by right|cbn; by rewrite Ht|done]).
Qed.
(** kthread_flush: only threads idle for more than 60 seconds are told to end, those that became free first, at least
    min idle ones are left, and it stops only when no more than min are left or the longest free one is not expired *)
Theorem C50_flush : forall s min now s' o, reach s -> 0 <= min -> step s (Flush min now) = Ok s' o ->
  exists pre, free s = pre ++ free s' /\ Forall (expired now (ths s)) pre /\ (pre <> [] -> min <= nfree s') /\
    (forall t, t ∉ pre -> ths s' !! t = ths s !! t) /\ (forall t h, t ∈ pre -> ths s' !! t = Some h -> ending h = true) /\
    (nfree s' <= min \/ free s' = [] \/ exists t r, free s' = t :: r /\ ~ expired now (ths s) t).
Proof.
  intros s min now s' o H Hm. apply reach_inv in H. cbn [step]. destruct (flush_ok min now (free s) s Hm H eq_refl) as (pre & l' & m & -> & El & HI2 & P1 & P2 & P3 & P4 & P5).
  intros [= <- _]. exists pre. cbn. done.
Qed.
(** the free list is ordered by the time of parking; a new job goes to the thread that parked last *)
Theorem C50_order : forall s i k a b ha hb, reach s -> (i < k)%nat -> free s !! i = Some a -> free s !! k = Some b -> ths s !! a = Some ha -> ths s !! b = Some hb -> (t_stamp ha < t_stamp hb)%nat.
Proof. intros s i k a b ha hb H. apply reach_inv in H. by apply (i_sort _ H). Qed.
(** ending a thread that was told to, or parking one, is always possible, so told threads do end *)
Theorem C50_end : forall s t h, reach s -> ths s !! t = Some h -> ending h = true -> exists s', step s (Take t) = Ok s' true /\ ths s' !! t = None /\ t ∉ free s'.
Proof.
  intros s t h H Ht He. apply reach_inv in H. cbn [step]. rewrite Ht. destruct h as [[] [] ? ? [] ?]; try done. eexists. split_and!; [done|cbn; apply lookup_delete|]. cbn.
  intros G. apply (i_free _ H) in G as (h2 & G1 & G2). rewrite Ht in G1. by injection G1 as <-.
Qed.
(** limit: a SIGUSR2 from elsewhere makes an idle thread free its record while it is in the list *)
Theorem C50_foreign_signal_refuted : exists es, run step init (es ++ [ExtSig 7; Take 7; PoolStart 2 8 true]) = Crash /\ Forall normal es.
Proof. exists [PoolStart 1 7 true; Begin 7; Finish 7 0; Park 7]. split; [vm_compute; reflexivity|repeat constructor]. Qed.
(** limit: with a negative minimum the assertion in kthread_flush fails on an empty list *)
Theorem C50_negative_min_refuted : step init (Flush (-1) 0) = Crash.
Proof. reflexivity. Qed.
Example demo_threads : match run step init [PoolStart 1 7 true; PoolStart 2 8 true; Begin 8; Finish 8 100; Park 8; Begin 7; Finish 7 100; Park 7; Flush 1 161; Take 8; PoolStart 3 9 true; Take 7] with
  | Ok s os => (started s, nwork s, nfree s) = ([3;1;2]%nat, 1, 0) | _ => False end.
Proof. vm_compute. reflexivity. Qed.
