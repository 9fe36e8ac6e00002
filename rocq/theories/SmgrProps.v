(** C68: start-up, callbacks and shutdown of the selector manager. *)
From Verif Require Import SmgrModel.
Local Open Scope Z_scope.

(** * Specification *)
(** the user calls made on selector i's thread, in order *)
Definition on_sel (i : nat) (c : call) : bool := match c with CInit _ k _ | CReady _ k | CTimer _ k _ => Nat.eqb k i end.
Definition log (s : st) (i : nat) : list call := List.filter (on_sel i) (calls s).
Definition c_ready (c : call) : option nat := match c with CReady id _ => Some id | _ => None end.
Definition c_timer (c : call) : option nat := match c with CTimer id _ _ => Some id | _ => None end.
(** the on_ready callbacks that were called, the timers that fired *)
Definition called (s : st) : list nat := omap c_ready (calls s).
Definition fired (s : st) : list nat := omap c_timer (calls s).
(** the rules of use: until selector_manager_init is over only one thread uses the manager; the manager is
    closed when every selector's thread has begun and no callback is waiting, and not used after that *)
Definition normal (s : st) (e : ev) : Prop :=
  match e with
  | EOnReady w _ _ | EAddTimer w _ _ _ | EThreadInit w _ => closing s = false /\ (ip s = IDone \/ ip s = INo /\ w = Prog 0)
  | ETs w _ _ _ => closing s = false /\ ip s = IDone
  | EInit n => regs s = []
  | EGrow _ => closing s = false /\ ip s = IDone
  | EClose => started s = true /\ forall i x, sels s !! i = Some x -> (ph x = PRun \/ exists l, ph x = PInit l) /\ q x = []
  | _ => True
  end.
Inductive reachf (dbg : bool) (s0 : st) : list ev -> st -> Prop :=
| reach_nil : reachf dbg s0 [] s0
| reach_snoc tr s e s' o : reachf dbg s0 tr s -> normal s e -> step dbg s e = Ok s' o -> reachf dbg s0 (tr ++ [e]) s'.
Notation reach dbg t0 := (reachf dbg (init t0)).

(** * Invariant *)
Definition j_ready (b : job) : option nat := match b with JReady id => Some id | _ => None end.
Definition j_timer (b : job) : option nat := match b with JTimerReady id | JTimerNext id => Some id | _ => None end.
Definition r_job (p : who * reg) : option job := match p.2 with RReady j _ => Some j | _ => None end.
Definition r_id (p : who * reg) : option nat := match p.2 with RInit i _ => Some i | _ => None end.
Definition jobs (s : st) : list job := omap r_job (regs s) ++ ready s ++ concat (q <$> sels s).
Definition timers (s : st) : list nat := concat (tm <$> sels s).
Definition starts (l : list nat) (i : nat) : list call := (fun id => CInit id i false) <$> l.
Definition ends (l : list nat) (i : nat) : list call := (fun id => CInit id i true) <$> l.
Definition nocinit (l : list call) : Prop := forall c, c ∈ l -> match c with CInit _ _ _ => False | _ => True end.
(** where the thread of selector i is and what was called on it *)
Definition logok (ti : list nat) (i : nat) (l : list call) (p : phase) : Prop :=
  match p with
  | PNew | PStarted => l = []
  | PInit r => exists d, ti = d ++ r /\ l = starts d i
  | PRun => exists m, nocinit m /\ l = starts ti i ++ m
  | PExit r => exists d m, ti = d ++ r /\ nocinit m /\ l = starts ti i ++ m ++ ends d i
  | PGone => exists m, nocinit m /\ l = starts ti i ++ m ++ ends ti i
  end.
Record inv (s : st) : Prop := mkinv {
  i_regs : regs s = [] \/ ip s = INo /\ exists r, regs s = [(Prog 0, r)] /\ match r with RReady _ l => l = ready s | RInit _ l => l = tinit s end;
  i_no : ip s = INo -> sels s = [];
  i_early : ip s <> IDone -> closing s = false /\ started s = false;
  i_new : forall i x, sels s !! i = Some x -> (started s = false -> ph x = PNew) /\ (started s = true -> ph x <> PNew);
  i_log : forall i x, sels s !! i = Some x -> logok (tinit s) i (log s i) (ph x);
  i_nolog : forall i, sels s !! i = None -> log s i = [];
  i_close : closing s = true -> forall i x, sels s !! i = Some x -> ph x <> PStarted /\ ph x <> PNew /\ q x = [];
  i_open : closing s = false -> tabfree s = false /\ forall i x, sels s !! i = Some x -> fr x = false /\ (forall l, ph x <> PExit l) /\ ph x <> PGone;
  i_cs : closing s = true -> started s = true;
  i_fr : forall i x, sels s !! i = Some x -> fr x = true -> ph x = PGone;
  i_ready : ip s = IDone -> ready s = [];
  i_rnd : NoDup (rids s);
  i_r : rids s ≡ₚ called s ++ omap j_ready (jobs s);
  i_tnd : NoDup (tids s);
  i_t : tids s ≡ₚ fired s ++ omap j_timer (jobs s) ++ timers s;
  i_dl : forall id, id ∈ tids s -> is_Some (dl s !! id);
  i_ind : NoDup (iids s);
  i_i : iids s = reverse (tinit s) ++ omap r_id (regs s);
  i_call : forall id i t, CTimer id i t ∈ calls s -> t <= cur s /\ exists d, dl s !! id = Some d /\ d <= t;
}.
Lemma inv_init t0 : inv (init t0).
Proof. constructor; cbn; try done; try (by constructor); try (intros; by set_solver). Qed.
Ltac sm := cbn [sels ip ready tinit regs cur dl started closing tabfree calls rids tids iids s_sels s_ip s_ready s_tinit s_regs s_cur s_dl s_started s_closing s_tabfree s_calls s_rids s_tids s_iids upd note arm ph q tm fr addq addt setp] in *.

Lemma alter_ins {A} (f : A -> A) i (l : list A) x : l !! i = Some x -> alter f i l = <[i := f x]> l.
Proof. revert i. induction l as [|y l IH]; intros [|i]; cbn; [done..| |]; [by intros [= ->]|]. intros H. f_equal. by apply IH. Qed.
Lemma ins_split {A} i (l : list A) x y : l !! i = Some x -> exists a b, l = a ++ x :: b /\ length a = i /\ <[i := y]> l = a ++ y :: b.
Proof.
  intros H. exists (take i l), (drop (S i) l). pose proof (lookup_lt_Some _ _ _ H). split_and!; [by rewrite take_drop_middle|rewrite take_length; lia|]. by apply insert_take_drop.
Qed.
(** replacing a selector replaces its part of the concatenated queues *)
Lemma concat_ins {B} (g : sel -> list B) (l : list sel) i x y z : l !! i = Some x -> g y ≡ₚ g x ++ z -> concat (g <$> <[i := y]> l) ≡ₚ z ++ concat (g <$> l).
Proof.
  intros H G. destruct (ins_split i l x y H) as (a & b & -> & _ & ->). rewrite !fmap_app, !concat_app. cbn [fmap list_fmap concat]. rewrite G, <- app_assoc, (app_assoc (concat (g <$> a)) _ (z ++ _)), Permutation_app_swap_app.
  by rewrite <- app_assoc.
Qed.
Lemma concat_ins_same {B} (g : sel -> list B) (l : list sel) i x y : l !! i = Some x -> g y = g x -> concat (g <$> <[i := y]> l) = concat (g <$> l).
Proof. intros H G. destruct (ins_split i l x y H) as (a & b & -> & _ & ->). rewrite !fmap_app, !concat_app. cbn. by rewrite G. Qed.
Lemma concat_del {B} (g : sel -> list B) (l : list sel) i x y z : l !! i = Some x -> g x ≡ₚ g y ++ z -> concat (g <$> l) ≡ₚ z ++ concat (g <$> <[i := y]> l).
Proof.
  intros H G. destruct (ins_split i l x y H) as (a & b & -> & _ & ->). rewrite !fmap_app, !concat_app. cbn [fmap list_fmap concat]. rewrite G, <- app_assoc, (app_assoc (concat (g <$> a)) _ (z ++ _)), Permutation_app_swap_app.
  by rewrite <- app_assoc.
Qed.
Lemma omap_perm {A B} (f : A -> option B) (l k : list A) : l ≡ₚ k -> omap f l ≡ₚ omap f k.
Proof.
  induction 1 as [|x l k _ IH|x y l|l k m _ IH1 _ IH2]; [done| | |by rewrite IH1].
  - cbn. destruct (f x); [by constructor|done].
  - cbn. destruct (f x), (f y); try done. constructor.
Qed.

(** what concerns the callbacks: every registered one is waiting or was called, once *)
Definition book (s : st) : Prop :=
  NoDup (rids s) /\ rids s ≡ₚ called s ++ omap j_ready (jobs s) /\
  NoDup (tids s) /\ tids s ≡ₚ fired s ++ omap j_timer (jobs s) ++ timers s /\
  (forall id, id ∈ tids s -> is_Some (dl s !! id)) /\
  (forall id i t, CTimer id i t ∈ calls s -> t <= cur s /\ exists d, dl s !! id = Some d /\ d <= t).
Lemma inv_book s : inv s -> book s.
Proof. intros []. by split_and!. Qed.
(** what concerns one selector *)
Record selok (s : st) (i : nat) (x : sel) : Prop := mkselok {
  o_new : (started s = false -> ph x = PNew) /\ (started s = true -> ph x <> PNew);
  o_log : logok (tinit s) i (log s i) (ph x);
  o_close : closing s = true -> ph x <> PStarted /\ ph x <> PNew /\ q x = [];
  o_open : closing s = false -> fr x = false /\ (forall l, ph x <> PExit l) /\ ph x <> PGone;
  o_fr : fr x = true -> ph x = PGone;
}.
Lemma inv_selok s i x : inv s -> sels s !! i = Some x -> selok s i x.
Proof. intros HI Hx. destruct HI. constructor; [exact (i_new0 i x Hx)|exact (i_log0 i x Hx)|intros H; exact (i_close0 H i x Hx)|intros H; exact (proj2 (i_open0 H) i x Hx)|exact (i_fr0 i x Hx)]. Qed.
Lemma log_other s i c : on_sel i c = false -> List.filter (on_sel i) (calls s ++ [c]) = log s i.
Proof. intros E. rewrite List.filter_app. cbn. by rewrite E, app_nil_r. Qed.

(** a step that changes one selector *)
Lemma inv_sel s s' i x x' : inv s -> sels s !! i = Some x -> sels s' = <[i := x']> (sels s) ->
  (ip s', regs s', tinit s', started s', closing s', tabfree s', iids s') = (ip s, regs s, tinit s, started s, closing s, tabfree s, iids s) ->
  ready s' = ready s \/ regs s = [] /\ ip s <> IDone -> (forall k, k <> i -> log s' k = log s k) -> selok s' i x' -> book s' -> inv s'.
Proof.
  intros HI Hx Es Eq Er El Ho (B1 & B2 & B3 & B4 & B5 & B6). injection Eq as E1 E2 E4 E5 E6 E7 E8.
  assert (K: forall k y, sels s' !! k = Some y -> (k = i /\ y = x') \/ k <> i /\ sels s !! k = Some y).
  { intros k y. rewrite Es. destruct (decide (k = i)) as [->|Hk]; [|rewrite list_lookup_insert_ne by done; by right]. rewrite list_lookup_insert by (by eapply lookup_lt_Some). intros [= <-]. by left. }
  assert (O: forall k y, sels s' !! k = Some y -> selok s' k y).
  { intros k y Hk. destruct (K k y Hk) as [[-> ->]|[Hn Hy]]; [done|]. destruct (inv_selok s k y HI Hy) as [A1 A2 A3 A4 A5]. constructor; rewrite ?E5, ?E6, ?E4, ?El by done; done. }
  destruct HI. constructor; rewrite ?E1, ?E2, ?E4, ?E5, ?E6, ?E7, ?E8; try done.
  - destruct Er as [-> |[Er _]]; [done|by left].
  - intros Hi. specialize (i_no0 Hi). rewrite i_no0 in Hx. done.
  - intros k y Hk. destruct (O k y Hk) as [A1 _ _ _ _]. by rewrite E5 in A1.
  - intros k y Hk. destruct (O k y Hk) as [_ A2 _ _ _]. by rewrite E4 in A2.
  - intros k Hk. rewrite Es in Hk. assert (k <> i) by (intros ->; rewrite list_lookup_insert in Hk by (by eapply lookup_lt_Some); done). rewrite El by done. apply i_nolog0. by rewrite list_lookup_insert_ne in Hk.
  - intros Hc k y Hk. destruct (O k y Hk) as [_ _ A3 _ _]. rewrite E6 in A3. by apply A3.
  - intros Hc. split; [by apply i_open0|]. intros k y Hk. destruct (O k y Hk) as [_ _ _ A4 _]. rewrite E6 in A4. by apply A4.
  - intros k y Hk. by destruct (O k y Hk).
  - intros Hi. destruct Er as [-> |[_ Er]]; [by apply i_ready0|done].
Qed.
(** only the phase changes *)
Lemma book_same s s' i x x' : book s -> sels s !! i = Some x -> sels s' = <[i := x']> (sels s) -> q x' = q x -> tm x' = tm x ->
  (regs s', ready s', rids s', tids s', dl s', cur s') = (regs s, ready s, rids s, tids s, dl s, cur s) -> called s' = called s -> fired s' = fired s ->
  (forall id k t, CTimer id k t ∈ calls s' -> CTimer id k t ∈ calls s) -> book s'.
Proof.
  intros B Hx Es Eq Et [= E1 E2 E3 E4 E5 E6] Ec Ef Hc. unfold book, jobs, timers in *. rewrite E1, E2, E3, E4, E5, E6, Es, Ec, Ef, (concat_ins_same q _ i x x'), (concat_ins_same tm _ i x x') by done.
  destruct B as (B1 & B2 & B3 & B4 & B5 & B6). split_and!; try done. intros id k t Ht. by apply (B6 id k t), Hc.
Qed.
(** kgl_selector_module.next *)
Lemma next_inv j b s s' o : next j b s = Ok s' o -> exists x, sels s !! j = Some x /\ fr x = false /\ s' = s_sels (<[j := addq b x]> (sels s)) s /\ making s = false /\ tabfree s = false.
Proof.
  unfold next. destruct (making s), (tabfree s); try done. cbn [orb]. destruct (sels s !! j) as [x|] eqn:E; [|done]. destruct (fr x) eqn:F; [done|]. intros [= <- _]. exists x. split_and!; try done. unfold upd. f_equal. by apply alter_ins.
Qed.
Lemma omap_nil_app {A B} (f : A -> option B) l : omap f ([] ++ l) = omap f l. Proof. done. Qed.
Lemma jobs_next s j x b : sels s !! j = Some x -> jobs (s_sels (<[j := addq b x]> (sels s)) s) ≡ₚ b :: jobs s.
Proof.
  intros H. unfold jobs. sm. rewrite (concat_ins q _ j x (addq b x) [b] H) by (by unfold addq; sm).
  rewrite !(app_assoc (omap r_job (regs s))). apply (Permutation_app_swap_app _ [b]).
Qed.
Lemma timers_next s j x b : sels s !! j = Some x -> timers (s_sels (<[j := addq b x]> (sels s)) s) = timers s.
Proof. intros H. unfold timers. sm. by apply (concat_ins_same tm _ j x). Qed.
(** a job is put into a queue: [s1] is the state after the other effects of the call *)
Lemma inv_next s s1 j b s' o : inv s -> closing s = false -> next j b s1 = Ok s' o ->
  (sels s1, ip s1, regs s1, tinit s1, started s1, closing s1, tabfree s1, iids s1, calls s1) = (sels s, ip s, regs s, tinit s, started s, closing s, tabfree s, iids s, calls s) ->
  ready s1 = ready s \/ regs s = [] /\ ip s <> IDone ->
  (forall s2, jobs s2 ≡ₚ b :: jobs s1 -> timers s2 = timers s1 -> (rids s2, tids s2, dl s2, cur s2, calls s2) = (rids s1, tids s1, dl s1, cur s1, calls s1) -> book s2) -> inv s'.
Proof.
  intros HI Hc Hn [= E1 E2 E3 E4 E5 E6 E7 E8 E9] Er Hb. destruct (next_inv _ _ _ _ _ Hn) as (x & Hx & Hf & -> & _). rewrite E1 in Hx. pose proof (inv_selok s j x HI Hx) as [A1 A2 A3 A4 A5].
  eapply (inv_sel s _ j x (addq b x) HI Hx); sm; [by rewrite E1|congruence|done|..].
  - intros k Hk. unfold log. sm. by rewrite E9.
  - constructor; unfold log; sm; rewrite ?E4, ?E5, ?E6, ?E9; try done; congruence.
  - apply Hb; [apply jobs_next; by rewrite E1|apply timers_next; by rewrite E1|done].
Qed.
Lemma not_in_snoc {A} (l : list A) x : NoDup l -> x ∉ l -> NoDup (l ++ [x]).
Proof. intros H1 H2. apply NoDup_app. split_and!; [done|intros y Hy Hx; apply elem_of_list_singleton in Hx; by subst|apply NoDup_singleton]. Qed.
(** a new on_ready callback, a new timer, waiting somewhere *)
Lemma book_ready s s2 id : book s -> id ∉ rids s -> jobs s2 ≡ₚ JReady id :: jobs s -> timers s2 = timers s -> rids s2 = rids s ++ [id] ->
  (tids s2, dl s2, cur s2, calls s2) = (tids s, dl s, cur s, calls s) -> book s2.
Proof.
  intros (B1 & B2 & B3 & B4 & B5 & B6) Hn Hj Ht Hr [= E1 E2 E3 E4]. unfold book, called, fired in *. rewrite Hr, E1, E2, E3, E4, Ht.
  pose proof (omap_perm j_ready _ _ Hj) as J1. pose proof (omap_perm j_timer _ _ Hj) as J2. cbn [omap list_omap j_ready j_timer] in J1, J2. rewrite J1, J2. split_and!; try done.
  - by apply not_in_snoc.
  - rewrite B2. rewrite <- Permutation_cons_append. by rewrite Permutation_middle.
Qed.
Lemma book_timer s s2 id d : book s -> id ∉ tids s -> (exists b, j_ready b = None /\ j_timer b = Some id /\ jobs s2 ≡ₚ b :: jobs s /\ timers s2 = timers s) \/ jobs s2 = jobs s /\ timers s2 ≡ₚ id :: timers s ->
  tids s2 = tids s ++ [id] -> (rids s2, dl s2, cur s2, calls s2) = (rids s, <[id := d]> (dl s), cur s, calls s) -> book s2.
Proof.
  intros (B1 & B2 & B3 & B4 & B5 & B6) Hn Hj Ht [= E1 E2 E3 E4]. unfold book, called, fired in *. rewrite Ht, E1, E2, E3, E4.
  assert (J: omap j_ready (jobs s2) ≡ₚ omap j_ready (jobs s) /\ omap j_timer (jobs s2) ++ timers s2 ≡ₚ id :: omap j_timer (jobs s) ++ timers s).
  { destruct Hj as [(b & J1 & J2 & J3 & ->)|[-> ->]]; [|split; [done|by rewrite Permutation_middle]]. split.
    - rewrite (omap_perm j_ready _ _ J3). cbn [omap list_omap]. by rewrite J1.
    - rewrite (omap_perm j_timer _ _ J3). cbn [omap list_omap]. by rewrite J2. }
  destruct J as [J1 J2]. rewrite J1, J2. split_and!; try done.
  - by apply not_in_snoc.
  - rewrite B4, <- Permutation_cons_append. by rewrite Permutation_middle.
  - intros k Hk. destruct (decide (k = id)) as [->|Hne]; [rewrite lookup_insert; by eexists|]. rewrite lookup_insert_ne by done. apply B5. apply elem_of_app in Hk as [|Hk]; [done|]. by apply elem_of_list_singleton in Hk.
  - intros k i t Hk. destruct (B6 k i t Hk) as (H1 & d' & H2 & H3). split; [done|]. exists d'. split; [|done]. rewrite lookup_insert_ne; [done|]. intros <-. apply Hn. rewrite B4. apply elem_of_app. left. apply elem_of_list_omap. by eexists.
Qed.
(** a registration begins (the list head was read) *)
Lemma inv_reg s s' r : inv s -> ip s = INo -> regs s = [] -> regs s' = [(Prog 0, r)] -> (match r with RReady _ l => l = ready s | RInit _ l => l = tinit s end) ->
  (sels s', ip s', ready s', tinit s', started s', closing s', tabfree s', calls s', cur s') = (sels s, ip s, ready s, tinit s, started s, closing s, tabfree s, calls s, cur s) ->
  NoDup (iids s') -> iids s' = reverse (tinit s) ++ omap r_id (regs s') -> book s' -> inv s'.
Proof.
  intros HI Hi Hr Hr' Hl [= E1 E2 E3 E4 E5 E6 E7 E8 E9] N1 N2 (B1 & B2 & B3 & B4 & B5 & B6). destruct HI. unfold log in *. constructor; unfold log; rewrite ?E1, ?E2, ?E3, ?E4, ?E5, ?E6, ?E7, ?E8; try done.
  - right. split; [done|]. exists r. by rewrite Hr', ?E3, ?E4.
  - by rewrite E8 in B6.
Qed.
Lemma regging_main s : inv s -> regging s (Prog 0) = false -> ip s = INo -> regs s = [].
Proof.
  intros HI Hr Hi. destruct (i_regs _ HI) as [|(_ & r & Hr' & _)]; [done|]. unfold regging in Hr. rewrite Hr' in Hr. cbn in Hr. by rewrite bool_decide_true in Hr.
Qed.
Lemma regs_late s : inv s -> ip s <> INo -> regs s = [].
Proof. intros HI Hi. by destruct (i_regs _ HI) as [|(? & _)]. Qed.
Lemma orb3 a b c : negb a || b || c = false -> a = true /\ b = false /\ c = false.
Proof. by destruct a, b, c. Qed.
Lemma jobs_reg s w j l : regs s = [] -> jobs (s_regs (regs s ++ [(w, RReady j l)]) s) = j :: jobs s.
Proof. intros H. unfold jobs. sm. by rewrite H. Qed.

Lemma inv_onready dbg s w id j s' o : inv s -> normal s (EOnReady w id j) -> step dbg s (EOnReady w id j) = Ok s' o -> inv s'.
Proof.
  intros HI Hn E. pose proof (inv_book s HI) as HB. cbn [normal step] in *. destruct (negb (live s w) || _ || _) eqn:G; [done|]. apply orb3 in G as (_ & G1 & G2). apply bool_decide_eq_false in G2. destruct Hn as [Hc Hw]. unfold inited in E. sm.
  destruct Hw as [Hi|[Hi ->]]; rewrite Hi in E.
  - eapply (inv_next s _ _ _ _ _ HI Hc E); [by sm|by left|]. intros s2 J T. sm. intros [= E1 E2 E3 E4 E5]. eapply (book_ready s _ id); try done. congruence.
  - injection E as <- _. pose proof (regging_main s HI G1 Hi) as Hr. eapply (inv_reg s _ (RReady (JReady id) (ready s)) HI Hi Hr); sm; [by rewrite Hr|done|done|apply HI|rewrite Hr; rewrite (i_i _ HI), Hr; done|].
    eapply (book_ready s _ id HB G2); [|done..]. by rewrite <- (jobs_reg s (Prog 0) _ (ready s) Hr).
Qed.
Lemma inv_addtimer dbg s w id ms j s' o : inv s -> normal s (EAddTimer w id ms j) -> step dbg s (EAddTimer w id ms j) = Ok s' o -> inv s'.
Proof.
  intros HI Hn E. pose proof (inv_book s HI) as HB. cbn [normal step] in *. destruct (negb (live s w) || _ || _) eqn:G; [done|]. apply orb3 in G as (_ & G1 & G2). apply bool_decide_eq_false in G2. destruct Hn as [Hc Hw]. unfold inited in E. sm.
  destruct Hw as [Hi|[Hi ->]]; rewrite Hi in E.
  - eapply (inv_next s _ _ _ _ _ HI Hc E); [by sm|by left|]. intros s2 J T. sm. intros [= E1 E2 E3 E4 E5]. eapply (book_timer s _ id (cur s + ms)); try done; [left; by exists (JTimerNext id)|congruence].
  - injection E as <- _. pose proof (regging_main s HI G1 Hi) as Hr. eapply (inv_reg s _ (RReady (JTimerReady id) (ready s)) HI Hi Hr); sm; [by rewrite Hr|done|done|apply HI|rewrite Hr; rewrite (i_i _ HI), Hr; done|].
    eapply (book_timer s _ id (cur s + ms) HB G2); [|done..]. left. exists (JTimerReady id). split_and!; try done. unfold jobs. sm. by rewrite Hr.
Qed.
Lemma inv_ts dbg s w id ms j s' o : inv s -> normal s (ETs w id ms j) -> step dbg s (ETs w id ms j) = Ok s' o -> inv s'.
Proof.
  intros HI Hn E. pose proof (inv_book s HI) as HB. cbn [normal step] in *. destruct (negb (live s w) || _ || _) eqn:G; [done|]. apply orb3 in G as (G0 & G1 & G2). apply bool_decide_eq_false in G2. destruct Hn as [Hc Hi]. unfold inited in E. sm. rewrite Hi in E. cbn [negb] in E.
  case_bool_decide as Hw.
  - subst w. unfold live in G0. destruct (sels s !! j) as [x|] eqn:Hx; [|done]. injection E as <- _. pose proof (inv_selok s j x HI Hx) as [A1 A2 A3 A4 A5].
    assert (Es: sels (upd j (addt id) (arm id ms s)) = <[j := addt id x]> (sels s)) by (unfold upd, arm; sm; by rewrite (alter_ins _ _ _ x)).
    eapply (inv_sel s _ j x (addt id x) HI Hx Es); sm; [done|by left|done|constructor; done|].
    eapply (book_timer s _ id (cur s + ms) HB G2); [|done..]. right. unfold jobs, timers. sm. rewrite (alter_ins _ _ _ x Hx). split; [by rewrite (concat_ins_same q _ j x)|]. by apply (concat_ins tm _ j x _ [id]).
  - eapply (inv_next s _ _ _ _ _ HI Hc E); [by sm|by left|]. intros s2 J T. sm. intros [= E1 E2 E3 E4 E5]. eapply (book_timer s _ id (cur s + ms)); try done; [left; by exists (JTimerNext id)|congruence].
Qed.
Lemma inv_tinit dbg s w id s' o : inv s -> normal s (EThreadInit w id) -> step dbg s (EThreadInit w id) = Ok s' o -> inv s'.
Proof.
  intros HI Hn E. pose proof (inv_book s HI) as HB. cbn [normal step] in *. destruct (negb (live s w) || _ || _) eqn:G; [done|]. apply orb3 in G as (_ & G1 & G2). apply bool_decide_eq_false in G2. destruct Hn as [Hc Hw]. unfold inited in E. sm.
  destruct Hw as [Hi|[Hi ->]]; rewrite Hi in E; [by injection E as <- _|].
  injection E as <- _. pose proof (regging_main s HI G1 Hi) as Hr. eapply (inv_reg s _ (RInit id (tinit s)) HI Hi Hr); sm; [by rewrite Hr|done|done|apply not_in_snoc; [apply HI|done]| |].
  - rewrite Hr. rewrite (i_i _ HI), Hr. cbn. by rewrite app_nil_r.
  - destruct HB as (B1 & B2 & B3 & B4 & B5 & B6). assert (J: jobs (s_regs (regs s ++ [(Prog 0, RInit id (tinit s))]) (s_iids (iids s ++ [id]) s)) = jobs s) by (unfold jobs; sm; by rewrite Hr).
    unfold book. rewrite J. by split_and!.
Qed.
Lemma inv_regw dbg s w s' o : inv s -> step dbg s (ERegW w) = Ok s' o -> inv s'.
Proof.
  intros HI E. cbn [step] in E. destruct (i_regs _ HI) as [Hr|(Hi & r & Hr & Hl)]; rewrite Hr in E; [done|]. cbn [list_find fst snd] in E. destruct (decide (Prog 0 = w)); [|done]. cbn in E.
  pose proof (inv_book s HI) as (B1 & B2 & B3 & B4 & B5 & B6). pose proof (i_i _ HI) as Ii. pose proof (i_no _ HI Hi) as Hs. rewrite Hr in Ii. destruct HI. unfold log in *. destruct r as [b l|id l]; subst l; injection E as <- _; rewrite Hr in *.
  - assert (J: jobs (s_ready (b :: ready s) (s_regs [] s)) = jobs s) by (unfold jobs; sm; by rewrite Hr).
    constructor; unfold log; rewrite ?J; sm; try done; [by left|congruence].
  - assert (J: jobs (s_tinit (id :: tinit s) (s_regs [] s)) = jobs s) by (unfold jobs; sm; by rewrite Hr).
    constructor; unfold log; rewrite ?J; sm; try done; [by left| |rewrite app_nil_r; by rewrite reverse_cons]. intros i x. by rewrite Hs.
Qed.
Lemma inv_mgr dbg s e s' o : inv s -> normal s e -> step dbg s e = Ok s' o -> match e with EInit _ | EMake | EDrain _ | EInitEnd | EStart | EGrow _ | ETick _ | EClose | EFreeTab => True | _ => False end -> inv s'.
Proof.
  intros HI Hn E. pose proof (inv_book s HI) as HB. destruct e as [| | | | |n| |j| | |n| | | | |d| | | |]; intros HE; try done; clear HE; cbn [step normal] in *.
  - destruct (ip s) eqn:Hi; try done. injection E as <- _. destruct HI. unfold log in *. constructor; unfold log; sm; try done; [by left|]. intros _. apply i_early0. by rewrite Hi.
  - destruct (ip s) as [|[|n]| |] eqn:Hi; try done; injection E as <- _.
    + destruct HI. unfold log in *. constructor; unfold log; sm; try done; [left; destruct i_regs0 as [|[? _]]; congruence|]. intros _. apply i_early0. by rewrite Hi.
    + destruct (i_early _ HI) as [Ec Es]; [by rewrite Hi|]. assert (J: jobs (s_ip (IMake n) (s_sels (sels s ++ [mksel PNew [] [] false]) s)) = jobs s).
      { unfold jobs. sm. rewrite fmap_app, concat_app. cbn. by rewrite app_nil_r. }
      assert (T: timers (s_ip (IMake n) (s_sels (sels s ++ [mksel PNew [] [] false]) s)) = timers s).
      { unfold timers. sm. rewrite fmap_app, concat_app. cbn. by rewrite app_nil_r. }
      assert (L: forall k y, (sels s ++ [mksel PNew [] [] false]) !! k = Some y -> sels s !! k = Some y \/ sels s !! k = None /\ y = mksel PNew [] [] false).
      { intros k y Hk. apply lookup_app_Some in Hk as [?|[Hk1 Hk2]]; [by left|]. right. apply list_lookup_singleton_Some in Hk2 as [_ ->]. split; [by apply lookup_ge_None|done]. }
      destruct HI. unfold log in *. constructor; unfold log; rewrite ?J, ?T; sm; try done.
      * left. destruct i_regs0 as [|[? _]]; congruence.
      * intros k y Hk. destruct (L k y Hk) as [Hk2|[_ ->]]; [by eapply i_new0|]. split; [done|]. congruence.
      * intros k y Hk. destruct (L k y Hk) as [Hk2|[Hk2 ->]]; [by eapply i_log0|]. by apply i_nolog0.
      * intros k Hk. apply i_nolog0. apply lookup_ge_None in Hk. apply lookup_ge_None. rewrite app_length in Hk. lia.
      * congruence.
      * intros _. split; [by apply i_open0|]. intros k y Hk. destruct (L k y Hk) as [Hk2|[_ ->]]; [by eapply (proj2 (i_open0 Ec))|done].
      * intros k y Hk Hf. destruct (L k y Hk) as [Hk2|[_ ->]]; [by eapply i_fr0|done].
  - destruct (ip s) eqn:Hi; try done. destruct (ready s) as [|b l] eqn:Hr; [done|]. destruct (i_early _ HI) as [Ec Es]; [by rewrite Hi|]. assert (Hg: regs s = []) by (apply regs_late; congruence).
    eapply (inv_next s _ _ _ _ _ HI Ec E); [by sm|right; split; [done|congruence]|]. intros s2 J T. sm. intros [= E1 E2 E3 E4 E5].
    assert (J2: jobs s2 ≡ₚ jobs s) by (rewrite J; unfold jobs; sm; by rewrite Hg, Hr). destruct HB as (B1 & B2 & B3 & B4 & B5 & B6). unfold book, called, fired in *. rewrite E1, E2, E3, E4, E5, T.
    change (timers (s_ready l s)) with (timers s). rewrite (omap_perm j_ready _ _ J2), (omap_perm j_timer _ _ J2). by split_and!.
  - destruct (ip s) eqn:Hi; try done. destruct (ready s) eqn:Hr; [|done]. injection E as <- _. destruct (i_early _ HI) as [Ec Es]; [by rewrite Hi|]. assert (Hg: regs s = []) by (apply regs_late; congruence). destruct HI. unfold log in *. constructor; unfold log; sm; try done. by left.
  - destruct (ip s) eqn:Hi; try done. destruct (started s) eqn:Hs; [done|]. injection E as <- _.
    assert (Q: forall {B} (g : sel -> list B), (forall x p, g (setp p x) = g x) -> concat (g <$> (setp PStarted <$> sels s)) = concat (g <$> sels s)) by (intros B g Hg; rewrite <- list_fmap_compose; f_equal; apply list_fmap_ext; intros; apply Hg).
    assert (J: jobs (s_started true (s_sels (setp PStarted <$> sels s) s)) = jobs s) by (unfold jobs; sm; by rewrite Q).
    assert (T: timers (s_started true (s_sels (setp PStarted <$> sels s) s)) = timers s) by (unfold timers; sm; by rewrite Q).
    assert (L: forall k y, (setp PStarted <$> sels s) !! k = Some y -> exists x, sels s !! k = Some x /\ y = setp PStarted x /\ ph x = PNew).
    { intros k y Hk. rewrite list_lookup_fmap in Hk. destruct (sels s !! k) as [x|] eqn:Hx; [|done]. injection Hk as <-. exists x. split_and!; [done..|]. by apply (proj1 (i_new _ HI k x Hx)). }
    assert (Ec: closing s = false) by (destruct (closing s) eqn:Ec; [|done]; apply (i_cs _ HI) in Ec; congruence).
    destruct HI. unfold log in *. constructor; unfold log; rewrite ?J, ?T; sm; try done.
    + intros Hx. congruence.
    + intros k y Hk. destruct (L k y Hk) as (x & Hx & -> & _). done.
    + intros k y Hk. destruct (L k y Hk) as (x & Hx & -> & Hp). specialize (i_log0 k x Hx). rewrite Hp in i_log0. exact i_log0.
    + intros k Hk. apply i_nolog0. rewrite list_lookup_fmap in Hk. by destruct (sels s !! k).
    + congruence.
    + intros _. split; [by apply i_open0|]. intros k y Hk. destruct (L k y Hk) as (x & Hx & -> & Hp). sm. split; [|done]. by apply (proj2 (i_open0 Ec) k x).
    + intros k y Hk Hf. destruct (L k y Hk) as (x & Hx & -> & Hp). sm. specialize (i_fr0 k x Hx Hf). congruence.
  - destruct Hn as [Hc Hi]. destruct (negb _) eqn:G; [done|]. destruct (bool_decide _ || bool_decide _) eqn:G2; [by injection E as <- _|]. injection E as <- _.
    apply negb_false_iff in G. unfold live in G. destruct (sels s !! 0%nat) as [x0|] eqn:H0; [|done].
    assert (Hs: started s = true). { destruct (started s) eqn:Hs; [done|]. destruct (i_new _ HI _ _ H0) as [Hp _]. rewrite Hp in G by done. done. }
    assert (Q: forall {B} (g : sel -> list B) k, g (mksel PStarted [] [] false) = [] -> concat (g <$> (sels s ++ replicate k (mksel PStarted [] [] false))) = concat (g <$> sels s)).
    { intros B g k Hg. rewrite fmap_app, concat_app. assert (concat (g <$> replicate k (mksel PStarted [] [] false)) = []) as ->; [|by rewrite app_nil_r]. induction k as [|k IH]; [done|]. cbn. rewrite Hg. exact IH. }
    set (k := (n - length (sels s))%nat) in *.
    assert (J: jobs (s_sels (sels s ++ replicate k (mksel PStarted [] [] false)) s) = jobs s) by (unfold jobs; sm; by rewrite Q).
    assert (T: timers (s_sels (sels s ++ replicate k (mksel PStarted [] [] false)) s) = timers s) by (unfold timers; sm; by rewrite Q).
    assert (L: forall i y, (sels s ++ replicate k (mksel PStarted [] [] false)) !! i = Some y -> sels s !! i = Some y \/ sels s !! i = None /\ y = mksel PStarted [] [] false).
    { intros i y Hk. apply lookup_app_Some in Hk as [?|[Hk1 Hk2]]; [by left|]. right. apply lookup_replicate in Hk2 as [-> _]. split; [by apply lookup_ge_None|done]. }
    destruct HI. unfold log in *. constructor; unfold log; rewrite ?J, ?T; sm; try done.
    + congruence.
    + intros i y Hk. destruct (L i y Hk) as [Hk2|[_ ->]]; [by eapply i_new0|]. split; [|done]. congruence.
    + intros i y Hk. destruct (L i y Hk) as [Hk2|[Hk2 ->]]; [by eapply i_log0|]. by apply i_nolog0.
    + intros i Hk. apply i_nolog0. apply lookup_ge_None in Hk. apply lookup_ge_None. rewrite app_length in Hk. lia.
    + congruence.
    + intros _. split; [by apply i_open0|]. intros i y Hk. destruct (L i y Hk) as [Hk2|[_ ->]]; [by eapply (proj2 (i_open0 Hc))|done].
    + intros i y Hk Hf. destruct (L i y Hk) as [Hk2|[_ ->]]; [by eapply i_fr0|done].
  - injection E as <- _. destruct HI. unfold log in *. constructor; unfold log; sm; try done. intros id i t Ht. destruct (i_call0 id i t Ht) as [H1 H2]. split; [lia|done].
  - destruct (inited s); [|done]. injection E as <- _. destruct Hn as [Hs Hn]. destruct HI. unfold log in *. constructor; unfold log; sm; try done.
    + intros Hi. destruct (i_early0 Hi). congruence.
    + intros _ i x Hx. destruct (Hn i x Hx) as [[->|[l ->]] ->]; done.
  - destruct (closing s) eqn:Hc; [|done]. destruct (forallb _ _); [|done]. injection E as <- _. destruct HI. unfold log in *. constructor; unfold log; sm; try done. congruence.
Qed.
Lemma nocinit_snoc m c : nocinit m -> match c with CInit _ _ _ => False | _ => True end -> nocinit (m ++ [c]).
Proof. intros H1 H2 d Hd. apply elem_of_app in Hd as [Hd|Hd]; [by apply H1|]. apply elem_of_list_singleton in Hd. by subst. Qed.
Lemma log_snoc s c k : log (note c s) k = log s k ++ (if on_sel k c then [c] else []).
Proof. unfold log. sm. rewrite List.filter_app. cbn. by destruct (on_sel k c). Qed.
Lemma called_snoc s c : called (note c s) = called s ++ omap c_ready [c].
Proof. unfold called. sm. by rewrite omap_app. Qed.
Lemma fired_snoc s c : fired (note c s) = fired s ++ omap c_timer [c].
Proof. unfold fired. sm. by rewrite omap_app. Qed.
Lemma on_other i k : k <> i -> Nat.eqb i k = false. Proof. intros H. apply Nat.eqb_neq. congruence. Qed.
(** the phase of a selector changes, perhaps with a thread_init call *)
Lemma inv_phase s i x p cs : inv s -> sels s !! i = Some x -> (cs = [] \/ exists id b, cs = [CInit id i b]) ->
  selok (s_calls (calls s ++ cs) (s_sels (<[i := setp p x]> (sels s)) s)) i (setp p x) -> inv (s_calls (calls s ++ cs) (s_sels (<[i := setp p x]> (sels s)) s)).
Proof.
  intros HI Hx Hc Ho. eapply (inv_sel s _ i x (setp p x) HI Hx); sm; [done|done|by left| |done|].
  - intros k Hk. unfold log. sm. rewrite List.filter_app. destruct Hc as [->|(id & b & ->)]; cbn; [by rewrite app_nil_r|]. rewrite on_other by done. by rewrite app_nil_r.
  - eapply (book_same s _ i x (setp p x) (inv_book s HI) Hx); sm; try done.
    + unfold called. sm. rewrite omap_app. destruct Hc as [->|(id & b & ->)]; cbn; by rewrite app_nil_r.
    + unfold fired. sm. rewrite omap_app. destruct Hc as [->|(id & b & ->)]; cbn; by rewrite app_nil_r.
    + intros id k t Ht. apply elem_of_app in Ht as [|Ht]; [done|]. destruct Hc as [->|(id' & b & ->)]; [by apply elem_of_nil in Ht|]. by apply elem_of_list_singleton in Ht.
Qed.
Lemma calls_nil s : s_calls (calls s ++ []) s = s. Proof. rewrite app_nil_r. by destruct s. Qed.
Lemma upd_ins i f s x : sels s !! i = Some x -> upd i f s = s_sels (<[i := f x]> (sels s)) s.
Proof. intros H. unfold upd. by rewrite (alter_ins _ _ _ x). Qed.
Lemma starts_snoc d id i : starts (d ++ [id]) i = starts d i ++ [CInit id i false]. Proof. unfold starts. by rewrite fmap_app. Qed.
Lemma ends_snoc d id i : ends (d ++ [id]) i = ends d i ++ [CInit id i true]. Proof. unfold ends. by rewrite fmap_app. Qed.

Lemma inv_thread dbg s e s' o : inv s -> step dbg s e = Ok s' o -> match e with EBegin _ | ECb _ | EExit _ | EDestroy _ => True | _ => False end -> inv s'.
Proof.
  intros HI E. destruct e as [| | | | | | | | | | |i|i| | | | |i|i|]; intros HE; try done; clear HE; cbn [step] in E.
  - destruct (sels s !! i) as [x|] eqn:Hx; [|done]. pose proof (inv_selok s i x HI Hx) as [A1 A2 A3 A4 A5]. destruct (ph x) eqn:Hp; try done. destruct (fr x) eqn:Hf; [done|]. injection E as <- _. rewrite (upd_ins _ _ _ x Hx).
    rewrite <- (calls_nil (s_sels _ s)). apply (inv_phase s i x); [done|done|by left|]. constructor; unfold log in *; sm; rewrite ?app_nil_r, ?Hf; try done.
    + split; [|done]. intros Hs. apply A1 in Hs. congruence.
    + cbn [logok] in *. exists []. by rewrite A2.
    + intros Hc. destruct (A3 Hc) as (? & _). done.
  - destruct (sels s !! i) as [x|] eqn:Hx; [|done]. pose proof (inv_selok s i x HI Hx) as [A1 A2 A3 A4 A5]. unfold log in A2. destruct (ph x) as [| |[|id l]| |[|id l]|] eqn:Hp; try done.
    + injection E as <- _. rewrite (upd_ins _ _ _ x Hx). rewrite <- (calls_nil (s_sels _ s)). apply (inv_phase s i x); [done|done|by left|]. constructor; unfold log in *; sm; rewrite ?app_nil_r; try done.
      * split; [|done]. intros Hs. by apply A1 in Hs.
      * cbn [logok] in *. destruct A2 as (d & -> & ->). exists []. rewrite !app_nil_r. by split; [intros c Hc; apply elem_of_nil in Hc|].
      * intros Hc. by destruct (A3 Hc) as (_ & _ & ?).
      * intros Hc. by destruct (A4 Hc) as (? & _).
      * intros Hf. apply A5 in Hf. congruence.
    + injection E as <- _. rewrite (upd_ins _ _ _ x Hx). apply (inv_phase s i x); [done|done|right; by eexists _, _|]. constructor; unfold log in *; sm; try done.
      * split; [|done]. intros Hs. by apply A1 in Hs.
      * cbn [logok] in *. destruct A2 as (d & -> & A2). rewrite List.filter_app, A2. cbn. rewrite Nat.eqb_refl. exists (d ++ [id]). split; [by rewrite <- app_assoc|]. by rewrite starts_snoc.
      * intros Hc. by destruct (A3 Hc) as (_ & _ & ?).
      * intros Hc. by destruct (A4 Hc) as (? & _).
      * intros Hf. apply A5 in Hf. congruence.
    + destruct (fr x) eqn:Hf; [done|]. injection E as <- _. rewrite (upd_ins _ _ _ x Hx). rewrite <- (calls_nil (s_sels _ s)). apply (inv_phase s i x); [done|done|by left|]. constructor; unfold log in *; sm; rewrite ?app_nil_r, ?Hf; try done.
      * split; [|done]. intros Hs. by apply A1 in Hs.
      * cbn [logok] in *. destruct A2 as (d & m & -> & M & ->). exists m. rewrite app_nil_r. by split.
      * intros Hc. by destruct (A3 Hc) as (_ & _ & ?).
      * intros Hc. destruct (A4 Hc) as (_ & Hn & _). by destruct (Hn []).
    + injection E as <- _. rewrite (upd_ins _ _ _ x Hx). apply (inv_phase s i x); [done|done|right; by eexists _, _|]. constructor; unfold log in *; sm; try done.
      * split; [|done]. intros Hs. by apply A1 in Hs.
      * cbn [logok] in *. destruct A2 as (d & m & -> & M & A2). rewrite List.filter_app, A2. cbn. rewrite Nat.eqb_refl. exists (d ++ [id]), m. split; [by rewrite <- app_assoc|]. split; [done|]. by rewrite ends_snoc, <- !app_assoc.
      * intros Hc. by destruct (A3 Hc) as (_ & _ & ?).
      * intros Hc. destruct (A4 Hc) as (_ & Hn & _). by destruct (Hn (id :: l)).
      * intros Hf. apply A5 in Hf. congruence.
  - destruct (sels s !! i) as [x|] eqn:Hx; [|done]. pose proof (inv_selok s i x HI Hx) as [A1 A2 A3 A4 A5]. unfold log in A2. destruct (ph x) eqn:Hp; try done. destruct (dbg && closing s && _) eqn:G; [|done]. apply andb_prop in G as [G G2]. apply andb_prop in G as [_ G].
    injection E as <- _. rewrite (upd_ins _ _ _ x Hx). rewrite <- (calls_nil (s_sels _ s)). apply (inv_phase s i x); [done|done|by left|]. constructor; unfold log in *; sm; rewrite ?app_nil_r; try done.
    + split; [|done]. intros Hs. by apply A1 in Hs.
    + cbn [logok] in *. destruct A2 as (m & M & ->). exists [], m. by rewrite app_nil_r.
    + intros Hc. by destruct (A3 Hc) as (_ & _ & ?).
    + congruence.
    + intros Hf. apply A5 in Hf. congruence.
  - destruct (closing s) eqn:Hc; [|done]. destruct (sels s !! i) as [x|] eqn:Hx; [|done]. pose proof (inv_selok s i x HI Hx) as [A1 A2 A3 A4 A5]. unfold log in A2. destruct (fr x); [done|]. destruct (A3 Hc) as (P1 & P2 & P3). destruct (ph x) eqn:Hp; try done. injection E as <- _.
    rewrite (upd_ins _ _ _ x Hx). eapply (inv_sel s _ i x _ HI Hx); [reflexivity|done|by left|done| |].
    + constructor; unfold log in *; sm; try done; rewrite ?Hp; try done. congruence.
    + eapply (book_same s _ i x _ (inv_book s HI) Hx); [reflexivity|done..].
Qed.
Lemma deladd (l : list job) k b : l !! k = Some b -> l ≡ₚ b :: delete k l.
Proof. intros H. by apply delete_Permutation. Qed.
Lemma inv_run dbg s i k j s' o : inv s -> step dbg s (ERun i k j) = Ok s' o -> inv s'.
Proof.
  intros HI E. cbn [step] in E. destruct (sels s !! i) as [x|] eqn:Hx; [|done]. destruct (ph x) eqn:Hp; try done. destruct (q x !! k) as [b|] eqn:Hk; [|done]. destruct (fr x) eqn:Hf; [done|].
  pose proof (inv_selok s i x HI Hx) as [A1 A2 A3 A4 A5]. unfold log in A2. rewrite Hp in *. pose proof (inv_book s HI) as HB. rewrite (upd_ins i _ s x Hx) in E. set (x1 := mksel (ph x) (delete k (q x)) (tm x) (fr x)) in *. set (s1 := s_sels (<[i := x1]> (sels s)) s) in *.
  assert (Hx1: sels s1 !! i = Some x1) by (unfold s1; sm; by rewrite list_lookup_insert by (by eapply lookup_lt_Some)).
  assert (Hc: closing s = false). { destruct (closing s); [|done]. destruct (A3 eq_refl) as (_ & _ & Hq). by rewrite Hq in Hk. }
  assert (Q: concat (q <$> sels s) ≡ₚ b :: concat (q <$> <[i := x1]> (sels s))).
  { apply (concat_del q (sels s) i x x1 [b] Hx). unfold x1. sm. rewrite (deladd _ _ _ Hk) at 1. apply Permutation_cons_append. }
  assert (T: concat (tm <$> <[i := x1]> (sels s)) = concat (tm <$> sels s)) by (by apply (concat_ins_same tm _ i x)).
  assert (J: jobs s ≡ₚ b :: jobs s1). { unfold jobs, s1. sm. rewrite Q. rewrite !(app_assoc (omap r_job (regs s))). by rewrite <- Permutation_middle. }
  destruct (A4 Hc) as (_ & N1 & N2). destruct b as [id|id|id].
  - injection E as <- _. eapply (inv_sel s _ i x x1 HI Hx); sm; [done|done|by left| | |].
    + intros n Hn. unfold log. unfold s1. sm. rewrite List.filter_app. cbn. rewrite on_other by done. by rewrite app_nil_r.
    + constructor; unfold log, s1, x1 in *; sm; rewrite ?Hp; try done; try congruence. cbn [logok] in *. destruct A2 as (m & M & A2). exists (m ++ [CReady id i]). split; [by apply nocinit_snoc|]. rewrite List.filter_app, A2. cbn. by rewrite Nat.eqb_refl, app_assoc.
    + destruct HB as (B1 & B2 & B3 & B4 & B5 & B6). unfold book. change (jobs (note (CReady id i) s1)) with (jobs s1). rewrite called_snoc, fired_snoc. change (timers (note (CReady id i) s1)) with (concat (tm <$> <[i := x1]> (sels s))). rewrite T.
      rewrite (omap_perm j_ready _ _ J) in B2. rewrite (omap_perm j_timer _ _ J) in B4. cbn [omap list_omap j_ready j_timer c_ready c_timer] in *. rewrite app_nil_r. split_and!; try done.
      * rewrite <- app_assoc. exact B2.
      * intros id' i' t Ht. unfold s1 in Ht. sm. apply elem_of_app in Ht as [Ht|Ht]; [by apply (B6 id' i' t)|]. by apply elem_of_list_singleton in Ht.
  - (* next on a state that has lost the job *)
    destruct (next_inv _ _ _ _ _ E) as (y & Hy & Hfy & -> & _ & _). set (y' := addq (JTimerNext id) y) in *.
    assert (J2: jobs (s_sels (<[j := y']> (sels s1)) s1) ≡ₚ JTimerNext id :: jobs s1) by (by apply jobs_next).
    assert (T2: timers (s_sels (<[j := y']> (sels s1)) s1) = timers s) by (unfold y'; rewrite timers_next by done; exact T).
    assert (B: forall s2, jobs s2 ≡ₚ JTimerNext id :: jobs s1 -> timers s2 = timers s -> (rids s2, tids s2, dl s2, cur s2, calls s2) = (rids s, tids s, dl s, cur s, calls s) -> book s2).
    { intros s2 J3 T3 [= E1 E2 E3 E4 E5]. destruct HB as (B1 & B2 & B3 & B4 & B5 & B6). unfold book, called, fired in *. rewrite E1, E2, E3, E4, E5, T3. rewrite (omap_perm j_ready _ _ J) in B2. rewrite (omap_perm j_timer _ _ J) in B4.
      rewrite (omap_perm j_ready _ _ J3), (omap_perm j_timer _ _ J3). cbn [omap list_omap j_ready j_timer] in *. by split_and!. }
    destruct (decide (j = i)) as [->|Hj].
    + rewrite Hx1 in Hy. injection Hy as <-. eapply (inv_sel s _ i x y' HI Hx); [unfold s1; sm; by rewrite list_insert_insert|done|by left|done| |by apply B].
      constructor; unfold log, s1, y', x1 in *; sm; rewrite ?Hp; try done; try congruence.
    + assert (Hy0: sels s !! j = Some y) by (unfold s1 in Hy; sm; by rewrite list_lookup_insert_ne in Hy).
      pose proof (inv_selok s j y HI Hy0) as [C1 C2 C3 C4 C5]. unfold log in C2.
      (* two selectors change *)
      assert (Em: s_sels (<[j := y']> (sels s1)) s1 = s_sels (<[i := x1]> (<[j := y']> (sels s))) s). { unfold s1. sm. by rewrite list_insert_commute. }
      rewrite Em in *. destruct HI.
      assert (K: forall n z, <[i := x1]> (<[j := y']> (sels s)) !! n = Some z -> (n = i /\ z = x1) \/ (n = j /\ z = y') \/ sels s !! n = Some z).
      { intros n z. destruct (decide (n = i)) as [->|Hn]; [rewrite list_lookup_insert by (rewrite insert_length; by eapply lookup_lt_Some); intros [= <-]; by left|]. rewrite list_lookup_insert_ne by done.
        destruct (decide (n = j)) as [->|Hn2]; [rewrite list_lookup_insert by (by eapply lookup_lt_Some); intros [= <-]; right; by left|]. rewrite list_lookup_insert_ne by done. by right; right. }
      destruct (B _ J2 T2 eq_refl) as (B1 & B2 & B3 & B4 & B5 & B6).
      constructor; unfold log in *; sm; try done.
      * intros Hi. by rewrite i_no0 in Hx.
      * intros n z Hz. destruct (K n z Hz) as [[-> ->]|[[-> ->]|Hz2]]; [|exact (i_new0 j y Hy0)|by eapply i_new0]. unfold x1. sm. rewrite Hp. exact A1.
      * intros n z Hz. destruct (K n z Hz) as [[-> ->]|[[-> ->]|Hz2]]; [|exact (i_log0 j y Hy0)|by eapply i_log0]. unfold x1. sm. rewrite Hp. exact A2.
      * intros n Hn. apply i_nolog0. apply lookup_ge_None in Hn. apply lookup_ge_None. by rewrite !insert_length in Hn.
      * congruence.
      * intros _. split; [by apply i_open0|]. intros n z Hz. destruct (K n z Hz) as [[-> ->]|[[-> ->]|Hz2]]; [|exact (proj2 (i_open0 Hc) j y Hy0)|by eapply (proj2 (i_open0 Hc))]. unfold x1. sm. rewrite Hp, Hf. done.
      * intros n z Hz Hzf. destruct (K n z Hz) as [[-> ->]|[[-> ->]|Hz2]]; [|exact (i_fr0 j y Hy0 Hzf)|by eapply i_fr0]. unfold x1 in Hzf. sm. congruence.
  - rewrite (upd_ins i _ s1 x1 Hx1) in E. injection E as <- _. eapply (inv_sel s _ i x (addt id x1) HI Hx); [unfold s1; sm; by rewrite list_insert_insert|done|by left|done| |].
    + constructor; unfold log, s1, x1 in *; sm; rewrite ?Hp; try done; try congruence.
    + destruct HB as (B1 & B2 & B3 & B4 & B5 & B6). rewrite (omap_perm j_ready _ _ J) in B2. rewrite (omap_perm j_timer _ _ J) in B4. cbn [omap list_omap j_ready j_timer] in *.
      assert (J2: jobs (s_sels (<[i := addt id x1]> (sels s1)) s1) = jobs s1). { unfold jobs. sm. by rewrite (concat_ins_same q _ i x1). }
      assert (T2: timers (s_sels (<[i := addt id x1]> (sels s1)) s1) ≡ₚ id :: timers s). { unfold timers. sm. rewrite (concat_ins tm _ i x1 _ [id]) by done. unfold s1. sm. by rewrite T. }
      change (book (s_sels (<[i := addt id x1]> (sels s1)) s1)). unfold book. rewrite J2, T2. split_and!; try done. change (tids s ≡ₚ fired s ++ omap j_timer (jobs s1) ++ id :: timers s). rewrite B4. apply Permutation_app_head. apply Permutation_middle.
Qed.
Lemma inv_fire dbg s i id s' o : inv s -> step dbg s (EFire i id) = Ok s' o -> inv s'.
Proof.
  intros HI E. cbn [step] in E. destruct (sels s !! i) as [x|] eqn:Hx; [|done]. destruct (ph x) eqn:Hp; try done. case_bool_decide as Hid; [|done]. destruct (dl s !! id) as [d|] eqn:Hd; [|done]. case_bool_decide as Hle; [|done]. destruct (fr x) eqn:Hf; [done|].
  pose proof (inv_selok s i x HI Hx) as [A1 A2 A3 A4 A5]. unfold log in A2. rewrite Hp in *. rewrite (upd_ins i _ s x Hx) in E. set (x1 := mksel (ph x) (q x) (remove1 id (tm x)) (fr x)) in *. injection E as <- _.
  eapply (inv_sel s _ i x x1 HI Hx); sm; [done|done|by left| | |].
  - intros n Hn. unfold log. sm. rewrite List.filter_app. cbn. rewrite on_other by done. by rewrite app_nil_r.
  - constructor; unfold log, x1 in *; sm; rewrite ?Hp; try done; try congruence.
    + cbn [logok] in *. destruct A2 as (m & M & A2). exists (m ++ [CTimer id i (cur s)]). split; [by apply nocinit_snoc|]. rewrite List.filter_app, A2. cbn. by rewrite Nat.eqb_refl, app_assoc.
  - pose proof (inv_book s HI) as (B1 & B2 & B3 & B4 & B5 & B6). set (s1 := s_sels (<[i := x1]> (sels s)) s) in *.
    assert (J: jobs (note (CTimer id i (cur s)) s1) = jobs s) by (unfold jobs, s1; sm; by rewrite (concat_ins_same q _ i x)).
    assert (T: timers s ≡ₚ id :: timers (note (CTimer id i (cur s)) s1)). { unfold timers, s1. sm. apply (concat_del tm _ i x x1 [id] Hx). unfold x1. sm. rewrite (remove1_perm id (tm x) Hid) at 1. apply Permutation_cons_append. }
    unfold book. rewrite J, called_snoc, fired_snoc. cbn [omap list_omap c_ready c_timer]. rewrite app_nil_r. split_and!; try done.
    + change (tids s ≡ₚ (fired s ++ [id]) ++ omap j_timer (jobs s) ++ timers (note (CTimer id i (cur s)) s1)). rewrite B4, T, <- app_assoc. cbn. by rewrite <- Permutation_middle.
    + intros id' i' t Ht. unfold s1 in *. sm. apply elem_of_app in Ht as [Ht|Ht]; [by apply (B6 id' i' t)|]. apply elem_of_list_singleton in Ht. injection Ht as -> -> ->. split; [lia|]. by exists d.
Qed.
Lemma inv_step dbg s e s' o : inv s -> normal s e -> step dbg s e = Ok s' o -> inv s'.
Proof.
  intros HI Hn E. destruct e; [by eapply inv_onready|by eapply inv_addtimer|by eapply inv_ts|by eapply inv_tinit|by eapply inv_regw|by eapply inv_mgr..|by eapply inv_thread|by eapply inv_thread|by eapply inv_run|by eapply inv_fire|by eapply inv_mgr|by eapply inv_mgr|by eapply inv_thread|by eapply inv_thread|by eapply inv_mgr].
Qed.
Lemma reachf_inv dbg s0 tr s : inv s0 -> reachf dbg s0 tr s -> inv s.
Proof. intros H0. induction 1; [done|]. by eapply inv_step. Qed.
Lemma reach_inv' dbg t0 tr s : reach dbg t0 tr s -> inv s.
Proof. apply reachf_inv, inv_init. Qed.

(** * Theorems *)
Lemma next_safe j b s : making s = false -> tabfree s = false -> (forall x, sels s !! j = Some x -> fr x = false) -> next j b s <> Crash.
Proof. intros H1 H2 H3. unfold next. rewrite H1, H2. cbn. destruct (sels s !! j) as [x|]; [|done]. by rewrite (H3 x). Qed.
Lemma not_making s : ip s = IDone \/ ip s = INo \/ ip s = IDrain -> making s = false.
Proof. unfold making. by intros [->|[->| ->]]. Qed.
(** no use of a selector that does not exist yet or no longer, no failing assertion *)
Theorem C68_safe_partial dbg t0 tr s e : reach dbg t0 tr s -> normal s e -> step dbg s e <> Crash.
Proof.
  intros H Hn. apply reach_inv' in H as HI.
  assert (N: forall j b s1, closing s = false -> (ip s = IDone \/ ip s = INo \/ ip s = IDrain) -> (sels s1, ip s1, tabfree s1) = (sels s, ip s, tabfree s) -> next j b s1 <> Crash).
  { intros j b s1 Hc Hi [= E1 E2 E3]. apply next_safe; [apply not_making; by rewrite E2|rewrite E3; by apply (i_open _ HI)|]. intros x. rewrite E1. intros Hx. by apply (proj2 (i_open _ HI Hc) j x). }
  destruct e as [w id j|w id ms j|w id ms j|w id|w|n| |j| | |n|i|i|i k j|i id|d| |i|i|]; cbn [step normal] in *.
  - destruct (negb _ || _ || _); [done|]. destruct Hn as [Hc Hi]. destruct (inited _) eqn:Hin; [|done]. apply N; [done|tauto|done].
  - destruct (negb _ || _ || _); [done|]. destruct Hn as [Hc Hi]. destruct (inited _) eqn:Hin; [|done]. apply N; [done|tauto|done].
  - destruct (negb _ || _ || _); [done|]. destruct Hn as [Hc Hi]. unfold inited. sm. rewrite Hi. cbn. case_bool_decide; [done|]. apply N; [done|tauto|done].
  - destruct (negb _ || _ || _); [done|]. by destruct (inited _).
  - destruct (list_find _ _) as [[k [w' []]]|]; done.
  - by destruct (ip s).
  - by destruct (ip s) as [|[]| |].
  - destruct (ip s) eqn:Hi; try done. destruct (ready s) eqn:Hr; [done|]. destruct (i_early _ HI) as [Hc _]; [congruence|]. apply N; [done|tauto|by sm; rewrite Hi].
  - destruct (ip s); try done. by destruct (ready s).
  - destruct (ip s); try done. by destruct (started s).
  - destruct (negb _); [done|]. by destruct (_ || _).
  - destruct (sels s !! i) as [x|] eqn:Hx; [|done]. destruct (ph x) eqn:Hp; try done. destruct (fr x) eqn:Hf; [|done]. apply (i_fr _ HI i x Hx) in Hf. congruence.
  - destruct (sels s !! i) as [x|] eqn:Hx; [|done]. destruct (ph x) as [| |[|]| |[|]|] eqn:Hp; try done. destruct (fr x) eqn:Hf; [|done]. apply (i_fr _ HI i x Hx) in Hf. congruence.
  - destruct (sels s !! i) as [x|] eqn:Hx; [|done]. destruct (ph x) eqn:Hp; try done. destruct (q x !! k) as [b|] eqn:Hk; [|done]. destruct (fr x) eqn:Hf; [apply (i_fr _ HI i x Hx) in Hf; congruence|]. destruct b; try done.
    assert (Hc: closing s = false). { destruct (closing s) eqn:Hc; [|done]. destruct (i_close _ HI Hc i x Hx) as (_ & _ & Hq). by rewrite Hq in Hk. }
    assert (Hi: ip s = IDone). { destruct (decide (ip s = IDone)) as [|Hi]; [done|]. destruct (i_early _ HI Hi) as [_ Hs]. destruct (i_new _ HI i x Hx) as [Hs2 _]. rewrite Hs2 in Hp by done. done. }
    apply next_safe; [apply not_making; by left|by apply (i_open _ HI)|]. intros y Hy. rewrite (upd_ins _ _ _ x Hx) in Hy. sm. destruct (decide (j = i)) as [->|Hj].
    + rewrite list_lookup_insert in Hy by (by eapply lookup_lt_Some). by injection Hy as <-.
    + rewrite list_lookup_insert_ne in Hy by done. by apply (proj2 (i_open _ HI Hc) j y).
  - destruct (sels s !! i) as [x|] eqn:Hx; [|done]. destruct (ph x) eqn:Hp; try done. case_bool_decide as Hid; [|done].
    assert (Hd: is_Some (dl s !! id)). { apply (i_dl _ HI). rewrite (i_t _ HI). rewrite !elem_of_app. right; right. unfold timers. apply elem_of_list_In, in_concat. exists (tm x). split; [|by apply elem_of_list_In]. apply elem_of_list_In, elem_of_list_fmap. exists x. split; [done|]. by eapply elem_of_list_lookup_2. }
    destruct Hd as [d ->]. case_bool_decide; [|done]. destruct (fr x) eqn:Hf; [apply (i_fr _ HI i x Hx) in Hf; congruence|done].
  - done.
  - by destruct (inited s).
  - destruct (sels s !! i) as [x|]; [|done]. destruct (ph x); try done. by destruct (dbg && _ && _).
  - destruct (closing s); [|done]. destruct (sels s !! i) as [x|]; [|done]. destruct (fr x); [done|]. by destruct (ph x).
  - by destruct (closing s && _).
Qed.
(** an on_ready callback is called at most once, a timer fires at most once, and only if registered *)
Theorem C68_once dbg t0 tr s : reach dbg t0 tr s -> NoDup (called s) /\ (forall id, id ∈ called s -> id ∈ rids s) /\ NoDup (fired s) /\ (forall id, id ∈ fired s -> id ∈ tids s).
Proof.
  intros H. apply reach_inv' in H as HI. pose proof (i_rnd _ HI) as R1. pose proof (i_r _ HI) as R2. pose proof (i_tnd _ HI) as T1. pose proof (i_t _ HI) as T2.
  pose proof R1 as R3. rewrite R2 in R3. pose proof T1 as T3. rewrite T2 in T3. apply NoDup_app in R3 as (R3 & _). apply NoDup_app in T3 as (T3 & _). split_and!; try done.
  - intros id Hid. rewrite R2. apply elem_of_app. by left.
  - intros id Hid. rewrite T2. apply elem_of_app. by left.
Qed.
(** ... on a selector's thread, between its thread_init callbacks: what was called on a thread is a prefix of: every thread_init
    callback with 0, last registered first; on_ready callbacks and timers; every thread_init callback with 1 *)
Theorem C68_thread_init dbg t0 tr s i : reach dbg t0 tr s -> ip s <> INo -> exists d m e,
  log s i = starts d i ++ m ++ ends e i /\ nocinit m /\ d `prefix_of` reverse (iids s) /\ e `prefix_of` reverse (iids s) /\ (m <> [] \/ e <> [] -> d = reverse (iids s)) /\
  (forall x, sels s !! i = Some x -> ph x = PGone -> d = reverse (iids s) /\ e = reverse (iids s)).
Proof.
  intros H Hi. apply reach_inv' in H as HI. assert (Ht: reverse (iids s) = tinit s). { rewrite (i_i _ HI), (regs_late s HI Hi). cbn. by rewrite app_nil_r, reverse_involutive. }
  rewrite Ht. assert (Z: log s i = [] -> (forall x, sels s !! i = Some x -> ph x <> PGone) -> exists d m e, log s i = starts d i ++ m ++ ends e i /\ nocinit m /\ d `prefix_of` tinit s /\ e `prefix_of` tinit s /\ (m <> [] \/ e <> [] -> d = tinit s) /\ (forall x, sels s !! i = Some x -> ph x = PGone -> d = tinit s /\ e = tinit s)).
  { intros -> Hx. exists [], [], []. split_and!; try done; [intros c Hc; by apply elem_of_nil in Hc|apply prefix_nil..|by intros [?|?]|]. intros x Hx2 Hp. by destruct (Hx x Hx2). }
  destruct (sels s !! i) as [x|] eqn:Hx; [|apply Z; [by apply (i_nolog _ HI)|done]].
  pose proof (i_log _ HI i x Hx) as L. destruct (ph x) as [| |r| |r|] eqn:Hp; cbn [logok] in L.
  - apply Z; [done|]. intros y [= <-]. congruence.
  - apply Z; [done|]. intros y [= <-]. congruence.
  - destruct L as (d & L1 & L2). exists d, [], []. rewrite L2, L1. cbn. rewrite app_nil_r. split_and!; try done; [intros c Hc; by apply elem_of_nil in Hc|by apply prefix_app_r|apply prefix_nil|by intros [?|?]|]. intros y [= <-]. congruence.
  - destruct L as (m & M & L2). exists (tinit s), m, []. rewrite L2. cbn. rewrite app_nil_r. split_and!; try done; [apply prefix_nil|]. intros y [= <-]. congruence.
  - destruct L as (d & m & L1 & M & L2). exists (tinit s), m, d. split_and!; try done; [rewrite L1; by apply prefix_app_r|]. intros y [= <-]. congruence.
  - destruct L as (m & M & L2). exists (tinit s), m, (tinit s). by split_and!.
Qed.
(** ... so every on_ready callback and timer finds its thread initialised *)
Theorem C68_initialised dbg t0 tr s i c : reach dbg t0 tr s -> c ∈ log s i -> (match c with CInit _ _ _ => False | _ => True end) ->
  exists l, log s i = starts (reverse (iids s)) i ++ l /\ c ∈ l.
Proof.
  intros H Hc Hk. apply reach_inv' in H as HI. destruct (decide (ip s = INo)) as [Hi|Hi].
  - rewrite (i_nolog _ HI) in Hc by (by rewrite (i_no _ HI Hi)). by apply elem_of_nil in Hc.
  - destruct (C68_thread_init _ _ _ _ i H Hi) as (d & m & e & E & M & P1 & P2 & P3 & _). assert (Hm: c ∈ m).
    { rewrite E in Hc. apply elem_of_app in Hc as [Hc|Hc]; [unfold starts in Hc; apply elem_of_list_fmap in Hc as (? & -> & _); done|]. apply elem_of_app in Hc as [Hc|Hc]; [done|]. unfold ends in Hc. apply elem_of_list_fmap in Hc as (? & -> & _). done. }
    exists (m ++ ends e i). rewrite P3 in E by (left; intros ->; by apply elem_of_nil in Hm). split; [done|]. apply elem_of_app. by left.
Qed.
(** thread_init callbacks are refused once selector_manager_init was called, and accepted before *)
Theorem C68_refused dbg s w id s' o : step dbg s (EThreadInit w id) = Ok s' o -> (ip s <> INo -> o = -1 /\ s' = s) /\ (ip s = INo -> o = 0 /\ iids s' = iids s ++ [id]).
Proof.
  cbn [step]. destruct (negb _ || _ || _); [done|]. unfold inited. destruct (ip s); intros [= <- <-]; split; done.
Qed.

(** the deadline of a timer does not change *)
Lemma dl_kept dbg s0 tr s id d : inv s0 -> reachf dbg s0 tr s -> id ∈ tids s0 -> dl s0 !! id = Some d -> id ∈ tids s /\ dl s !! id = Some d.
Proof.
  intros HI H Hid Hd. induction H as [|tr s e s' o H IH Hn E]; [done|]. destruct IH as [IH1 IH2].
  assert (K: (tids s', dl s') = (tids s, dl s) \/ exists id' d', id' ∉ tids s /\ tids s' = tids s ++ [id'] /\ dl s' = <[id' := d']> (dl s)).
  { assert (N: forall j b s1 s2 o2, next j b s1 = Ok s2 o2 -> (tids s2, dl s2) = (tids s1, dl s1)). { intros j b s1 s2 o2 En. by destruct (next_inv _ _ _ _ _ En) as (x & _ & _ & -> & _). }
    destruct e as [w i j|w i ms j|w i ms j|w i|w|n| |j| | |n|i|i|i k j|i k|t| |i|i|]; cbn [step] in E.
    - destruct (negb _ || _ || _); [done|]. left. destruct (inited _); [by apply N in E|by injection E as <- _].
    - destruct (negb _ || _ || _) eqn:G; [done|]. apply orb3 in G as (_ & _ & G). apply bool_decide_eq_false in G. right. exists i, (cur s + ms). split; [done|]. destruct (inited _); [apply N in E; sm; by injection E as -> ->|by injection E as <- _].
    - destruct (negb _ || _ || _) eqn:G; [done|]. apply orb3 in G as (_ & _ & G). apply bool_decide_eq_false in G. right. exists i, (cur s + ms). split; [done|]. destruct (negb _); [done|]. destruct (bool_decide _); [by injection E as <- _|]. apply N in E. sm. by injection E as -> ->.
    - destruct (negb _ || _ || _); [done|]. left. destruct (inited _); by injection E as <- _.
    - left. destruct (list_find _ _) as [[k [w' []]]|]; [..|done]; by injection E as <- _.
    - left. destruct (ip s); try done. by injection E as <- _.
    - left. destruct (ip s) as [|[]| |]; try done; by injection E as <- _.
    - left. destruct (ip s); try done. destruct (ready s); [done|]. by apply N in E.
    - left. destruct (ip s); try done. destruct (ready s); [|done]. by injection E as <- _.
    - left. destruct (ip s); try done. destruct (started s); [done|]. by injection E as <- _.
    - left. destruct (negb _); [done|]. destruct (_ || _); by injection E as <- _.
    - left. destruct (sels s !! i) as [x|]; [|done]. destruct (ph x); try done. destruct (fr x); [done|]. by injection E as <- _.
    - left. destruct (sels s !! i) as [x|]; [|done]. destruct (ph x) as [| |[]| |[]|]; try done; try destruct (fr x); try done; by injection E as <- _.
    - left. destruct (sels s !! i) as [x|]; [|done]. destruct (ph x); try done. destruct (q x !! k) as [b|]; [|done]. destruct (fr x); [done|]. destruct b; [by injection E as <- _|by apply N in E|by injection E as <- _].
    - left. destruct (sels s !! i) as [x|]; [|done]. destruct (ph x); try done. destruct (bool_decide _); [|done]. destruct (dl s !! k); [|done]. destruct (bool_decide _); [|done]. destruct (fr x); [done|]. by injection E as <- _.
    - left. by injection E as <- _.
    - left. destruct (inited s); [|done]. by injection E as <- _.
    - left. destruct (sels s !! i) as [x|]; [|done]. destruct (ph x); try done. destruct (dbg && _ && _); [|done]. by injection E as <- _.
    - left. destruct (closing s); [|done]. destruct (sels s !! i) as [x|]; [|done]. destruct (fr x); [done|]. destruct (ph x); try done; by injection E as <- _.
    - left. destruct (closing s && _); [|done]. by injection E as <- _. }
  destruct K as [[= -> ->]|(id' & d' & Hn2 & -> & ->)]; [done|]. split; [apply elem_of_app; by left|]. rewrite lookup_insert_ne; [done|]. intros ->. done.
Qed.
(** a timer never fires early: not before the clock has advanced by the time asked for since the call *)
Theorem C68_not_early dbg t0 tr s e id ms s1 o tr2 s2 i t : reach dbg t0 tr s -> normal s e ->
  (match e with EAddTimer _ k m _ | ETs _ k m _ => k = id /\ m = ms | _ => False end) -> step dbg s e = Ok s1 o -> reachf dbg s1 tr2 s2 -> CTimer id i t ∈ calls s2 -> cur s + ms <= t.
Proof.
  intros H Hn He E H2 Ht. apply reach_inv' in H as HI. pose proof (inv_step _ _ _ _ _ HI Hn E) as HI1. pose proof (reachf_inv _ _ _ _ HI1 H2) as HI2.
  assert (K: id ∈ tids s1 /\ dl s1 !! id = Some (cur s + ms)).
  { assert (N: forall j b s3 s4 o2, next j b s3 = Ok s4 o2 -> (tids s4, dl s4) = (tids s3, dl s3)). { intros j b s3 s4 o2 En. by destruct (next_inv _ _ _ _ _ En) as (x & _ & _ & -> & _). }
    assert (A: forall s4, (tids s4, dl s4) = (tids s ++ [id], <[id := cur s + ms]> (dl s)) -> id ∈ tids s4 /\ dl s4 !! id = Some (cur s + ms)). { intros s4 [= -> ->]. split; [apply elem_of_app; right; by left|by rewrite lookup_insert]. }
    apply A. destruct e; try done; destruct He as [-> ->]; cbn [step] in E; (destruct (negb _ || _ || _); [done|]).
    - destruct (inited _); [apply N in E; by sm|by injection E as <- _].
    - destruct (negb _); [done|]. destruct (bool_decide _); [by injection E as <- _|]. apply N in E. by sm. }
  destruct K as [K1 K2]. destruct (dl_kept _ _ _ _ _ _ HI1 H2 K1 K2) as [_ K3]. destruct (i_call _ HI2 id i t Ht) as (_ & d & K4 & K5). rewrite K3 in K4. injection K4 as <-. done.
Qed.
(** the steps of selector i's own thread, and the clock *)
Definition own_step (i : nat) (e : ev) : Prop := match e with EBegin k | ECb k | ERun k _ _ | EFire k _ => k = i | ETick _ => True | _ => False end.
Lemma reachf_app dbg s0 tr s tr2 s2 : reachf dbg s0 tr s -> reachf dbg s tr2 s2 -> reachf dbg s0 (tr ++ tr2) s2.
Proof. intros H. induction 1 as [|tr2 s2 e s3 o H2 IH Hn E]; [by rewrite app_nil_r|]. rewrite app_assoc. by econstructor. Qed.
Lemma reachf_one dbg s e s' o : normal s e -> step dbg s e = Ok s' o -> reachf dbg s [e] s'.
Proof. intros Hn E. change [e] with ([] ++ [e]). econstructor; [constructor|done|done]. Qed.
Lemma concat_elem {B} (g : sel -> list B) (l : list sel) (b : B) : b ∈ concat (g <$> l) -> exists i x, l !! i = Some x /\ b ∈ g x.
Proof.
  intros H. apply elem_of_list_In, in_concat in H as (y & Hy & H). apply elem_of_list_In in Hy, H. apply elem_of_list_fmap in Hy as (x & -> & Hx). apply elem_of_list_lookup in Hx as [i Hx]. by exists i, x.
Qed.
Lemma init_run dbg s i x l : sels s !! i = Some x -> ph x = PInit l -> exists es s' x', reachf dbg s es s' /\ Forall (own_step i) es /\ sels s' !! i = Some x' /\ ph x' = PRun /\ q x' = q x /\ tm x' = tm x /\ fr x' = fr x /\
  (closing s', ip s', tabfree s', cur s', dl s') = (closing s, ip s, tabfree s, cur s, dl s).
Proof.
  revert s x. induction l as [|id l IH]; intros s x Hx Hp.
  - exists [ECb i], (upd i (setp PRun) s), (setp PRun x). split; [apply (reachf_one _ _ _ _ 0); [done|]; cbn [step]; by rewrite Hx, Hp|]. split; [by repeat constructor|]. rewrite (upd_ins _ _ _ x Hx). sm. rewrite list_lookup_insert by (by eapply lookup_lt_Some). done.
  - set (s1 := note (CInit id i false) (upd i (setp (PInit l)) s)). assert (H1: sels s1 !! i = Some (setp (PInit l) x)). { unfold s1. rewrite (upd_ins _ _ _ x Hx). sm. by rewrite list_lookup_insert by (by eapply lookup_lt_Some). }
    destruct (IH s1 _ H1 eq_refl) as (es & s' & x' & R & F & A). exists ([ECb i] ++ es), s', x'. split; [eapply reachf_app; [|exact R]; apply (reachf_one _ _ _ _ 0); [done|]; cbn [step]; by rewrite Hx, Hp|]. split; [by constructor|]. exact A.
Qed.
Lemma to_run dbg s i x : inv s -> started s = true -> closing s = false -> sels s !! i = Some x -> exists es s' x', reachf dbg s es s' /\ Forall (own_step i) es /\ sels s' !! i = Some x' /\ ph x' = PRun /\ q x' = q x /\ tm x' = tm x /\ fr x' = false /\
  (closing s', ip s', tabfree s', cur s', dl s') = (closing s, ip s, tabfree s, cur s, dl s).
Proof.
  intros HI Hs Hc Hx. destruct (i_new _ HI i x Hx) as [_ N]. specialize (N Hs). destruct (proj2 (i_open _ HI Hc) i x Hx) as (Hf & P1 & P2). destruct (ph x) as [| |l| |l|] eqn:Hp; try done.
  - set (s1 := upd i (setp (PInit (tinit s))) s). assert (H1: sels s1 !! i = Some (setp (PInit (tinit s)) x)). { unfold s1. rewrite (upd_ins _ _ _ x Hx). sm. by rewrite list_lookup_insert by (by eapply lookup_lt_Some). }
    destruct (init_run dbg s1 i _ _ H1 eq_refl) as (es & s' & x' & R & F & A & B & C & D & E & G). exists ([EBegin i] ++ es), s', x'. split; [eapply reachf_app; [|exact R]; apply (reachf_one _ _ _ _ 0); [done|]; cbn [step]; by rewrite Hx, Hp, Hf|]. split; [by constructor|]. sm. by rewrite E, Hf.
  - destruct (init_run dbg s i _ _ Hx Hp) as (es & s' & x' & R & F & A & B & C & D & E & G). exists es, s', x'. by rewrite E, Hf.
  - exists [], s, x. split; [constructor|]. by split_and!.
  - by destruct (P1 l).
Qed.
(** where a callback that was registered and not called waits, once the selectors are started *)
Lemma waiting_job s (f : job -> option nat) id : inv s -> started s = true -> id ∈ omap f (jobs s) -> exists i x k b, sels s !! i = Some x /\ q x !! k = Some b /\ f b = Some id.
Proof.
  intros HI Hs Hid. assert (Hi: ip s = IDone). { destruct (decide (ip s = IDone)) as [|Hi]; [done|]. destruct (i_early _ HI Hi). congruence. }
  unfold jobs in Hid. rewrite (i_ready _ HI Hi), (regs_late s HI) in Hid by congruence. cbn [omap list_omap app] in Hid. apply elem_of_list_omap in Hid as (b & Hb & Hf). apply concat_elem in Hb as (i & x & Hx & Hb). apply elem_of_list_lookup in Hb as [k Hk]. by exists i, x, k, b.
Qed.
(** every on_ready callback is called: once the selectors are started and unless the manager is closed, one selector's own thread
    needs only to be scheduled *)
Theorem C68_served dbg t0 tr s id : reach dbg t0 tr s -> started s = true -> closing s = false -> id ∈ rids s -> exists i es s', Forall (own_step i) es /\ reachf dbg s es s' /\ id ∈ called s'.
Proof.
  intros H Hs Hc Hid. apply reach_inv' in H as HI. rewrite (i_r _ HI) in Hid. apply elem_of_app in Hid as [Hid|Hid]; [exists 0%nat, [], s; split; [constructor|]; by split; [constructor|]|].
  destruct (waiting_job s j_ready id HI Hs Hid) as (i & x & k & b & Hx & Hk & Hb). destruct b; try done. injection Hb as ->. destruct (to_run dbg s i x HI Hs Hc Hx) as (es & s1 & x1 & R & F & A & B & C & D & E & G).
  exists i, (es ++ [ERun i k i]). eexists. split; [apply Forall_app; split; [done|by repeat constructor]|]. split; [eapply reachf_app; [exact R|]; apply (reachf_one _ _ _ _ 0); [done|]; cbn [step]; rewrite A, B, C, Hk, E; reflexivity|].
  rewrite called_snoc. apply elem_of_app. right. by left.
Qed.
Lemma fire_tm dbg s i x id d : sels s !! i = Some x -> ph x = PRun -> fr x = false -> id ∈ tm x -> dl s !! id = Some d -> exists es s', Forall (own_step i) es /\ reachf dbg s es s' /\ id ∈ fired s'.
Proof.
  intros Hx Hp Hf Hid Hd. exists [ETick (Z.to_nat (d - cur s)); EFire i id]. eexists. split; [by repeat constructor|]. split.
  - change [ETick (Z.to_nat (d - cur s)); EFire i id] with ([ETick (Z.to_nat (d - cur s))] ++ [EFire i id]). eapply reachf_app; [by apply (reachf_one _ _ _ _ 0)|]. apply (reachf_one _ _ _ _ 0); [done|]. cbn [step]. sm. rewrite Hx, Hp, bool_decide_true, Hd, bool_decide_true, Hf by (done || lia). reflexivity.
  - rewrite fired_snoc. apply elem_of_app. right. by left.
Qed.
Lemma fire_next dbg s i x k id d : sels s !! i = Some x -> ph x = PRun -> fr x = false -> q x !! k = Some (JTimerNext id) -> dl s !! id = Some d -> exists es s', Forall (own_step i) es /\ reachf dbg s es s' /\ id ∈ fired s'.
Proof.
  intros Hx Hp Hf Hk Hd. set (x1 := mksel (ph x) (delete k (q x)) (tm x ++ [id]) (fr x)).
  assert (E: step dbg s (ERun i k i) = Ok (s_sels (<[i := x1]> (sels s)) s) 0).
  { cbn [step]. rewrite Hx, Hp, Hk, Hf. rewrite (upd_ins i _ s x Hx). rewrite (upd_ins i _ _ (mksel (ph x) (delete k (q x)) (tm x) (fr x))) by (sm; by rewrite list_lookup_insert by (by eapply lookup_lt_Some)). sm. by rewrite list_insert_insert. }
  destruct (fire_tm dbg (s_sels (<[i := x1]> (sels s)) s) i x1 id d) as (es & s' & F & R & A); sm; [by rewrite list_lookup_insert by (by eapply lookup_lt_Some)|done|done|apply elem_of_app; right; by left|done|].
  exists ([ERun i k i] ++ es), s'. split; [by constructor|]. split; [|done]. eapply reachf_app; [|exact R]. by apply (reachf_one _ _ _ _ 0).
Qed.
(** every timer fires: as above, when enough time passes *)
Theorem C68_timer_served dbg t0 tr s id : reach dbg t0 tr s -> started s = true -> closing s = false -> id ∈ tids s -> exists i es s', Forall (own_step i) es /\ reachf dbg s es s' /\ id ∈ fired s'.
Proof.
  intros H Hs Hc Hid. apply reach_inv' in H as HI. destruct (i_dl _ HI id Hid) as [d Hd]. rewrite (i_t _ HI) in Hid. apply elem_of_app in Hid as [Hid|Hid]; [exists 0%nat, [], s; split; [constructor|]; by split; [constructor|]|].
  assert (Hi: ip s = IDone). { destruct (decide (ip s = IDone)) as [|Hi]; [done|]. destruct (i_early _ HI Hi). congruence. }
  apply elem_of_app in Hid as [Hid|Hid].
  - destruct (waiting_job s j_timer id HI Hs Hid) as (i & x & k & b & Hx & Hk & Hb). destruct (to_run dbg s i x HI Hs Hc Hx) as (es & s1 & x1 & R & F & A & B & C & D & E & [= G1 G2 G3 G4 G5]). rewrite <- C in Hk. rewrite <- G5 in Hd.
    destruct b; try done; injection Hb as ->.
    + set (x2 := mksel (ph x1) (delete k (q x1) ++ [JTimerNext id]) (tm x1) (fr x1)).
      assert (E1: step dbg s1 (ERun i k i) = Ok (s_sels (<[i := x2]> (sels s1)) s1) 0).
      { cbn [step]. rewrite A, B, Hk, E. rewrite (upd_ins i _ s1 x1 A). unfold next. unfold making. sm. rewrite G2, Hi, G3, (proj1 (i_open _ HI Hc)). cbn [orb]. rewrite list_lookup_insert by (by eapply lookup_lt_Some). sm. rewrite E.
        rewrite (upd_ins i _ _ (mksel (ph x1) (delete k (q x1)) (tm x1) false)) by (sm; by rewrite list_lookup_insert by (by eapply lookup_lt_Some)). sm. unfold x2. rewrite E. by rewrite list_insert_insert. }
      destruct (fire_next dbg (s_sels (<[i := x2]> (sels s1)) s1) i x2 (length (delete k (q x1))) id d) as (es2 & s' & F2 & R2 & A2); sm; [by rewrite list_lookup_insert by (by eapply lookup_lt_Some)|done|done|by apply list_lookup_middle|done|].
      exists i, (es ++ [ERun i k i] ++ es2), s'. split; [apply Forall_app; split; [done|]; by constructor|]. split; [|done]. eapply reachf_app; [exact R|]. eapply reachf_app; [|exact R2]. by apply (reachf_one _ _ _ _ 0).
    + destruct (fire_next dbg s1 i x1 k id d A B E Hk Hd) as (es2 & s' & F2 & R2 & A2). exists i, (es ++ es2), s'. split; [by apply Forall_app|]. split; [|done]. by eapply reachf_app.
  - apply concat_elem in Hid as (i & x & Hx & Hid). destruct (to_run dbg s i x HI Hs Hc Hx) as (es & s1 & x1 & R & F & A & B & C & D & E & [= G1 G2 G3 G4 G5]). rewrite <- D in Hid. rewrite <- G5 in Hd.
    destruct (fire_tm dbg s1 i x1 id d A B E Hid Hd) as (es2 & s' & F2 & R2 & A2). exists i, (es ++ es2), s'. split; [by apply Forall_app|]. split; [|done]. by eapply reachf_app.
Qed.
(** a selector is destroyed only when its thread is over: all its thread_init callbacks were told so, nothing is left in its queue *)
Theorem C68_destroy dbg t0 tr s i s' o : reach dbg t0 tr s -> step dbg s (EDestroy i) = Ok s' o -> exists x m, sels s !! i = Some x /\ ph x = PGone /\ q x = [] /\ nocinit m /\
  log s i = starts (reverse (iids s)) i ++ m ++ ends (reverse (iids s)) i.
Proof.
  intros H E. apply reach_inv' in H as HI. cbn [step] in E. destruct (closing s) eqn:Hc; [|done]. destruct (sels s !! i) as [x|] eqn:Hx; [|done]. destruct (fr x); [done|]. destruct (i_close _ HI Hc i x Hx) as (P1 & P2 & P3). destruct (ph x) eqn:Hp; try done.
  pose proof (i_log _ HI i x Hx) as L. rewrite Hp in L. destruct L as (m & M & L). exists x, m. split_and!; try done. assert (Hi: ip s = IDone). { destruct (decide (ip s = IDone)) as [|Hi]; [done|]. destruct (i_early _ HI Hi). congruence. }
  rewrite (i_i _ HI), (regs_late s HI) by congruence. cbn. rewrite app_nil_r, reverse_involutive. exact L.
Qed.
(** without MALLOCDEBUG selector_manager_close never destroys a selector: it waits for ever *)
Theorem C68_close_hangs t0 tr s i s' o : reach false t0 tr s -> step false s (EDestroy i) <> Ok s' o.
Proof.
  intros H E. assert (K: forall k x, sels s !! k = Some x -> ph x <> PGone /\ forall l, ph x <> PExit l).
  { clear E. remember (init t0) as s0 eqn:E0. induction H as [|tr s e s2 o2 H IH Hn E]; [subst s0; intros k x; sm; cbn [init sels]; by rewrite lookup_nil|]. intros k x.
    assert (U: forall (s3 : st) j f, sels s2 = alter f j (sels s3) -> sels s3 = sels s -> (forall y, sels s !! j = Some y -> ph (f y) = ph y \/ ph (f y) <> PGone /\ forall l, ph (f y) <> PExit l) -> sels s2 !! k = Some x -> ph x <> PGone /\ forall l, ph x <> PExit l).
    { intros s3 j f -> -> Hf Hk. destruct (decide (j = k)) as [->|Hj]; [|rewrite list_lookup_alter_ne in Hk by done; by apply IH in Hk]. rewrite list_lookup_alter in Hk. destruct (sels s !! k) as [y|] eqn:Hy; [|done]. injection Hk as <-. destruct (Hf y eq_refl) as [-> |]; [by apply (IH k)|done]. }
    assert (N: forall j b s3, next j b s3 = Ok s2 o2 -> sels s3 = sels s -> sels s2 !! k = Some x -> ph x <> PGone /\ forall l, ph x <> PExit l).
    { intros j b s3 En Es. unfold next in En. destruct (making s3 || tabfree s3); [done|]. destruct (sels s3 !! j) as [y|]; [|done]. destruct (fr y); [done|]. injection En as <- _. apply (U s3 j (addq b)); [done|done|]. intros z _. by left. }
    assert (Z: sels s2 = sels s -> sels s2 !! k = Some x -> ph x <> PGone /\ forall l, ph x <> PExit l). { intros -> Hk. by apply (IH k). }
    destruct e as [w id j|w id ms j|w id ms j|w id|w|n| |j| | |n|j|j|j m p|j m|d| |j|j|]; cbn [step] in E.
    - destruct (negb _ || _ || _); [done|]. destruct (inited _); [by eapply N|apply Z; by injection E as <- _].
    - destruct (negb _ || _ || _); [done|]. destruct (inited _); [by eapply N|apply Z; by injection E as <- _].
    - destruct (negb _ || _ || _); [done|]. destruct (negb _); [done|]. destruct (bool_decide _); [|by eapply N]. injection E as <- _. apply (U s j (addt id)); [done|done|]. intros z _. by left.
    - destruct (negb _ || _ || _); [done|]. apply Z. destruct (inited _); by injection E as <- _.
    - apply Z. destruct (list_find _ _) as [[? [? []]]|]; [..|done]; by injection E as <- _.
    - apply Z. destruct (ip s); try done. by injection E as <- _.
    - destruct (ip s) as [|[]| |]; try done; [apply Z; by injection E as <- _|]. injection E as <- _. sm. intros Hk. apply lookup_app_Some in Hk as [Hk|[_ Hk]]; [by apply (IH k)|]. apply list_lookup_singleton_Some in Hk as [_ <-]. done.
    - destruct (ip s); try done. destruct (ready s); [done|]. by eapply N.
    - apply Z. destruct (ip s); try done. destruct (ready s); [|done]. by injection E as <- _.
    - destruct (ip s); try done. destruct (started s); [done|]. injection E as <- _. sm. intros Hk. rewrite list_lookup_fmap in Hk. destruct (sels s !! k); [|done]. by injection Hk as <-.
    - destruct (negb _); [done|]. destruct (_ || _); [apply Z; by injection E as <- _|]. injection E as <- _. sm. intros Hk. apply lookup_app_Some in Hk as [Hk|[_ Hk]]; [by apply (IH k)|]. apply lookup_replicate in Hk as [-> _]. done.
    - destruct (sels s !! j) as [y|] eqn:Hy; [|done]. destruct (ph y); try done. destruct (fr y); [done|]. injection E as <- _. eapply (U s j); [done|done|]. intros z _. by right.
    - destruct (sels s !! j) as [y|] eqn:Hy; [|done]. destruct (IH j y Hy) as [I1 I2]. destruct (ph y) as [| |[|]| |l|] eqn:Hp; try done; [| |by destruct (I2 l)]; injection E as <- _; (eapply (U s j); [done|done|]); intros z _; by right.
    - destruct (sels s !! j) as [y|] eqn:Hy; [|done]. destruct (ph y); try done. destruct (q y !! m) as [b|]; [|done]. destruct (fr y); [done|].
      assert (W: forall k x, sels (upd j (fun x => mksel (ph x) (delete m (q x)) (tm x) (fr x)) s) !! k = Some x -> exists z, sels s !! k = Some z /\ ph x = ph z). { clear. intros k x. unfold upd. sm. destruct (decide (j = k)) as [->|Hj]; [|rewrite list_lookup_alter_ne by done; by eauto]. rewrite list_lookup_alter. destruct (sels s !! k) as [y|]; [|done]. intros [= <-]. by exists y. }
      intros Hk. destruct b.
      + injection E as <- _. destruct (W k x Hk) as (z & Hz & ->). by apply (IH k).
      + unfold next in E. destruct (making _ || tabfree _); [done|]. destruct (_ !! p) as [y2|] eqn:Hy2; [|done]. destruct (fr y2); [done|]. injection E as <- _. unfold upd in Hk at 1. sm. destruct (decide (p = k)) as [->|Hp].
        * rewrite list_lookup_alter in Hk. unfold upd in Hy2. sm. rewrite Hy2 in Hk. injection Hk as <-. destruct (W k y2 Hy2) as (z & Hz & Ez). sm. rewrite Ez. by apply (IH k).
        * rewrite list_lookup_alter_ne in Hk by done. destruct (W k x Hk) as (z & Hz & ->). by apply (IH k).
      + injection E as <- _. unfold upd in Hk at 1. sm. destruct (decide (j = k)) as [->|Hp].
        * rewrite list_lookup_alter in Hk.
          assert (Hk2: @lookup nat sel (list sel) _ k (alter (fun x => mksel (ph x) (delete m (q x)) (tm x) (fr x)) k (sels s)) = Some (mksel (ph y) (delete m (q y)) (tm y) (fr y))) by (rewrite list_lookup_alter, Hy; done). rewrite Hk2 in Hk. injection Hk as <-. sm. by apply (IH k y).
        * rewrite list_lookup_alter_ne in Hk by done. destruct (W k x Hk) as (z & Hz & ->). by apply (IH k).
    - destruct (sels s !! j) as [y|] eqn:Hy; [|done]. destruct (ph y); try done. destruct (bool_decide _); [|done]. destruct (dl s !! m); [|done]. destruct (bool_decide _); [|done]. destruct (fr y); [done|]. injection E as <- _. eapply (U s j); [done|done|]. intros zz _. by left.
    - apply Z. by injection E as <- _.
    - apply Z. destruct (inited s); [|done]. by injection E as <- _.
    - destruct (sels s !! j) as [y|]; [|done]. by destruct (ph y).
    - destruct (closing s); [|done]. destruct (sels s !! j) as [y|]; [|done]. destruct (fr y); [done|]. destruct (ph y); try done; injection E as <- _; (eapply (U s j); [done|done|]); intros z _; by left.
    - apply Z. destruct (closing s && _); [|done]. by injection E as <- _. }
  destruct (C68_destroy _ _ _ _ _ _ _ H E) as (x & m & Hx & Hp & _). by destruct (K i x Hx).
Qed.

(** * A case that meets the hypotheses: callbacks and a timer registered before and after start-up, two selectors, orderly end *)
Definition demo : list ev := [EThreadInit (Prog 0) 1; ERegW (Prog 0); EThreadInit (Prog 0) 2; ERegW (Prog 0); EOnReady (Prog 0) 1 0; ERegW (Prog 0); EAddTimer (Prog 0) 7 30 0; ERegW (Prog 0);
  EInit 2; EMake; EMake; EMake; EDrain 0; EDrain 1; EInitEnd; EStart; EOnReady (Prog 5) 2 1; EBegin 1; ECb 1; ECb 1; EBegin 0; ECb 0; ECb 0; ECb 1; ECb 0; ERun 1 1 0; ERun 1 0 0; ERun 0 0 1; ERun 1 0 0; EOnReady (Sel 1) 3 0; ETick 30; EFire 1 7; ERun 0 0 0;
  EClose; EExit 0; ECb 0; EExit 1; ECb 1; ECb 1; ECb 1; EDestroy 1; ECb 0; ECb 0; EDestroy 0; EFreeTab].
Definition normalb (s : st) (e : ev) : bool :=
  match e with
  | EOnReady w _ _ | EAddTimer w _ _ _ | EThreadInit w _ => bool_decide (closing s = false) && (bool_decide (ip s = IDone) || bool_decide (ip s = INo) && bool_decide (w = Prog 0))
  | ETs w _ _ _ => bool_decide (closing s = false) && bool_decide (ip s = IDone)
  | EInit n => match regs s with [] => true | _ => false end
  | EGrow _ => bool_decide (closing s = false) && bool_decide (ip s = IDone)
  | EClose => started s && forallb (fun x => match ph x, q x with (PRun | PInit _), [] => true | _, _ => false end) (sels s)
  | _ => true
  end.
Lemma normalb_ok s e : normalb s e = true -> normal s e.
Proof.
  destruct e; cbn [normalb normal]; intros H; repeat match goal with K : _ && _ = true |- _ => apply andb_prop in K as [K ?] | K : _ || _ = true |- _ => apply orb_prop in K as [K|K] | K : bool_decide _ = true |- _ => apply bool_decide_eq_true in K end; auto; try tauto.
  - by destruct (regs s).
  - split; [done|]. rewrite forallb_forall in H0. intros i x Hx. apply elem_of_list_lookup_2, elem_of_list_In, H0 in Hx. destruct (ph x), (q x); try done; split; eauto.
Qed.
Fixpoint keepsb (dbg : bool) (s : st) (es : list ev) : bool :=
  match es with [] => true | e :: es => normalb s e && match step dbg s e with Ok s' _ => keepsb dbg s' es | _ => false end end.
Lemma keepsb_reach dbg s0 es tr s : reachf dbg s0 tr s -> keepsb dbg s es = true -> exists s' os, run (step dbg) s es = Ok s' os /\ reachf dbg s0 (tr ++ es) s'.
Proof.
  revert tr s. induction es as [|e es IH]; intros tr s H; [intros _; exists s, []; by rewrite app_nil_r|]. cbn [keepsb run]. intros [H1 H2]%andb_prop.
  destruct (step dbg s e) as [| |s1 o] eqn:E; try done. destruct (IH (tr ++ [e]) s1) as (s' & os & -> & H'); [econstructor; [done|by apply normalb_ok|done]|done|].
  eexists _, _. split; [reflexivity|]. by rewrite (cons_middle e tr es), app_assoc.
Qed.
Example C68_demo : exists s, reach true 100 demo s.
Proof. destruct (keepsb_reach true (init 100) demo [] (init 100)) as (s & os & _ & H); [constructor|by vm_compute|]. by exists s. Qed.
Example C68_demo_log : match run (step true) (init 100) demo with
  | Ok s _ => log s 0 = [CInit 2 0 false; CInit 1 0 false; CReady 3 0; CInit 2 0 true; CInit 1 0 true] /\
              log s 1 = [CInit 2 1 false; CInit 1 1 false; CReady 2 1; CReady 1 1; CTimer 7 1 130; CInit 2 1 true; CInit 1 1 true] /\ tabfree s = true
  | _ => False end.
Proof. vm_compute. by split_and!. Qed.

(** * What does not hold *)
(** two threads register at the same time before start-up: one callback is lost *)
Theorem C68_register_race_refuted : match run (step true) (init 0) [EOnReady (Prog 0) 1 0; EOnReady (Prog 1) 2 0; ERegW (Prog 0); ERegW (Prog 1); EInit 1; EMake; EMake; EDrain 0; EInitEnd; EStart] with
  | Ok s _ => rids s = [1; 2]%nat /\ jobs s = [JReady 2] /\ calls s = [] | _ => False end.
Proof. vm_compute. by split_and!. Qed.
(** a callback registered by another thread while the selectors are being made: an uninitialised selector is used *)
Theorem C68_init_race_refuted : run (step true) (init 0) [EInit 2; EMake; EOnReady (Prog 1) 1 1] = Crash.
Proof. by vm_compute. Qed.
(** closing right after starting: a selector whose thread has not begun counts as over and is freed *)
Theorem C68_close_early_refuted : run (step true) (init 0) [EInit 1; EMake; EMake; EInitEnd; EStart; EClose; EDestroy 0; EBegin 0] = Crash.
Proof. by vm_compute. Qed.
(** closing while a callback waits: it is never called; the selector's thread does not look at its queue *)
Theorem C68_close_loses_refuted : match run (step true) (init 0) [EInit 1; EMake; EMake; EInitEnd; EStart; EBegin 0; ECb 0; EOnReady (Prog 0) 1 0; EClose; EExit 0; ECb 0; EDestroy 0; EFreeTab] with
  | Ok s _ => rids s = [1]%nat /\ calls s = [] /\ tabfree s = true | _ => False end.
Proof. vm_compute. by split_and!. Qed.
(** using the manager after it was closed: the freed table is used, it still counts as initialised *)
Theorem C68_after_close_refuted : run (step true) (init 0) [EInit 1; EMake; EMake; EInitEnd; EStart; EBegin 0; ECb 0; EClose; EExit 0; ECb 0; EDestroy 0; EFreeTab; EOnReady (Prog 0) 1 0] = Crash.
Proof. by vm_compute. Qed.
(** callbacks registered before start-up are called in the opposite order, even by one selector that keeps the order of its queue *)
Theorem C68_order_refuted : match run (step true) (init 0) [EOnReady (Prog 0) 1 0; ERegW (Prog 0); EOnReady (Prog 0) 2 0; ERegW (Prog 0); EInit 1; EMake; EMake; EDrain 0; EDrain 0; EInitEnd; EStart; EBegin 0; ECb 0; ERun 0 0 0; ERun 0 0 0] with
  | Ok s _ => rids s = [1; 2]%nat /\ called s = [2; 1]%nat | _ => False end.
Proof. vm_compute. by split_and!. Qed.
