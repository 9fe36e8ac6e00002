(** C70: opening sockets: no descriptor is lost, closed twice or taken from another thread, whatever system call fails. *)
From Verif Require Import SockModel.
Local Open Scope Z_scope.

(** * Specification *)
(** the system calls whose failure makes a call fail; setsockopt, ioctl, stat and unlink are not among them, nor is a connect of
    ksocket_half_connect that is in progress *)
Definition bad (f : api) (x : call * ans) : bool :=
  match x with
  | ((Socket _ _ _ _ | Accept _ _ _ | Bind _ _ | Listen _ | Wait _ _ _), AErr _) => true
  | (Connect _ _, AErr progress) => match f with FHalf _ _ _ => negb progress | _ => true end
  | _ => false
  end.
Definition optfail (x : call * ans) : bool := match x with (SetOpt _ _, AErr _) => true | _ => false end.
Definition nbfail (x : call * ans) : bool := match x with (NoBlock _, AErr _) => true | _ => false end.
(** the options asked for, in this order: all of them are on, or those for which setsockopt did not fail *)
Definition asked (l : list (bool * opt)) : list opt := snd <$> filter (fun x => x.1 = true) l.
Definition optok (h : list (call * ans)) (k : sock) (l : list (bool * opt)) : Prop := sublist (opts k) (asked l) /\ (existsb optfail h = false -> opts k = asked l).
Definition nbok (h : list (call * ans)) (k : sock) (b : bool) : Prop := (nonblock_ k = true -> b = true) /\ (existsb nbfail h = false -> nonblock_ k = b).
(** the socket a successful call returns *)
Definition made (cx a4 : bool) (f : api) (m0 : gmap nat sock) (h : list (call * ans)) (fd : nat) (k : sock) : Prop :=
  match f with
  | FListen a fl => sdom k = fam a /\ dgram_ k = false /\ cloexec_ k = cx /\ nbok h k (negb (f_block fl)) /\
      optok h k [(true, REUSEADDR); (f_reuseport fl, REUSEPORT); (f_v6 fl, V6ONLY); (f_fast fl, FASTOPEN); (f_tproxy fl, TRANSPARENT)] /\ bound k = Some (a, opts k) /\ lis k = true /\ conn k = None
  | FUdp x fl => sdom k = x /\ dgram_ k = true /\ cloexec_ k = cx /\ nbok h k (negb (f_block fl)) /\ optok h k [(f_reuseport fl, REUSEPORT); (f_v6 fl, V6ONLY)] /\ bound k = None /\ lis k = false /\ conn k = None
  | FAccept s nb => (exists ks, m0 !! s = Some ks /\ sdom k = sdom ks) /\ dgram_ k = false /\ cloexec_ k = a4 /\ nbok h k nb /\ opts k = []
  | FConnect a b tmo => sdom k = fam a /\ dgram_ k = false /\ cloexec_ k = cx /\ nonblock_ k = false /\ opts k = [] /\ bound k = (fun b => (b, [])) <$> b /\ lis k = false /\ conn k = Some (a, true) /\ (0 < tmo -> (Wait fd true (tmo * 1000), AOk) ∈ h)
  | FHalf a b mask => sdom k = fam a /\ dgram_ k = false /\ cloexec_ k = cx /\ nbok h k true /\ optok h k (match b with Some _ => [(bool_decide (0 < mask), TRANSPARENT); (bool_decide (0 < mask), MARK mask)] | None => [] end) /\
      bound k = (fun b => (b, opts k)) <$> b /\ lis k = false /\ exists d, conn k = Some (a, d)
  | FClose _ => False
  end.
(** what a call may have done when it returns v: h the system calls it made, m0 and m1 the thread's descriptors before and after *)
Definition post (cx a4 : bool) (f : api) (m0 : gmap nat sock) (h : list (call * ans)) (v : option nat) (m1 : gmap nat sock) : Prop :=
  match f with
  | FClose fd => m1 = delete fd m0
  | _ => match v with
         | None => m1 = m0 /\ existsb (bad f) h = true
         | Some fd => m0 !! fd = None /\ existsb (bad f) h = false /\ exists k, m1 = <[fd := k]> m0 /\ made cx a4 f m0 h fd k
         end
  end /\ (length h <= 12)%nat /\
  forall p a, (Unlink p, a) ∈ h -> exists x fl, f = FListen x fl /\ fam x = UNIX /\ num x = p /\ (Stat p, AStat (Some true)) ∈ h.
(** the rules of use: a thread accepts on and closes only descriptors it has *)
Definition normal (s : st) (e : ev) : Prop :=
  match e with ECall t (FAccept fd _) | ECall t (FClose fd) => is_Some (own s t !! fd) | _ => True end.
Inductive reachf (cx a4 : bool) (s0 : st) : list ev -> st -> Prop :=
| reach_nil : reachf cx a4 s0 [] s0
| reach_snoc tr s e s' o : reachf cx a4 s0 tr s -> normal s e -> step cx a4 s e = Ok s' o -> reachf cx a4 s0 (tr ++ [e]) s'.
Notation reach cx a4 := (reachf cx a4 init).

(** * A small program logic *)
Definition pre (c : call) (m : gmap nat sock) : Prop := match target c with Some fd => is_Some (m !! fd) | None => True end.
Fixpoint wp (p : prog) (m : gmap nat sock) (h : list (call * ans)) (Q : list (call * ans) -> option nat -> gmap nat sock -> Prop) : Prop :=
  match p with
  | Ret v => Q h v m
  | Do c k => pre c m /\ forall a, fits c a = true -> (forall fd, opens c a = Some fd -> m !! fd = None) -> wp (k a) (effect c a m) (h ++ [(c, a)]) Q
  end.
Definition sk_opts (l : list opt) k := mksock (sdom k) (dgram_ k) (cloexec_ k) (nonblock_ k) (opts k ++ l) (bound k) (lis k) (conn k).
Lemma wp_setopts fd l p m k h Q : (forall l' h', sublist l' l -> Forall (fun x => exists o, x.1 = SetOpt fd o) h' -> (existsb optfail h' = false -> l' = l) -> length h' = length l -> wp p (<[fd := sk_opts l' k]> m) (h ++ h') Q) ->
  wp (setopts fd l p) (<[fd := k]> m) h Q.
Proof.
  revert k h. induction l as [|o l IH]; intros k h H; cbn [setopts wp].
  - specialize (H [] []). rewrite app_nil_r in H. unfold sk_opts in H. rewrite app_nil_r in H. destruct k. by apply H.
  - split; [unfold pre; cbn; by rewrite lookup_insert|]. intros a Ha _.
    assert (H2: forall k1 l0, (forall l' , sk_opts l' k1 = sk_opts (l0 ++ l') k) -> (forall l', sublist l' l -> sublist (l0 ++ l') (o :: l)) -> (optfail (SetOpt fd o, a) = false -> l0 = [o]) -> wp (setopts fd l p) (<[fd := k1]> m) (h ++ [(SetOpt fd o, a)]) Q).
    { intros k1 l0 E1 E2 E3. apply IH. intros l' h' L F E N. rewrite E1, <- app_assoc. apply H; [by apply E2|by constructor; [by exists o|]| |cbn; by f_equal].
      cbn [existsb app]. intros [G1 G2]%orb_false_elim. by rewrite (E3 G1), (E G2). }
    destruct a as [x| |b|x]; try done; cbn [effect].
    + rewrite alter_insert. apply (H2 _ [o]); [|intros l' L; by constructor|done]. intros l'. unfold sk_opts, sk_opt. cbn. by rewrite <- app_assoc.
    + apply (H2 _ []); [done|intros l' L; by constructor|done].
Qed.
Lemma wp_no_block fd b p m k h Q : (forall k' h', (k' = k \/ b = true /\ k' = sk_nb k) -> Forall (fun x => x.1 = NoBlock fd) h' -> (existsb nbfail h' = false -> b = true -> k' = sk_nb k) -> (length h' <= 1)%nat -> wp p (<[fd := k']> m) (h ++ h') Q) -> wp (no_block fd b p) (<[fd := k]> m) h Q.
Proof.
  intros H. unfold no_block. destruct b; cbn [wp].
  - split; [unfold pre; cbn; by rewrite lookup_insert|]. intros a Ha _. destruct a as [x| |b|x]; try done; cbn [effect]; rewrite ?alter_insert; (apply H; [auto|by repeat constructor|done|done]).
  - specialize (H k []). rewrite app_nil_r in H. apply H; [auto|constructor|done|cbn; lia].
Qed.
Lemma wp_give_up fd m k h (Q : list (call * ans) -> option nat -> gmap nat sock -> Prop) : m !! fd = None -> Q (h ++ [(Close fd, AOk)]) None m -> wp (give_up fd) (<[fd := k]> m) h Q.
Proof.
  intros Hm H. cbn [give_up wp]. split; [unfold pre; cbn; by rewrite lookup_insert|]. intros a Ha _. destruct a; try done. cbn [effect]. by rewrite delete_insert.
Qed.

(** entries that no property of a history looks at *)
Definition isu (x : call * ans) : bool := match x with (Unlink _, _) => true | _ => false end.
Lemma ex_opts f h fd : Forall (fun x : call * ans => exists o, x.1 = SetOpt fd o) h -> existsb (bad f) h = false /\ existsb nbfail h = false /\ existsb isu h = false.
Proof. induction 1 as [|[c a] h [o Ho] F IH]; [done|]. cbn in Ho. subst c. destruct IH as (I1 & I2 & I3). cbn. by rewrite I1, I2, I3. Qed.
Lemma ex_nb f h fd : Forall (fun x : call * ans => x.1 = NoBlock fd) h -> existsb (bad f) h = false /\ existsb optfail h = false /\ existsb isu h = false.
Proof. induction 1 as [|[c a] h Ho F IH]; [done|]. cbn in Ho. subst c. destruct IH as (I1 & I2 & I3). cbn. by rewrite I1, I2, I3. Qed.
Definition U (f : api) (h : list (call * ans)) : Prop := forall p a, (Unlink p, a) ∈ h -> exists x fl, f = FListen x fl /\ fam x = UNIX /\ num x = p /\ (Stat p, AStat (Some true)) ∈ h.
Lemma U_app f h h' : U f h -> existsb isu h' = false -> U f (h ++ h').
Proof.
  intros HU H p a [Hin|Hin]%elem_of_app.
  - destruct (HU p a Hin) as (x & fl & E1 & E2 & E3 & E4). exists x, fl. split_and!; try done. apply elem_of_app. by left.
  - exfalso. apply not_true_iff_false in H. apply H, existsb_exists. exists (Unlink p, a). split; [by apply elem_of_list_In|done].
Qed.
Lemma U_nil f : U f []. Proof. intros p a H. by apply elem_of_nil in H. Qed.
Lemma U_none f h : existsb isu h = false -> U f h. Proof. intros H. by apply (U_app f [] h); [apply U_nil|]. Qed.
Lemma wp_do c k m h Q : pre c m -> (forall a, fits c a = true -> (forall fd, opens c a = Some fd -> m !! fd = None) -> wp (k a) (effect c a m) (h ++ [(c, a)]) Q) -> wp (Do c k) m h Q.
Proof. by split. Qed.
Lemma pre_ins c fd k m : target c = Some fd -> pre c (<[fd := k]> m).
Proof. unfold pre. intros ->. by rewrite lookup_insert. Qed.
(** a new socket *)
Lemma wp_new_sock cx f d nb k m h (Q : list (call * ans) -> option nat -> gmap nat sock -> Prop) : (forall b, Q (h ++ [(Socket f d cx (cx && nb), AErr b)]) None m) ->
  (forall fd h' nb', m !! fd = None -> Forall (fun x => x.1 = NoBlock fd) h' -> (nb' = true -> nb = true) -> (existsb nbfail h' = false -> nb' = nb) -> (length h' <= 1)%nat ->
    wp (k fd) (<[fd := mksock f d cx nb' [] None false None]> m) ((h ++ [(Socket f d cx (cx && nb), AFd fd)]) ++ h') Q) -> wp (new_sock cx f d nb k) m h Q.
Proof.
  intros H1 H2. apply wp_do; [done|]. intros a Ha Hf. destruct a as [fd| |b|x]; try done; cbn [effect wp]; [|by apply H1].
  apply wp_no_block. intros k' h' Hk F E L. specialize (Hf fd eq_refl). destruct Hk as [-> |[Hb ->]].
  - apply H2; try done; [by destruct cx, nb|]. intros G. specialize (E G). destruct cx, nb; try done. by specialize (E eq_refl).
  - unfold sk_nb. cbn. apply H2; try done; destruct cx, nb; done.
Qed.

Ltac ws := apply wp_do; [by apply pre_ins|]; let x := fresh "x" in let Hx := fresh "Hx" in intros x Hx _; destruct x as [?| |[|]|?]; try done; cbn [effect failed]; rewrite ?alter_insert.
Ltac hx := do 3 (rewrite ?existsb_app; cbn [existsb bad optfail nbfail isu orb negb]); repeat match goal with H : existsb _ ?h = false |- context [existsb _ ?h] => rewrite H end; cbn [orb].
Ltac hu := repeat (apply U_app; [|by hx]); try done.
Ltac sk := unfold sk_opts, sk_bind, sk_listen, sk_conn, sk_nb; cbn [made sdom dgram_ cloexec_ nonblock_ opts bound lis conn app].
Ltac hl := do 3 (rewrite ?app_length; cbn [length]); lia.
Lemma listen_tail cx a4 a fl m h0 : existsb (bad (FListen a fl)) h0 = false -> existsb optfail h0 = false -> existsb nbfail h0 = false -> (length h0 <= 2)%nat -> U (FListen a fl) h0 ->
  wp (new_sock cx (fam a) false (negb (f_block fl)) (fun fd => setopts fd (listen_opts fl) (Do (Bind fd a) (fun r => if failed r then give_up fd else Do (Listen fd) (fun r => if failed r then give_up fd else Ret (Some fd)))))) m h0 (post cx a4 (FListen a fl) m).
Proof.
  intros B1 B2 B3 L0 HU. apply wp_new_sock.
  - intros b. split; [split; [done|]|split; [hl|hu]]. by hx.
  - intros fd h1 nb Hfd F1 N1 N2 L1. destruct (ex_nb (FListen a fl) h1 fd F1) as (X1 & X2 & X3). apply wp_setopts. intros l h2 S2 F2 E2 L2. destruct (ex_opts (FListen a fl) h2 fd F2) as (Y1 & Y2 & Y3).
    assert (L2': (length h2 <= 5)%nat) by (rewrite L2; unfold listen_opts; destruct (f_reuseport fl), (f_v6 fl), (f_fast fl), (f_tproxy fl); cbn; lia).
    assert (LA: listen_opts fl = asked [(true, REUSEADDR); (f_reuseport fl, REUSEPORT); (f_v6 fl, V6ONLY); (f_fast fl, FASTOPEN); (f_tproxy fl, TRANSPARENT)]) by (unfold listen_opts; by destruct (f_reuseport fl), (f_v6 fl), (f_fast fl), (f_tproxy fl)).
    ws; [ws|..].
    + cbn [wp]. split; [|split; [hl|hu]]. split; [done|]. split; [by hx|]. eexists. split; [done|]. rewrite LA in S2, E2. sk. split_and!; try done.
      * split; [done|]. sk. intros G. apply N2. revert G. hx. rewrite ?orb_false_r. done.
      * split; [done|]. sk. intros G. apply E2. revert G. hx. rewrite ?orb_false_r. done.
    + apply wp_give_up; [done|]. split; [split; [done|]|split; [hl|hu]]. hx. by rewrite ?orb_true_r.
    + apply wp_give_up; [done|]. split; [split; [done|]|split; [hl|hu]]. hx. by rewrite ?orb_true_r.
Qed.
Lemma wp_listen cx a4 a fl m : wp (ksocket_listen cx a fl) m [] (post cx a4 (FListen a fl) m).
Proof.
  unfold ksocket_listen. cbv zeta. case_bool_decide as Hu; [|apply listen_tail; try done; try (cbn; lia); apply U_nil].
  apply wp_do; [done|]. intros x Hx _. destruct x as [?| |?|[[|]|]]; try done; cbn [effect app]; try (apply listen_tail; try done; try (cbn; lia); by apply (U_app _ []); [apply U_nil|]).
  apply wp_do; [done|]. intros x Hx2 _. assert (Em: effect (Unlink (num a)) x m = m) by (by destruct x). rewrite Em. apply listen_tail; try (by destruct x); try (cbn; lia).
  intros p b Hin. cbn [app] in *. apply elem_of_cons in Hin as [|Hin]; [done|]. apply elem_of_list_singleton in Hin as [= -> <-]. exists a, fl. split_and!; try done. by left.
Qed.
Lemma wp_udp cx a4 f fl m : wp (ksocket_new_udp cx f fl) m [] (post cx a4 (FUdp f fl) m).
Proof.
  apply wp_new_sock.
  - intros b. split; [split; [done|]|split; [hl|]]; [by hx|]. apply (U_app _ []); [apply U_nil|done].
  - intros fd h1 nb Hfd F1 N1 N2 L1. destruct (ex_nb (FUdp f fl) h1 fd F1) as (X1 & X2 & X3). apply wp_setopts. intros l h2 S2 F2 E2 L2. destruct (ex_opts (FUdp f fl) h2 fd F2) as (Y1 & Y2 & Y3).
    assert (L2': (length h2 <= 2)%nat) by (rewrite L2; unfold udp_opts; destruct (f_reuseport fl), (f_v6 fl); cbn; lia).
    assert (LA: udp_opts fl = asked [(f_reuseport fl, REUSEPORT); (f_v6 fl, V6ONLY)]) by (unfold udp_opts; by destruct (f_reuseport fl), (f_v6 fl)).
    cbn [wp]. split; [|split; [hl|apply U_none; by hx]]. split; [done|]. split; [by hx|]. eexists. split; [done|]. rewrite LA in S2, E2. sk. split_and!; try done.
      * split; [done|]. sk. intros G. apply N2. revert G. hx. rewrite ?orb_false_r. done.
      * split; [done|]. sk. intros G. apply E2. revert G. hx. rewrite ?orb_false_r. done.
Qed.
Lemma wp_accept cx a4 s nb m : is_Some (m !! s) -> wp (ksocket_accept a4 s nb) m [] (post cx a4 (FAccept s nb) m).
Proof.
  intros [ks Hs]. unfold ksocket_accept. destruct a4; (apply wp_do; [by exists ks|]); intros x Hx Ho; destruct x as [fd| |[|]|?]; try done; cbn [effect app]; try specialize (Ho fd eq_refl).
  - cbn [wp]. rewrite Hs. split; [|split; [cbn; lia|by apply (U_app _ []); [apply U_nil|]]]. split; [done|]. split; [done|]. eexists. split; [done|]. sk. split_and!; try done. by exists ks.
  - split; [|split; [cbn; lia|by apply (U_app _ []); [apply U_nil|]]]. done.
  - rewrite Hs. apply wp_no_block. intros k' h' Hk F E L. destruct (ex_nb (FAccept s nb) h' fd F) as (X1 & X2 & X3). cbn [wp]. split; [|split; [hl|apply U_none; by hx]]. split; [done|]. split; [by hx|]. eexists. split; [done|].
    assert (Hn: nbok ([(Accept s false false, AFd fd)] ++ h') k' nb).
    { split; [destruct Hk as [-> |[-> ->]]; done|]. hx. intros G. specialize (E G). destruct nb; [by rewrite E|]. by destruct Hk as [-> |[? ->]]. }
    destruct Hk as [-> |[Hb ->]]; sk; split_and!; try done; by exists ks.
  - split; [|split; [cbn; lia|by apply (U_app _ []); [apply U_nil|]]]. done.
Qed.
Lemma wp_close cx a4 fd m : is_Some (m !! fd) -> wp (ksocket_close fd) m [] (post cx a4 (FClose fd) m).
Proof.
  intros Hs. apply wp_do; [done|]. intros x Hx _. destruct x; try done. cbn [effect wp app]. split; [done|]. split; [cbn; lia|by apply (U_app _ []); [apply U_nil|]].
Qed.
Lemma wp_bind_to fd b p m k h (Q : list (call * ans) -> option nat -> gmap nat sock -> Prop) : m !! fd = None -> bound k = None ->
  (forall x a h', b = Some x -> h' = [(Bind fd x, AErr a); (Close fd, AOk)] -> Q (h ++ h') None m) ->
  (forall h', (length h' <= 1)%nat -> (forall f, existsb (bad f) h' = false) -> existsb optfail h' = false -> existsb nbfail h' = false -> existsb isu h' = false ->
     wp p (<[fd := mksock (sdom k) (dgram_ k) (cloexec_ k) (nonblock_ k) (opts k) ((fun x => (x, opts k)) <$> b) (lis k) (conn k)]> m) (h ++ h') Q) ->
  wp (bind_to fd b p) (<[fd := k]> m) h Q.
Proof.
  intros Hm Hb H1 H2. destruct b as [x|]; cbn [bind_to].
  - ws.
    + apply H2; try done. 
    + apply wp_give_up; [done|]. rewrite <- app_assoc. by eapply H1.
  - specialize (H2 []). rewrite app_nil_r in H2. destruct k. cbn in *. subst. apply H2; try done. lia.
Qed.
Lemma wp_connect cx a4 a b tmo m : wp (ksocket_connect cx a b tmo) m [] (post cx a4 (FConnect a b tmo) m).
Proof.
  apply wp_new_sock.
  - intros x. split; [split; [done|]|split; [hl|]]; [by hx|]. apply (U_app _ []); [apply U_nil|done].
  - intros fd h1 nb Hfd F1 N1 N2 L1. destruct (ex_nb (FConnect a b tmo) h1 fd F1) as (X1 & X2 & X3). destruct nb; [by specialize (N1 eq_refl)|].
    apply wp_bind_to; [done|done| |].
    + intros x y h' Eb ->. split; [split; [done|]|split; [hl|apply U_none; by hx]]. hx. by rewrite ?orb_true_r.
    + intros h' L2 G1 G2 G3 G4. sk. specialize (G1 (FConnect a b tmo)). ws.
      * unfold wait_socket_event. case_bool_decide as Ht.
        -- cbn [wp]. split; [|split; [hl|apply U_none; by hx]]. split; [done|]. split; [by hx|]. eexists. split; [done|]. sk. split_and!; try done. lia.
        -- ws; cbn [negb].
           ++ cbn [wp]. split; [|split; [hl|apply U_none; by hx]]. split; [done|]. split; [by hx|]. eexists. split; [done|]. sk. split_and!; try done. intros _. rewrite elem_of_cons, elem_of_app. right. right. by left.
           ++ apply wp_give_up; [done|]. split; [split; [done|]|split; [hl|apply U_none; by hx]]. hx. by rewrite ?orb_true_r.
      * rewrite insert_insert || idtac. apply wp_give_up; [done|]. split; [split; [done|]|split; [hl|apply U_none; by hx]]. hx. by rewrite ?orb_true_r.
      * apply wp_give_up; [done|]. split; [split; [done|]|split; [hl|apply U_none; by hx]]. hx. by rewrite ?orb_true_r.
Qed.
Lemma wp_half cx a4 a b mask m : wp (ksocket_half_connect cx a b mask) m [] (post cx a4 (FHalf a b mask) m).
Proof.
  unfold ksocket_half_connect. apply wp_do; [done|]. intros x Hx Ho. destruct x as [fd| |[|]|?]; try done; cbn [effect app].
  2:{ cbn [wp]. split; [by split|]. split; [cbn; lia|by apply (U_app _ []); [apply U_nil|]]. }
  specialize (Ho fd eq_refl). set (lo := match b with Some _ => tproxy_opts mask | None => [] end). apply wp_setopts. intros l h2 S2 F2 E2 L2. destruct (ex_opts (FHalf a b mask) h2 fd F2) as (Y1 & Y2 & Y3).
  assert (L2': (length h2 <= 2)%nat) by (rewrite L2; unfold lo, tproxy_opts; destruct b; [case_bool_decide|]; cbn; lia).
  assert (LA: lo = asked (match b with Some _ => [(bool_decide (0 < mask), TRANSPARENT); (bool_decide (0 < mask), MARK mask)] | None => [] end)) by (unfold lo, tproxy_opts; destruct b; [|done]; by case_bool_decide).
  rewrite LA in S2, E2. apply wp_bind_to; [done|done| |].
  - intros x y h' Eb ->. split; [split; [done|]|split; [hl|apply U_none; by hx]]. hx. by rewrite ?orb_true_r.
  - intros h3 L3 G1 G2 G3 G4. sk. specialize (G1 (FHalf a b mask)). apply wp_no_block. intros k' h4 Hk F4 E4 L4. destruct (ex_nb (FHalf a b mask) h4 fd F4) as (X1 & X2 & X3).
    assert (Hn: forall hx, existsb nbfail hx = false -> nbok (((([(Socket (fam a) false cx cx, AFd fd)] ++ h2) ++ h3) ++ h4) ++ hx) k' true).
    { intros hx Hx'. split; [done|]. hx. rewrite orb_false_r. intros G. specialize (E4 G). destruct cx; cbn in *; [by destruct Hk as [-> |[? ->]]|by rewrite E4]. }
    assert (Hd: sdom k' = fam a /\ dgram_ k' = false /\ cloexec_ k' = cx /\ opts k' = l /\ bound k' = (fun x => (x, l)) <$> b /\ lis k' = false) by (by destruct Hk as [-> |[? ->]]).
    destruct Hd as (D1 & D2 & D3 & D4 & D5 & D6).
    assert (Hq: forall x d, bad (FHalf a b mask) (Connect fd a, x) = false -> post cx a4 (FHalf a b mask) m ((((([(Socket (fam a) false cx cx, AFd fd)] ++ h2) ++ h3) ++ h4)) ++ [(Connect fd a, x)]) (Some fd) (<[fd := sk_conn a d k']> m)).
    { intros x d Hxd. split; [|split; [hl|apply U_none; by hx]]. split; [done|]. split; [rewrite !existsb_app, G1, Y1, X1; cbn [existsb]; by rewrite Hxd|]. eexists. split; [done|]. sk. split_and!; try done.
      - by apply (Hn [(Connect fd a, x)]).
      - split; sk; [by rewrite D4|]. hx. intros G. rewrite D4. apply E2. revert G. by rewrite !orb_false_r.
      - by rewrite D4.
      - by exists d. }
    cbn [app] in *. ws.
    + cbn [wp]. by apply Hq.
    + cbn [wp]. by apply Hq.
    + apply wp_give_up; [done|]. split; [split; [done|]|split; [hl|apply U_none; by hx]]. hx. by rewrite ?orb_true_r.
Qed.
Lemma wp_body cx a4 f m : match f with FAccept fd _ | FClose fd => is_Some (m !! fd) | _ => True end -> wp (body cx a4 f) m [] (post cx a4 f m).
Proof. destruct f; cbn [body]; intros H; auto using wp_listen, wp_udp, wp_accept, wp_connect, wp_half, wp_close. Qed.

(** * The invariant *)
(** the descriptors the returned calls of a thread have given it and it has not closed *)
Fixpoint mine (t : nat) (l : list ret) : gset nat :=
  match l with
  | [] => ∅
  | x :: l' => let rest := mine t l' in
    if bool_decide (r_t x = t) then match r_f x with FClose fd => rest ∖ {[fd]} | _ => match r_v x with Some fd => {[fd]} ∪ rest | None => rest end end else rest
  end.
(** newest call first *)
Definition has (s : st) (t : nat) : gset nat := mine t (reverse (done_ s)).
Record Inv (cx a4 : bool) (s : st) : Prop := mkInv {
  i_run : forall t r, thr s !! t = Some r -> (exists c k, pc r = Do c k) /\ wp (pc r) (own s t) (hist r) (post cx a4 (fn r) (held0 r)) /\ dom (held0 r) = has s t;
  i_idle : forall t, thr s !! t = None -> dom (own s t) = has s t;
  i_dis : forall t1 t2 fd, is_Some (own s t1 !! fd) -> is_Some (own s t2 !! fd) -> t1 = t2;
  i_done : forall x, x ∈ done_ s -> post cx a4 (r_f x) (r_0 x) (r_h x) (r_v x) (r_1 x) }.
Record Inv_but (cx a4 : bool) (t0 : nat) (s : st) : Prop := mkInvb {
  b_run : forall t r, t <> t0 -> thr s !! t = Some r -> (exists c k, pc r = Do c k) /\ wp (pc r) (own s t) (hist r) (post cx a4 (fn r) (held0 r)) /\ dom (held0 r) = has s t;
  b_idle : forall t, t <> t0 -> thr s !! t = None -> dom (own s t) = has s t;
  b_dis : forall t1 t2 fd, is_Some (own s t1 !! fd) -> is_Some (own s t2 !! fd) -> t1 = t2;
  b_done : forall x, x ∈ done_ s -> post cx a4 (r_f x) (r_0 x) (r_h x) (r_v x) (r_1 x) }.
Lemma post_dom cx a4 f m0 h v m1 : post cx a4 f m0 h v m1 -> dom m1 = match f with FClose fd => dom m0 ∖ {[fd]} | _ => match v with Some fd => {[fd]} ∪ dom m0 | None => dom m0 end end.
Proof.
  intros [H _]. destruct f; try (destruct v as [fd|]; [destruct H as (_ & _ & k & -> & _); by rewrite dom_insert_L|by destruct H as [-> _]]).
  rewrite H. apply dom_delete_L.
Qed.
Lemma settle_inv cx a4 s t r : Inv_but cx a4 t s -> wp (pc r) (own s t) (hist r) (post cx a4 (fn r) (held0 r)) -> dom (held0 r) = has s t -> Inv cx a4 (settle t r s).
Proof.
  intros I W D. unfold settle. destruct (pc r) as [v|c k] eqn:P.
  - cbn [wp] in W. assert (Hh: forall t', has (mkst (owns s) (delete t (thr s)) (fs s) (clk s) (done_ s ++ [mkret t (fn r) (hist r) (held0 r) v (own s t)])) t' = if bool_decide (t = t') then dom (own s t) else has s t').
    { intros t'. unfold has. cbn [done_]. rewrite reverse_snoc. cbn [mine r_t r_f r_v]. case_bool_decide as E; [|done]. subst t'. rewrite (post_dom _ _ _ _ _ _ _ W), D. done. }
    constructor; cbn [thr done_].
    + intros t' r' H. destruct (decide (t' = t)) as [-> |N]; [by rewrite lookup_delete in H|]. rewrite lookup_delete_ne in H by done. rewrite Hh, bool_decide_eq_false_2 by done. exact (b_run _ _ _ _ I t' r' N H).
    + intros t' H. rewrite Hh. case_bool_decide as E; [by subst t'|]. rewrite lookup_delete_ne in H by done. apply (b_idle _ _ _ _ I t'); [congruence|done].
    + exact (b_dis _ _ _ _ I).
    + intros x [Hx| ->%elem_of_list_singleton]%elem_of_app; [by apply (b_done _ _ _ _ I)|]. exact W.
  - constructor; cbn [thr done_].
    + intros t' r' H. destruct (decide (t' = t)) as [-> |N].
      * rewrite lookup_insert in H. injection H as <-. split; [by exists c, k|]. rewrite P. by split.
      * rewrite lookup_insert_ne in H by done. exact (b_run _ _ _ _ I t' r' N H).
    + intros t' H. destruct (decide (t' = t)) as [-> |N]; [by rewrite lookup_insert in H|]. rewrite lookup_insert_ne in H by done. by apply (b_idle _ _ _ _ I t').
    + exact (b_dis _ _ _ _ I).
    + exact (b_done _ _ _ _ I).
Qed.
Lemma used_false s fd t : used s fd = false -> own s t !! fd = None.
Proof.
  intros H. unfold own. destruct (owns s !! t) as [m|] eqn:E; [|done]. cbn [default from_option id]. destruct (m !! fd) as [k|] eqn:F; [|done]. exfalso. apply not_true_iff_false in H. apply H, existsb_exists.
  exists m. split; [|rewrite bool_decide_eq_true; by exists k]. apply elem_of_list_In, elem_of_list_fmap. exists (t, m). split; [done|]. by apply elem_of_map_to_list.
Qed.
Lemma eff_lookup c a m fd : is_Some (effect c a m !! fd) -> is_Some (m !! fd) \/ opens c a = Some fd.
Proof.
  destruct c, a as [n| |[|]|?]; cbn [effect opens]; auto; rewrite ?lookup_alter_is_Some; auto; try (rewrite lookup_delete_is_Some; tauto);
    (destruct (decide (n = fd)) as [-> |N]; [auto|rewrite lookup_insert_ne by done; auto]).
Qed.
Lemma own_ins s t m fs' th ck d t' : own (mkst (<[t := m]> (owns s)) th fs' ck d) t' = if bool_decide (t = t') then m else own s t'.
Proof. unfold own. cbn [owns]. case_bool_decide as E; [subst; by rewrite lookup_insert|by rewrite lookup_insert_ne]. Qed.
Lemma inv_step cx a4 s e s' o : Inv cx a4 s -> normal s e -> step cx a4 s e = Ok s' o -> Inv cx a4 s'.
Proof.
  intros I N H. destruct e as [t f|t a|p k|d]; cbn [step] in H.
  - destruct (thr s !! t) as [r|] eqn:T; [done|]. injection H as <- _. apply settle_inv; cbn [pc hist fn held0].
    + constructor; [intros t' r' _; apply (i_run _ _ _ I)|intros t' _; apply (i_idle _ _ _ I)|apply (i_dis _ _ _ I)|apply (i_done _ _ _ I)].
    + apply wp_body. destruct f; try done; exact N.
    + exact (i_idle _ _ _ I t T).
  - destruct (thr s !! t) as [r|] eqn:T; [|done]. destruct (i_run _ _ _ I t r T) as (_ & W & D). destruct (pc r) as [v|c k]; [done|]. destruct W as [Pr W].
    destruct (fits c a) eqn:Fi; [|done]. cbn [negb] in H. destruct (match c, a with Stat p, AStat x => negb (bool_decide (fs s !! p = x)) | _, _ => false end); [done|].
    destruct (match opens c a with Some fd => used s fd | None => false end) eqn:Us; [done|]. destruct (match target c with Some fd => negb (bool_decide (is_Some (own s t !! fd))) | None => false end); [done|]. injection H as <- _.
    apply settle_inv; cbn [pc hist fn held0].
    + constructor.
      * intros t' r' Nt. rewrite own_ins, bool_decide_eq_false_2 by done. exact (i_run _ _ _ I t' r').
      * intros t' Nt. rewrite own_ins, bool_decide_eq_false_2 by done. exact (i_idle _ _ _ I t').
      * assert (Hx: forall t' fd, is_Some (own s t' !! fd) -> is_Some (effect c a (own s t) !! fd) -> t' = t).
        { intros t' fd H1 H2. destruct (eff_lookup _ _ _ _ H2) as [H3|Ho]; [exact (i_dis _ _ _ I _ _ _ H1 H3)|]. rewrite Ho in Us. apply (used_false s fd t') in Us. rewrite Us in H1. by destruct H1. }
        intros t1 t2 fd. rewrite !own_ins. repeat case_bool_decide; subst; try done; intros H1 H2; [symmetry|..]; eauto using (i_dis _ _ _ I).
      * exact (i_done _ _ _ I).
    + rewrite own_ins, bool_decide_eq_true_2 by done. apply W; [done|]. intros fd Ho. rewrite Ho in Us. by apply used_false.
    + exact D.
  - injection H as <- _. destruct I. by constructor.
  - injection H as <- _. destruct I. by constructor.
Qed.
Lemma inv_init cx a4 : Inv cx a4 init.
Proof.
  constructor.
  - intros t r H. cbn [thr init] in H. by rewrite lookup_empty in H.
  - intros t _. unfold own, has. cbn [owns done_ init]. rewrite lookup_empty, reverse_nil. apply dom_empty_L.
  - intros t1 t2 fd [k H]. unfold own in H. cbn in H. by rewrite lookup_empty in H.
  - intros x H. by apply elem_of_nil in H.
Qed.
Lemma inv_reach cx a4 tr s : reach cx a4 tr s -> Inv cx a4 s.
Proof. induction 1; [apply inv_init|eauto using inv_step]. Qed.
Lemma some_answer c : exists a, fits c a = true /\ opens c a = None.
Proof. destruct c; first [by exists (AErr false)|by exists AOk|by exists (AStat None)]. Qed.
Lemma wp_length cx a4 f m0 p m h : wp p m h (post cx a4 f m0) -> (length h <= 12)%nat /\ ((exists c k, p = Do c k) -> (length h < 12)%nat).
Proof.
  revert m h. induction p as [v|c k IH]; intros m h H.
  - destruct H as (_ & L & _). split; [done|]. by intros (c & k & ?).
  - destruct H as [_ H]. destruct (some_answer c) as (a & Fa & Oa). specialize (H a Fa). rewrite Oa in H. apply IH in H; [|done]. destruct H as [H _]. rewrite app_length in H. cbn in H. split; [lia|]. intros _. lia.
Qed.

(** * C70 *)
(** no call uses a descriptor that is closed or another thread's *)
Theorem C70_safe cx a4 tr s e : reach cx a4 tr s -> normal s e -> step cx a4 s e <> Crash.
Proof.
  intros R N. pose proof (inv_reach _ _ _ _ R) as I. destruct e as [t f|t a|p k|d]; cbn [step]; try done.
  - by destruct (thr s !! t).
  - destruct (thr s !! t) as [r|] eqn:T; [|done]. destruct (i_run _ _ _ I t r T) as (_ & W & _). destruct (pc r) as [v|c k]; [done|]. destruct W as [Pr _]. unfold pre in Pr.
    destruct (negb (fits c a)); [done|]. destruct (match c, a with Stat p, AStat x => negb (bool_decide (fs s !! p = x)) | _, _ => false end); [done|]. destruct (match opens c a with Some fd => used s fd | None => false end); [done|].
    destruct (target c) as [fd|]; [|done]. by rewrite bool_decide_eq_true_2.
Qed.
(** every call that returned has done what [post] says *)
Theorem C70_calls cx a4 tr s x : reach cx a4 tr s -> x ∈ done_ s -> post cx a4 (r_f x) (r_0 x) (r_h x) (r_v x) (r_1 x).
Proof. intros R. apply (i_done _ _ _ (inv_reach _ _ _ _ R)). Qed.
(** a thread in no call has open exactly the descriptors its calls returned and it has not closed *)
Theorem C70_no_leak cx a4 tr s t fd : reach cx a4 tr s -> thr s !! t = None -> (is_Some (own s t !! fd) <-> fd ∈ mine t (reverse (done_ s))).
Proof. intros R T. rewrite <- elem_of_dom, (i_idle _ _ _ (inv_reach _ _ _ _ R) t T). done. Qed.
(** a number is never two threads' *)
Theorem C70_owner cx a4 tr s t1 t2 fd : reach cx a4 tr s -> is_Some (own s t1 !! fd) -> is_Some (own s t2 !! fd) -> t1 = t2.
Proof. intros R. apply (i_dis _ _ _ (inv_reach _ _ _ _ R)). Qed.
(** a call under way has made fewer than 12 system calls, and whatever is refused it goes on *)
Theorem C70_progress cx a4 tr s t r : reach cx a4 tr s -> thr s !! t = Some r -> (length (hist r) < 12)%nat /\ exists a s' o, step cx a4 s (ESys t a) = Ok s' o.
Proof.
  intros R T. pose proof (inv_reach _ _ _ _ R) as I. destruct (i_run _ _ _ I t r T) as ((c & k & P) & W & _). split; [by apply (wp_length _ _ _ _ _ _ _ W); eauto|].
  assert (Ha: exists a, fits c a = true /\ opens c a = None /\ match c, a with Stat p, AStat x => negb (bool_decide (fs s !! p = x)) | _, _ => false end = false).
  { destruct c; try (by exists (AErr false)); try (by exists AOk). exists (AStat (fs s !! p)). by rewrite bool_decide_eq_true_2. }
  destruct Ha as (a & Fa & Oa & Sa). rewrite P in W. destruct W as [Pr _]. unfold pre in Pr. eexists a, _, tt. cbn [step]. rewrite T, P, Fa. cbn [negb]. rewrite Sa, Oa. destruct (target c) as [fd|]; [rewrite bool_decide_eq_true_2 by done|]; done.
Qed.

(** * Non-vacuity and what does not hold *)
Definition normalb (s : st) (e : ev) : bool := match e with ECall t (FAccept fd _) | ECall t (FClose fd) => bool_decide (is_Some (own s t !! fd)) | _ => true end.
Fixpoint run (cx a4 : bool) (s : st) (l : list ev) : option st :=
  match l with [] => Some s | e :: l => if normalb s e then match step cx a4 s e with Ok s' _ => run cx a4 s' l | _ => None end else None end.
Lemma run_reach cx a4 tr s l s' : reach cx a4 tr s -> run cx a4 s l = Some s' -> reach cx a4 (tr ++ l) s'.
Proof.
  revert tr s. induction l as [|e l IH]; intros tr s R H; cbn [run] in H.
  - injection H as <-. by rewrite app_nil_r.
  - destruct (normalb s e) eqn:N; [|done]. destruct (step cx a4 s e) as [| |s1 o] eqn:E; try done. rewrite cons_middle, app_assoc. apply (IH _ s1); [|done]. apply (reach_snoc _ _ _ _ _ _ _ o R); [|done].
    unfold normalb, normal in *. destruct e as [t f|? ?|? ?|?]; try done; destruct f; try done; by apply bool_decide_eq_true in N.
Qed.
Definition demo : list ev :=
  [ECall 1 (FListen (mkaddr UNIX 5) (mkfl false true false false false)); EFs 5 (Some true); ESys 1 (AStat (Some true)); ECall 2 (FHalf (mkaddr V4 7) (Some (mkaddr V4 8)) 3); ESys 1 AOk; ESys 2 (AFd 4); ESys 1 (AFd 3);
   ESys 2 AOk; ESys 1 AOk; ESys 2 (AErr false); ESys 1 (AErr false); ESys 2 AOk; ESys 1 AOk; ESys 2 (AErr true); ESys 1 AOk;
   ECall 1 (FAccept 3 true); ECall 2 (FConnect (mkaddr V6 1) None 2); ESys 2 (AFd 5); ESys 1 (AFd 6); ESys 2 (AErr false); ESys 2 AOk; ECall 2 (FClose 4); ESys 2 AOk; ECall 1 (FUdp V6 (mkfl true false true false false)); ESys 1 (AFd 4); ESys 1 (AErr false)].
Theorem C70_demo : exists s, reach true true demo s /\
  ((fun x => (r_t x, r_v x, length (r_h x))) <$> done_ s = [(2, Some 4, 5); (1, Some 3, 7); (1, Some 6, 1); (2, None, 3); (2, None, 1); (1, Some 4, 2)])%nat /\
  ((fun x => r_1 x !! 3%nat) <$> done_ s = [None; Some (mksock UNIX false true true [REUSEADDR] (Some (mkaddr UNIX 5, [REUSEADDR])) true None); Some (mksock UNIX false true true [REUSEADDR] (Some (mkaddr UNIX 5, [REUSEADDR])) true None); None; None;
     Some (mksock UNIX false true true [REUSEADDR] (Some (mkaddr UNIX 5, [REUSEADDR])) true None)]) /\ own s 1 !! 6%nat = Some (mksock UNIX false true true [] None false None).
Proof.
  destruct (run true true init demo) as [s|] eqn:E; [|by vm_compute in E]. exists s. split; [exact (run_reach _ _ [] _ _ _ (reach_nil _ _ _) E)|].
  assert (E2: option_map (fun s => ((fun x => (r_t x, r_v x, length (r_h x))) <$> done_ s, (fun x => r_1 x !! 3%nat) <$> done_ s, own s 1 !! 6%nat)) (run true true init demo) = Some
    ([(2, Some 4, 5); (1, Some 3, 7); (1, Some 6, 1); (2, None, 3); (2, None, 1); (1, Some 4, 2)], [None; Some (mksock UNIX false true true [REUSEADDR] (Some (mkaddr UNIX 5, [REUSEADDR])) true None); Some (mksock UNIX false true true [REUSEADDR] (Some (mkaddr UNIX 5, [REUSEADDR])) true None); None; None;
     Some (mksock UNIX false true true [REUSEADDR] (Some (mkaddr UNIX 5, [REUSEADDR])) true None)], Some (mksock UNIX false true true [] None false None))%nat) by (vm_compute; reflexivity).
  rewrite E in E2. cbn [option_map] in E2. injection E2 as G1 G2 G3. split_and!; done.
Qed.
(** ksocket_connect with a timeout of one second may take any time: connect itself runs on a blocking socket, and poll comes after it *)
Theorem C70_timeout_refuted : forall d, exists tr s x, reach true true tr s /\ x ∈ done_ s /\ r_f x = FConnect (mkaddr V4 1) None 1 /\ r_v x = Some 3%nat /\ clk s = Z.of_nat d /\ tr = [ECall 1 (FConnect (mkaddr V4 1) None 1); ESys 1 (AFd 3); ETick d; ESys 1 AOk; ESys 1 AOk].
Proof.
  intros d. set (tr := [ECall 1 (FConnect (mkaddr V4 1) None 1); ESys 1 (AFd 3); ETick d; ESys 1 AOk; ESys 1 AOk]).
  destruct (run true true init tr) as [s|] eqn:E; [|by vm_compute in E].
  assert (E2: option_map (fun s => (clk s, (fun x => (r_f x, r_v x)) <$> done_ s)) (run true true init tr) = Some (0 + Z.of_nat d, [(FConnect (mkaddr V4 1) None 1, Some 3%nat)])).
  { set (z := Z.of_nat d). cbv -[Z.add Z.of_nat]. reflexivity. }
  rewrite E in E2. cbn [option_map] in E2. injection E2 as G1 G2. destruct (done_ s) as [|x [|y l]] eqn:D; try done. injection G2 as G2 G3.
  exists tr, s, x. split_and!; try done; [exact (run_reach _ _ [] _ _ _ (reach_nil _ _ _) E)|rewrite D; by left].
Qed.
(** without SOCK_CLOEXEC every socket is inherited by child processes *)
Theorem C70_inherit_refuted : exists tr s x fd k, reach false true tr s /\ x ∈ done_ s /\ r_v x = Some fd /\ own s 1 !! fd = Some k /\ cloexec_ k = false.
Proof.
  set (tr := [ECall 1 (FUdp V4 (mkfl true false false false false)); ESys 1 (AFd 3)]).
  destruct (run false true init tr) as [s|] eqn:E; [|by vm_compute in E].
  assert (E2: option_map (fun s => (own s 1 !! 3%nat, r_v <$> done_ s)) (run false true init tr) = Some (Some (mksock V4 true false false [] None false None), [Some 3%nat])) by (vm_compute; reflexivity).
  rewrite E in E2. cbn [option_map] in E2. injection E2 as G1 G2. destruct (done_ s) as [|x [|y l]] eqn:D; try done. assert (G3: r_v x = Some 3%nat) by (cbn in G2; congruence).
  exists tr, s, x, 3%nat. eexists. split_and!; [exact (run_reach _ _ [] _ _ _ (reach_nil _ _ _) E)|rewrite D; by left|done|exact G1|done].
Qed.
(** the path may have become an ordinary file between stat and unlink: that file is removed *)
Theorem C70_unlink_refuted : exists tr s s', reach true true tr s /\ fs s !! 5%nat = Some false /\ step true true s (ESys 1 AOk) = Ok s' tt /\ fs s' !! 5%nat = None.
Proof.
  set (tr := [EFs 5 (Some true); ECall 1 (FListen (mkaddr UNIX 5) (mkfl false false false false false)); ESys 1 (AStat (Some true)); EFs 5 (Some false)]).
  destruct (run true true init tr) as [s|] eqn:E; [|by vm_compute in E].
  assert (E2: option_map (fun s => (fs s !! 5%nat, match step true true s (ESys 1 AOk) with Ok s' _ => Some (fs s' !! 5%nat) | _ => None end)) (run true true init tr) = Some (Some false, Some None)) by (vm_compute; reflexivity).
  rewrite E in E2. cbn [option_map] in E2. destruct (step true true s (ESys 1 AOk)) as [| |s' []] eqn:G; try done. injection E2 as G1 G2.
  exists tr, s, s'. split_and!; [|done|done|done]. exact (run_reach _ _ [] _ _ _ (reach_nil _ _ _) E).
Qed.
(** an option that could not be set is forgotten: the listener asked to take IPv6 only is returned as good without it *)
Theorem C70_option_refuted : exists tr s x fd k, reach true true tr s /\ x ∈ done_ s /\ (exists a, r_f x = FListen a (mkfl false false true false false)) /\ r_v x = Some fd /\ own s 1 !! fd = Some k /\ lis k = true /\ V6ONLY ∉ opts k.
Proof.
  set (tr := [ECall 1 (FListen (mkaddr V6 1) (mkfl false false true false false)); ESys 1 (AFd 3); ESys 1 AOk; ESys 1 (AErr false); ESys 1 AOk; ESys 1 AOk]).
  destruct (run true true init tr) as [s|] eqn:E; [|by vm_compute in E].
  assert (E2: option_map (fun s => (own s 1 !! 3%nat, (fun x => (r_f x, r_v x)) <$> done_ s)) (run true true init tr) = Some (Some (mksock V6 false true true [REUSEADDR] (Some (mkaddr V6 1, [REUSEADDR])) true None), [(FListen (mkaddr V6 1) (mkfl false false true false false), Some 3%nat)])) by (vm_compute; reflexivity).
  rewrite E in E2. cbn [option_map] in E2. injection E2 as G1 G2. destruct (done_ s) as [|x [|y l]] eqn:D; try done. injection G2 as G2 G3.
  exists tr, s, x, 3%nat. eexists. split_and!; [exact (run_reach _ _ [] _ _ _ (reach_nil _ _ _) E)|rewrite D; by left|eauto|done|exact G1|done|]. cbn. by intros ?%elem_of_list_singleton.
Qed.
