(** C76: receiving datagrams.  Every completed read of a UDP socket gives one datagram, in the order in which they arrived, with its bytes, its
    sender and (IPv4, with KSOCKET_IP_PKTINFO) the local address it was sent to. *)
From stdpp Require Import list.
From Coq Require Import ZArith Lia.
From Verif Require Import UdpModel.
Local Open Scope Z_scope.

(** * Specification *)
(** what the kernel delivers on such a socket: struct sockaddr_in / sockaddr_in6 with their family *)
Definition dgram_ok (c : cfg) (d : dgram) : Prop :=
  if v6 c then length (d_from d) = 28%nat /\ le16 (d_from d) = 10
  else length (d_from d) = 16%nat /\ le16 (d_from d) = 2 /\ length (d_if d) = 4%nat /\ length (d_spec d) = 4%nat /\ length (d_to d) = 4%nat.
Definition event_ok (c : cfg) (e : event) : Prop := match e with Arrive d => dgram_ok c d | _ => True end.
Definition reachable (c : cfg) (l : list event) (s : st) : Prop :=
  exists junk, length junk = 40%nat /\ Forall (event_ok c) l /\ run c (init c junk) l = Some s.
Definition not_intr (e : event) : Prop := match e with Read _ o _ | Run o => o <> OIntr | _ => True end.
Definition taken (l : list done) : list dgram := omap n_dg l.
(** the bytes of the buffers one after the other: the datagram as far as it fits, the rest as before *)
Definition filled (d : dgram) (before after : list (list Z)) : Prop :=
  map length after = map length before /\
  concat after = take (length (concat before)) (d_body d) ++ drop (length (d_body d)) (concat before).
(** the answer of kudp_get_recvaddr for IPv4: the address in place, the rest of the sockaddr as it was *)
Definition recvaddr_is (e : option (list Z)) (to : list Z) : Prop :=
  forall a, le16 a = 2 -> (8 <= length a)%nat -> kudp_get_recvaddr e a = Some (take 4 a ++ to ++ drop 8 a).
Definition good (c : cfg) (x : done) : Prop :=
  match n_dg x with
  | Some d => dgram_ok c d /\ n_got x = Z.of_nat (Nat.min (length (d_body d)) (length (concat (n_bufs0 x)))) /\ filled d (n_bufs0 x) (n_bufs x) /\
      take (length (d_from d)) (n_addr x) = d_from d /\
      (pkt c = true -> v6 c = false -> recvaddr_is (n_ext x) (d_to d))
  | None => n_bufs x = n_bufs0 x /\ (be c <> UringBio -> n_got x = -1 \/ n_got x = -3)
  end.

(** * Lemmas *)
Lemma over_len new old : length (over new old) = length old.
Proof. unfold over. rewrite take_length, app_length, drop_length. lia. Qed.
Lemma over_short new old : (length new <= length old)%nat -> over new old = new ++ drop (length new) old.
Proof. intros. unfold over. apply take_ge. rewrite app_length, drop_length. lia. Qed.
Lemma scatter_len bufs : forall body, map length (scatter bufs body) = map length bufs.
Proof. induction bufs as [|b bufs IH]; intros body; [done|]. cbn. rewrite over_len, IH. done. Qed.
Lemma scatter_concat bufs : forall body,
  concat (scatter bufs body) = take (length (concat bufs)) body ++ drop (length body) (concat bufs).
Proof.
  induction bufs as [|b bufs IH]; intros body; cbn [scatter concat]; [rewrite drop_nil; done|].
  rewrite IH, over_short by (rewrite take_length; lia). rewrite app_length, take_length, drop_length.
  destruct (decide (length b <= length body)%nat) as [H|H].
  - rewrite (Nat.min_l _ _ H), drop_all, app_nil_r, drop_app_ge by lia. rewrite app_assoc, take_take_drop. done.
  - assert (Hle : (length body <= length b)%nat) by lia. rewrite (Nat.min_r _ _ Hle). rewrite (drop_ge body (length b)) by lia.
    replace (length body - length b)%nat with 0%nat by lia. rewrite take_nil, drop_0. cbn [app].
    rewrite (take_ge body (length b)) by lia. rewrite (take_ge body (length b + _)) by lia. rewrite drop_app_le by lia. rewrite app_assoc. done.
Qed.

Lemma le16_app l l' : (2 <= length l)%nat -> le16 (l ++ l') = le16 l.
Proof. destruct l as [|a [|b l]]; cbn; [lia|lia|done]. Qed.
Lemma take_over new old : (length new <= length old)%nat -> take (length new) (over new old) = new.
Proof. intros. rewrite over_short by done. apply take_app. Qed.

(** c->addr: cleared, or with the family of the socket; c->udp has its size *)
Definition fam (c : cfg) : Z := if v6 c then 10 else 2.
Record Inv0 (c : cfg) (s : st) : Prop := {
  i_addr : length (addr s) = 28%nat /\ (le16 (addr s) = 0 \/ le16 (addr s) = fam c);
  i_ext : match ext s with Some l => pkt c = true /\ length l = 40%nat | None => pkt c = false end;
  i_queue : Forall (dgram_ok c) (queue s);
  i_order : arrived s = taken (log s) ++ queue s;
  i_log : Forall (good c) (log s) }.
Definition once (s : st) : Prop := reads s = (length (log s) + match reading s with Some _ => 1 | None => 0 end)%nat.
Definition Inv (c : cfg) (s : st) : Prop := Inv0 c s /\ once s.

Lemma taken_app l x : taken (l ++ [x]) = taken l ++ match n_dg x with Some d => [d] | None => [] end.
Proof. unfold taken. rewrite omap_app. cbn. destruct (n_dg x); done. Qed.

(** receiving one datagram *)
Lemma from_len c d : dgram_ok c d -> (2 <= length (d_from d) <= 28)%nat /\ le16 (d_from d) = fam c.
Proof. unfold dgram_ok, fam. destruct (v6 c); [intros [-> ->]|intros (-> & -> & _)]; split; lia || done. Qed.
Lemma addr_full c s d : length (addr s) = 28%nat -> le16 (addr s) = 0 \/ le16 (addr s) = fam c -> dgram_ok c d ->
  take (ksocket_addr_len (addr s)) (d_from d) = d_from d.
Proof.
  intros Hl Hf Hd. unfold ksocket_addr_len. apply take_ge. unfold dgram_ok, fam in *.
  destruct (v6 c); [destruct Hd as [-> _]|destruct Hd as (-> & _)]; destruct Hf as [-> | ->]; cbn; lia.
Qed.
Lemma control_recvaddr c d (l : list Z) : pkt c = true -> v6 c = false -> dgram_ok c d -> length l = 40%nat ->
  recvaddr_is (Some (over (control c d) (replicate (length l) 0))) (d_to d).
Proof.
  intros Hp Hv Hd Hl a Ha Hla. unfold dgram_ok in Hd. rewrite Hv in Hd. destruct Hd as (_ & _ & H1 & H2 & H3).
  unfold control. rewrite Hp, Hv. cbn [andb negb]. rewrite take_ge by (unfold cmsg4; rewrite !app_length; cbn; lia).
  assert (El : length (cmsg4 d) = 28%nat) by (unfold cmsg4; rewrite !app_length; cbn; lia).
  rewrite over_short by (rewrite replicate_length; lia). rewrite El.
  set (r := drop 28 (replicate (length l) 0)).
  unfold kudp_get_recvaddr. rewrite Ha, Z.eqb_refl.
  assert (E1 : le32 (drop 8 (cmsg4 d ++ r)) = 0) by done. assert (E2 : le32 (drop 12 (cmsg4 d ++ r)) = 8) by done. rewrite E1, E2. cbn [Z.eqb andb].
  assert (E3 : take 4 (drop 24 (cmsg4 d ++ r)) = d_to d).
  { unfold cmsg4. rewrite !app_assoc. rewrite <- app_assoc. rewrite drop_app_alt by (rewrite !app_length; cbn; lia).
    rewrite <- H3. apply take_app. }
  rewrite E3. f_equal. unfold put. f_equal. rewrite over_short by (rewrite drop_length; lia). f_equal. rewrite drop_drop, H3. done.
Qed.

Lemma inv_read_event c o bufs s : Inv0 c s -> reads s = S (length (log s)) -> Inv c (udp_read_event c o bufs s).
Proof.
  intros [[Ia1 Ia2] Ie Iq Io Il] Hn. unfold udp_read_event. cbn [queue ext addr].
  assert (Hext : match clear_ext (ext s) with Some l => pkt c = true /\ length l = 40%nat | None => pkt c = false end).
  { destruct (ext s) as [l|]; [|exact Ie]. cbn. rewrite replicate_length. exact Ie. }
  assert (Hagain : forall rv ed po ir, Inv c (sel_read c bufs (mkst (queue s) (arrived s) (addr s) (clear_ext (ext s)) false ir None rv ed po (reads s) (log s)))).
  { intros rv ed po ir. unfold sel_read, Inv, once. destruct (be c); (split; [constructor; cbn; done|cbn; lia]). }
  assert (Hfail : forall got, got = -1 \/ got = -3 -> Inv c (finish bufs bufs got None
     (mkst (queue s) (arrived s) (addr s) (clear_ext (ext s)) (rready s) (inready s) None (rev s) (edge s) (poll s) (reads s) (log s)))).
  { intros got Hg. split; [constructor; cbn -[taken]; try done|unfold once; cbn; rewrite app_length; cbn; lia].
    - rewrite taken_app. cbn. rewrite app_nil_r. done.
    - apply Forall_app. split; [done|]. constructor; [|done]. cbn. done. }
  destruct o; [|apply Hagain|apply Hfail; auto|apply Hfail; auto].
  destruct (queue s) as [|d q] eqn:Eq; [apply Hagain|]. apply Forall_cons in Iq as [Hd Iq].
  destruct (from_len c d Hd) as [Hfl Hff]. rewrite (addr_full c s d) by done.
  assert (Hov : over (d_from d) (addr s) = d_from d ++ drop (length (d_from d)) (addr s)) by (apply over_short; lia).
  split; [|unfold once; cbn; rewrite app_length; cbn; lia].
  constructor; cbn -[taken].
  - split; [rewrite over_len; done|]. right. rewrite Hov, le16_app by lia. done.
  - destruct (ext s) as [l|]; cbn; [|done]. rewrite over_len, replicate_length. done.
  - done.
  - rewrite taken_app. cbn. rewrite Io, <- app_assoc. done.
  - apply Forall_app. split; [done|]. constructor; [|done]. cbn. split; [done|]. split; [done|]. split.
    { split; [apply scatter_len|apply scatter_concat]. }
    split; [apply take_over; lia|]. intros Hp Hv. destruct (ext s) as [l|]; [|congruence]. cbn. apply control_recvaddr; [done|done|done|apply Ie].
Qed.
Lemma inv_step c s e s' : Inv c s -> event_ok c e -> step c s e = Some s' -> Inv c s'.
Proof.
  intros [HI Ho] He Hs. pose proof HI as [Ia Ie Iq Io Il]. unfold once in Ho. destruct e as [d|main o bufs| |o]; cbn in Hs.
  - injection Hs as <-. split; [|exact Ho]. constructor; cbn -[taken]; try done.
    + apply Forall_app. split; [done|]. constructor; done.
    + rewrite Io, <- app_assoc. done.
  - destruct (reading s) eqn:Er; [done|]. destruct (rready s).
    + destruct main; injection Hs as <-; [split; [constructor; done|unfold once; cbn; lia]|].
      apply inv_read_event; [constructor; done|cbn; lia].
    + injection Hs as <-. unfold sel_read. cbn [be queue]. destruct (be c); (split; [constructor; done|unfold once; cbn; lia]).
  - destruct (be c) eqn:Eb.
    + destruct (edge s); [|done]. injection Hs as <-. split; [constructor; done|exact Ho].
    + destruct (poll s), (queue s) eqn:Eq, (reading s) eqn:Er; try done. injection Hs as <-.
      split; [constructor; cbn; rewrite ?Eq; done|unfold once; cbn; rewrite ?Er; lia].
    + destruct (poll s), (queue s) eqn:Eq, (reading s) eqn:Er; try done. injection Hs as <-.
      split; [|unfold once; cbn; rewrite app_length; cbn; lia]. constructor; cbn -[taken]; rewrite ?Eq; try done.
      * rewrite taken_app. cbn. rewrite app_nil_r. done.
      * apply Forall_app. split; [done|]. constructor; [|done]. cbn. split; [done|]. intros Hx. congruence.
  - destruct (inready s); [|done]. destruct (reading s) as [bufs|] eqn:Er.
    + destruct (rready s); injection Hs as <-.
      * apply inv_read_event; [constructor; done|cbn; lia].
      * split; [constructor; done|unfold once; cbn; lia].
    + injection Hs as <-. split; [constructor; done|unfold once; cbn; lia].
Qed.
Lemma inv_init c junk : length junk = 40%nat -> Inv c (init c junk).
Proof.
  intros H. split; [|done]. unfold init. constructor; cbn; try done.
  - split; [done|]. left. done.
  - destruct (pkt c); done.
Qed.
Lemma inv_run c l : forall s s', Inv c s -> Forall (event_ok c) l -> run c s l = Some s' -> Inv c s'.
Proof.
  induction l as [|e l IH]; intros s s' HI Hl Hr; cbn in Hr; [by injection Hr as <-|]. apply Forall_cons in Hl as [He Hl].
  destruct (step c s e) eqn:Es; [|done]. eapply IH; [|done|done]. eapply inv_step; done.
Qed.
Lemma reach_inv c l s : reachable c l s -> Inv c s.
Proof. intros (junk & Hj & Hl & Hr). eapply inv_run; [|done|done]. apply inv_init. done. Qed.

(** * Theorems *)
(** the datagrams that reads took, then those still waiting, are those that arrived, in this order: none is lost, none given twice *)
Theorem C76_order c l s : reachable c l s -> arrived s = taken (log s) ++ queue s.
Proof. intros H. apply (reach_inv _ _ _ H). Qed.
Fixpoint arrivals (l : list event) : list dgram := match l with [] => [] | Arrive d :: l => d :: arrivals l | _ :: l => arrivals l end.
Lemma arrived_step c s e s' : step c s e = Some s' -> arrived s' = arrived s ++ arrivals [e].
Proof.
  assert (Hre : forall o bufs s, arrived (udp_read_event c o bufs s) = arrived s).
  { intros o bufs s0. unfold udp_read_event, sel_read. destruct o, (be c); cbn; try done; destruct (queue s0); done. }
  destruct e as [d|main o bufs| |o]; cbn; rewrite ?app_nil_r.
  - intros [= <-]. done.
  - destruct (reading s); [done|]. destruct (rready s); [destruct main; intros [= <-]; [done|rewrite Hre; done]|].
    intros [= <-]. unfold sel_read. destruct (be c); done.
  - destruct (be c); [destruct (edge s); [intros [= <-]; done|done]| |]; destruct (poll s), (queue s), (reading s); try done; intros [= <-]; done.
  - destruct (inready s); [|done]. destruct (reading s); [destruct (rready s)|]; intros [= <-]; try done. rewrite Hre. done.
Qed.
Theorem C76_arrived c l s : reachable c l s -> arrived s = arrivals l.
Proof.
  intros (junk & _ & _ & Hr). enough (H : forall l s0 s', run c s0 l = Some s' -> arrived s' = arrived s0 ++ arrivals l).
  { rewrite (H _ _ _ Hr). done. }
  clear. induction l as [|e l IH]; intros s0 s' Hr; cbn in Hr; [injection Hr as <-; rewrite app_nil_r; done|].
  destruct (step c s0 e) as [s1|] eqn:Es; [|done]. rewrite (IH _ _ Hr), (arrived_step _ _ _ _ Es), <- app_assoc. f_equal. destruct e; done.
Qed.
(** what a completed read gives: [good] *)
Theorem C76_delivered c l s x d : reachable c l s -> x ∈ log s -> n_dg x = Some d ->
  n_got x = Z.of_nat (Nat.min (length (d_body d)) (length (concat (n_bufs0 x)))) /\ filled d (n_bufs0 x) (n_bufs x) /\
  take (length (d_from d)) (n_addr x) = d_from d /\ (pkt c = true -> v6 c = false -> recvaddr_is (n_ext x) (d_to d)).
Proof.
  intros H Hx Hd. destruct (reach_inv _ _ _ H) as [[_ _ _ _ Il] _]. rewrite Forall_forall in Il. specialize (Il _ Hx).
  unfold good in Il. rewrite Hd in Il. apply Il.
Qed.
(** a read that took none reports an error and leaves the buffers alone (not so on io_uring with ENABLE_KSSL_BIO) *)
Theorem C76_failed_partial c l s x : be c <> UringBio -> reachable c l s -> x ∈ log s -> n_dg x = None ->
  n_bufs x = n_bufs0 x /\ (n_got x = -1 \/ n_got x = -3).
Proof.
  intros Hb H Hx Hd. destruct (reach_inv _ _ _ H) as [[_ _ _ _ Il] _]. rewrite Forall_forall in Il. specialize (Il _ Hx).
  unfold good in Il. rewrite Hd in Il. destruct Il as [? Hg]. auto.
Qed.
(** every read that was started completed once or is the one that is pending *)
Theorem C76_once c l s : reachable c l s -> reads s = (length (log s) + match reading s with Some _ => 1 | None => 0 end)%nat.
Proof. intros H. apply (reach_inv _ _ _ H). Qed.

(** progress *)
Record Prog (c : cfg) (s : st) : Prop := {
  p_edge : be c = Epoll -> rready s = false -> rev s = true -> queue s <> [] -> edge s = true;
  p_ready : reading s <> None -> rready s = true -> inready s = true;
  p_rev : be c = Epoll -> reading s <> None -> rready s = false -> rev s = true;
  p_poll : be c <> Epoll -> reading s <> None -> rready s = false -> poll s = true;
  p_list : inready s = true -> reading s <> None /\ rready s = true }.
Lemma prog_read_event c o bufs s : o <> OIntr -> (be c = Epoll -> rready s = false -> rev s = true -> queue s <> [] -> edge s = true) ->
  inready s = false -> Prog c (udp_read_event c o bufs s).
Proof.
  intros Ho He Hi. unfold udp_read_event, sel_read. destruct o; try done.
  - cbn. destruct (queue s) eqn:Eq.
    + destruct (be c) eqn:Eb; constructor; cbn; rewrite ?Hi, ?Eq; try done; intros; congruence.
    + constructor; cbn; rewrite ?Hi; try done. intros A B C D. apply He; try done; congruence.
  - constructor; cbn; rewrite ?Hi; done.
  - constructor; cbn; rewrite ?Hi; done.
Qed.
Lemma prog_step c s e s' : be c <> UringBio -> Prog c s -> not_intr e -> step c s e = Some s' -> Prog c s'.
Proof.
  intros Hb [P1 P2 P3 P4 P5] Hn Hs. destruct e as [d|main o bufs| |o]; cbn in Hs, Hn.
  - injection Hs as <-. constructor; cbn; try done. intros A B C D. rewrite C. apply orb_true_r.
  - destruct (reading s) eqn:Er; [done|].
    assert (Hir : inready s = false) by (destruct (inready s); [destruct (P5 eq_refl); done|done]).
    destruct (rready s) eqn:Err.
    + destruct main; injection Hs as <-.
      * constructor; cbn; done.
      * apply prog_read_event; cbn; [done| |done]. intros; apply P1; congruence.
    + injection Hs as <-. unfold sel_read. destruct (be c) eqn:Eb; constructor; cbn; rewrite ?Hir; try done; try (intros; congruence).
      intros _ _ _ Hq. destruct (rev s) eqn:Erv; [rewrite P1; done|]. destruct (queue s); [done|]. apply orb_true_r.
  - destruct (be c) eqn:Eb; [| |done].
    + destruct (edge s); [|done]. injection Hs as <-. constructor; cbn; try done.
      * destruct (reading s); done.
      * intros Hi. destruct (reading s) eqn:Er; [done|]. destruct (P5 Hi). done.
    + destruct (poll s), (queue s) eqn:Eq, (reading s) eqn:Er; try done. injection Hs as <-. constructor; cbn; try done; intros; congruence.
  - destruct (inready s) eqn:Ei; [|done]. destruct (P5 eq_refl) as [A B]. destruct (reading s) as [bufs|]; [|done]. rewrite B in Hs.
    injection Hs as <-. apply prog_read_event; [done| |done]. cbn. intros; apply P1; congruence.
Qed.
Lemma prog_run c l : forall s s', be c <> UringBio -> Prog c s -> Forall not_intr l -> run c s l = Some s' -> Prog c s'.
Proof.
  induction l as [|e l IH]; intros s s' Hb HP Hl Hr; cbn in Hr; [by injection Hr as <-|]. apply Forall_cons in Hl as [He Hl].
  destruct (step c s e) eqn:Es; [|done]. eapply IH; [done| |done|done]. eapply prog_step; done.
Qed.
(** the next rounds of the loop: the socket is polled if it is not on the READY list yet, then the list is worked off *)
Definition rounds (s : st) : list event := (if inready s then [] else [Poll]) ++ [Run ONorm].
(** if no recvmsg was interrupted, a pending read gets the first waiting datagram in the next round of the loop *)
Theorem C76_progress_partial c l s d q : be c <> UringBio -> reachable c l s -> Forall not_intr l -> reading s <> None -> queue s = d :: q ->
  exists s' x, run c s (rounds s) = Some s' /\ log s' = log s ++ [x] /\ n_dg x = Some d /\ queue s' = q /\ reading s' = None.
Proof.
  intros Hb (junk & _ & _ & Hr) Hn Hrd Hq. assert (HP : Prog c s).
  { eapply prog_run; [done| |done|done]. constructor; done. }
  destruct HP as [P1 P2 P3 P4 P5]. destruct (reading s) as [bufs|] eqn:Er; [|done].
  assert (Hrun : forall s0, inready s0 = true -> rready s0 = true -> reading s0 = Some bufs -> queue s0 = d :: q -> log s0 = log s ->
    exists s' x, run c s0 [Run ONorm] = Some s' /\ log s' = log s ++ [x] /\ n_dg x = Some d /\ queue s' = q /\ reading s' = None).
  { intros s0 A B C D E. cbn. rewrite A, C, B. unfold udp_read_event. cbn. rewrite D. eexists _, _. split; [reflexivity|].
    cbn. rewrite E. done. }
  unfold rounds. destruct (inready s) eqn:Ei.
  - destruct (P5 eq_refl) as [_ B]. apply Hrun; done.
  - assert (Hrr : rready s = false) by (destruct (rready s); [specialize (P2 ltac:(done) eq_refl); done|done]).
    cbn [app run step]. destruct (be c) eqn:Eb; [| |done].
    + rewrite P1; [|done|done|apply P3; done|rewrite Hq; done]. apply Hrun; cbn; rewrite ?Er; done.
    + rewrite P4, Hq, Er by done. apply Hrun; cbn; rewrite ?Er; done.
Qed.

(** * What does not hold *)
Definition ex_cfg (b : backend) (six : bool) : cfg := mkcfg b six true.
Definition ex_junk : list Z := replicate 40 7.
Definition ex_d4 : dgram := mkd [2;0;0;53;10;0;0;1;0;0;0;0;0;0;0;0] [1;0;0;0] [10;0;0;2] [10;0;0;9] [65;66;67;68].
Definition ex_d6 : dgram := mkd ([10;0;0;53;0;0;0;0] ++ replicate 15 32 ++ [1;0;0;0;0]) [] [] [] [65].
Definition ex_run (c : cfg) (l : list event) : st := match run c (init c ex_junk) l with Some s => s | None => init c ex_junk end.
Definition ex_ok (c : cfg) (l : list event) : bool := match run c (init c ex_junk) l with Some _ => true | None => false end.
Lemma ex_reach c l : ex_ok c l = true -> Forall (event_ok c) l -> reachable c l (ex_run c l).
Proof.
  intros H Hl. exists ex_junk. split; [reflexivity|]. split; [done|]. unfold ex_ok in H. unfold ex_run. destruct (run c (init c ex_junk) l); done.
Qed.
Definition ex_bio : list event := [Read true ONorm [[0;0;0;0;0]]; Arrive ex_d4; Poll].
(** io_uring with ENABLE_KSSL_BIO: the read completes with 1 (POLLIN); nothing was received *)
Theorem C76_uring_bio_refuted : exists c l s x, be c = UringBio /\ reachable c l s /\ log s = [x] /\ n_got x = 1 /\ n_bufs x = n_bufs0 x /\
  n_dg x = None /\ length (queue s) = 1%nat.
Proof.
  exists (ex_cfg UringBio false), ex_bio, (ex_run (ex_cfg UringBio false) ex_bio),
    (mkdone None [[0;0;0;0;0]] [[0;0;0;0;0]] 1 (replicate 28 0) (Some ex_junk)).
  split; [vm_compute; reflexivity|]. split; [apply ex_reach; [vm_compute; reflexivity|repeat constructor]|].
  split_and!; vm_compute; reflexivity.
Qed.
Definition ex_intr : list event := [Read true ONorm [[0;0;0;0;0]]; Arrive ex_d4; Poll; Run OIntr].
(** an interrupted recvmsg is taken for lack of data: with epoll the read waits although a datagram is there, and no event will come *)
Theorem C76_interrupted_refuted : exists c l s, be c = Epoll /\ reachable c l s /\ reading s <> None /\ length (queue s) = 1%nat /\
  step c s Poll = None /\ forall o, step c s (Run o) = None.
Proof.
  exists (ex_cfg Epoll false), ex_intr, (ex_run (ex_cfg Epoll false) ex_intr).
  split; [reflexivity|]. split; [apply ex_reach; [vm_compute; reflexivity|repeat constructor]|].
  split; [vm_compute; discriminate|]. split; [vm_compute; reflexivity|]. split; [vm_compute; reflexivity|]. intros o. vm_compute. reflexivity.
Qed.
Definition ex_six : list event := [Read true ONorm [[0;0;0;0;0]]; Arrive ex_d6; Poll; Run ONorm].
(** on an IPv6 socket the local address of a datagram is never known *)
Theorem C76_ipv6_recvaddr_refuted : exists c l s x d, v6 c = true /\ pkt c = true /\ reachable c l s /\ log s = [x] /\ n_dg x = Some d /\
  forall a, le16 a = 10 -> kudp_get_recvaddr (n_ext x) a = None.
Proof.
  exists (ex_cfg Epoll true), ex_six, (ex_run (ex_cfg Epoll true) ex_six),
    (mkdone (Some ex_d6) [[0;0;0;0;0]] [[65;0;0;0;0]] 1 ([10;0;0;53;0;0;0;0] ++ replicate 15 32 ++ [1;0;0;0;0]) (Some (replicate 40 0))), ex_d6.
  split; [reflexivity|]. split; [reflexivity|]. split; [apply ex_reach; [vm_compute; reflexivity|repeat constructor]|].
  split; [vm_compute; reflexivity|]. split; [reflexivity|]. intros a Ha. unfold kudp_get_recvaddr. cbn [n_ext]. rewrite Ha. vm_compute. reflexivity.
Qed.
(** before the first read kudp_get_recvaddr reads memory nobody wrote: any answer is possible *)
Theorem C76_unset_recvaddr_refuted : exists c junk a r, length junk = 40%nat /\ kudp_get_recvaddr (ext (init c junk)) a = Some r.
Proof.
  exists (ex_cfg Epoll false), (replicate 12 0 ++ [8;0;0;0] ++ replicate 24 99), (2 :: 0 :: replicate 14 0), (2 :: 0 :: 0 :: 0 :: replicate 4 99 ++ replicate 8 0).
  split; vm_compute; reflexivity.
Qed.
Definition ex_two : list event :=
  [Arrive ex_d4; Read true ONorm [[0;0;0]; [9;9]]; Poll; Run ONorm; Read false ONorm [[0]]; Arrive ex_d4; Poll; Run ONorm].
(** two datagrams, buffers of 3 and 2 bytes *)
Theorem C76_example : exists s, reachable (ex_cfg Epoll false) ex_two s /\
  map n_bufs (log s) = [[[65;66;67]; [68;9]]; [[65]]] /\ map n_got (log s) = [4; 1] /\ queue s = [].
Proof.
  exists (ex_run (ex_cfg Epoll false) ex_two). split; [apply ex_reach; [vm_compute; reflexivity|repeat constructor]|].
  split_and!; vm_compute; reflexivity.
Qed.
