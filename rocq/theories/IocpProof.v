(** Invariant of the Windows backend: who holds which request. *)
From Verif Require Export IocpSpec.
Local Open Scope Z_scope.

(** ** transitions, normalised *)
Definition isop (c : call) : bool := match c with CNextR | CNextW | CAccept => false | _ => true end.
Definition nextc (d : dir) : call := match d with R => CNextR | W => CNextW end.
Definition lok (x : ob) (l : option lst) : Prop :=
  (l = loc x /\ (loc x <> None \/ kd x = KFile)) \/ (loc x = None /\ (l = Some LRw \/ l = Some LConn)).
Definition after (x : ob) : option lst :=
  if bz (sr x) && bz (sw x) then (if f2 (sr x) || f2 (sw x) then loc x else Some LRw) else None.
Definition upd_side (x : ob) (d : dir) (y : side) (l : option lst) : ob := set_loc (set_sid x d y) l.

Inductive tr (s : sys) : sys -> Prop :=
| T_open o k t : objs s !! o = None -> k <> KUdp false ->
    tr s (log [OOpen o k] (put o (Ob k (Sd false false 0) (Sd false false 0) None t None true false) s))
| T_close o x l : objs s !! o = Some x -> bz (sr x) = false -> bz (sw x) = false -> acc s = None ->
    l = match acs x with Some n => [OSockClose n] | None => [] end -> tr s (log (OClose o :: l) (s_objs (delete o (objs s)) s))
| T_start o x c l : objs s !! o = Some x -> kd x <> KListen -> bz (sid x (cside c)) = false -> acc s = None -> isop c = true -> lok x l ->
    (c = CRead -> kd x <> KUdp false) ->
    tr s (log [OMade (nx s) o c] (s_nx (S (nx s)) (s_pend (pend s ++ [(o, cside c, nx s)]) (put o (upd_side x (cside c) (Sd true false (nx s)) l) s))))
| T_fail o x c a : objs s !! o = Some x -> kd x <> KListen -> bz (sid x (cside c)) = false -> acc s = None -> isop c = true ->
    a = OCb (nx s) (-1) \/ a = OFail (nx s) ->
    tr s (log [OMade (nx s) o c; ONoStart (nx s); a] (s_nx (S (nx s)) (put o (set_sid x (cside c) (Sd false false (nx s))) s)))
| T_next2 o x d : objs s !! o = Some x -> kd x = KConn -> bz (sid x d) = false -> acc s = None ->
    tr s (log [OMade (nx s) o (nextc d)] (s_nx (S (nx s)) (put o (upd_side x d (Sd true true (nx s)) (Some LReady)) s)))
| T_acc0 o x : objs s !! o = Some x -> kd x = KListen -> bz (sr x) = false -> acc s = None -> srv x = false ->
    tr s (log [OMade (nx s) o CAccept; OFail (nx s)] (s_nx (S (nx s)) (put o (set_sid x W (Sd false false (nx s))) s)))
| T_acc o x : objs s !! o = Some x -> kd x = KListen -> bz (sr x) = false -> acc s = None -> acs x = None ->
    tr s (log [OMade (nx s) o CAccept] (s_acc (Some (o, nx s)) (s_nx (S (nx s)) (put o (set_sid x W (Sd false false (nx s))) s))))
| T_acc_ok o k x : acc s = Some (o, k) -> objs s !! o = Some x ->
    tr s (log [OSock o (nsk s)] (s_acc None (s_nsk (S (nsk s)) (s_pend (pend s ++ [(o, R, k)])
      (put o (set_sid (set_acs x (Some (nsk s))) R (Sd true false (rq (sr x)))) s)))))
| T_acc_retry o k : acc s = Some (o, k) -> tr s (log [OSock o (nsk s); OSockClose (nsk s)] (s_nsk (S (nsk s)) s))
| T_acc_end o k x : acc s = Some (o, k) -> objs s !! o = Some x -> srv x = false -> tr s (log [OFail k] (s_acc None s))
| T_stop o x : objs s !! o = Some x -> tr s (log [OStop o] (put o (set_srv x false) s))
| T_take o x (g : bool) l : objs s !! o = Some x -> acc s = None ->
    l = match acs x with Some n => [if g then OHand n else OSockClose n] | None => [] end -> tr s (log l (put o (set_acs x None) s))
| T_post v : tr s (log [OPost (nx s) v] (s_nx (S (nx s)) (s_cq (cq s ++ [KNext (nx s) v]) (s_heap ({[nx s]} ∪ heap s) s))))
| T_drop v : tr s (log [OPost (nx s) v; ODrop (nx s)] (s_nx (S (nx s)) s))
| T_kern i p v : pend s !! i = Some p -> tr s (log [OKern (p.2) v] (s_cq (cq s ++ [KOp p v]) (s_pend (delete i (pend s)) s)))
| T_hop o d k v l x : cq s = KOp (o, d, k) v :: l -> objs s !! o = Some x -> bz (sid x d) = true -> f2 (sid x d) = false -> pc s = PIdle -> acc s = None ->
    tr s (log [OCb (rqo x d) (got v)] (put o (upd_side x d (Sd false false (rq (sid x d))) (after x)) (s_cq l s)))
| T_hnext k v l : cq s = KNext k v :: l -> k ∈ heap s -> tr s (log [OCb k v] (s_heap (heap s ∖ {[k]}) (s_cq l s)))
| T_ready o x : objs s !! o = Some x -> loc x = Some LReady -> pc s = PIdle -> acc s = None ->
    tr s (s_pc (PW o (bz (sr x)) (bz (sw x)) (f2 (sr x)) (f2 (sw x))) (put o (set_loc x None) s))
| T_evW o x r r2 : objs s !! o = Some x -> pc s = PW o r true r2 true -> acc s = None ->
    tr s (s_pc (PR o r false r2) (log [OCb (rq (sw x)) 0] (put o (set_sid x W (Sd false false (rq (sw x)))) s)))
| T_evR o x w : objs s !! o = Some x -> pc s = PR o true w true -> acc s = None ->
    tr s (s_pc (PE o false w) (log [OCb (rq (sr x)) 0] (put o (set_sid x R (Sd false false (rq (sr x)))) s)))
| T_skipW o r w r2 w2 : pc s = PW o r w r2 w2 -> w2 && w = false -> tr s (s_pc (PR o r w r2) s)
| T_skipR o r w r2 : pc s = PR o r w r2 -> r2 && r = false -> tr s (s_pc (PE o r w) s)
| T_skipE o : pc s = PE o false false -> tr s (s_pc PIdle s)
| T_list o x r w : objs s !! o = Some x -> pc s = PE o r w -> r || w = true -> tr s (s_pc PIdle (put o (list_rw x) s))
| T_tmo o x : objs s !! o = Some x -> bz (sr x) = true -> tr s (log [OTmo (rqo x R)] s)
| T_shut o x : objs s !! o = Some x -> loc x = Some LConn \/ loc x = Some LRw -> pc s = PIdle -> acc s = None ->
    tr s (log [OShut o] (put o (set_shut (set_loc x None) true) s)).

(** ** who holds a request *)
Inductive holder := HS (o : nat) (d : dir) | HN (k : nat) | HD (k : nat).
#[global] Instance holder_dec : EqDecision holder. Proof. solve_decision. Defined.
Definition nexts (l : list comp) : list nat := omap (λ c, match c with KNext k _ => Some k | _ => None end) l.
Definition cops (l : list comp) : list op := omap (λ c, match c with KOp p _ => Some p | _ => None end) l.
Definition accp (s : sys) (o : nat) (d : dir) : bool := match acc s, d with Some (o', _), R => bool_decide (o' = o) | _, _ => false end.
Definition val (s : sys) (a : holder) : option nat :=
  match a with
  | HS o d => match objs s !! o with Some x => if bz (sid x d) || accp s o d then Some (rqo x d) else None | None => None end
  | HN k => if decide (k ∈ nexts (cq s)) then Some k else None
  | HD k => if decide (ODrop k ∈ hist s) then Some k else None
  end.
Record K (v : holder -> option nat) (h : list obs) (n : nat) : Prop := {
  k_inj : forall a b k, v a = Some k -> v b = Some k -> a = b;
  k_open : forall k, (exists a, v a = Some k) <-> unanswered h k;
  k_one : forall k, (answers h k <= 1)%nat;
  k_lt : forall k, made h k -> (k < n)%nat;
  k_ans : forall k, answers h k <> 0%nat -> made h k }.

Lemma made_app h1 h2 k : made (h1 ++ h2) k <-> made h1 k \/ made h2 k.
Proof.
  unfold made. split.
  - intros [(o & c & H)|(v & H)]; apply elem_of_app in H as [H|H]; eauto 6.
  - intros [[(o & c & H)|(v & H)]|[(o & c & H)|(v & H)]]; [left|right|left|right]; repeat eexists; apply elem_of_app; eauto.
Qed.
Section K.
Context (v v' : holder -> option nat) (h l : list obs) (n : nat) (HK : K v h n).
Lemma K_fresh a k : v a = Some k -> (k < n)%nat.
Proof. intros H. apply (k_lt _ _ _ HK). by apply (k_open _ _ _ HK); eauto. Qed.
(** nothing made, nothing answered *)
Lemma K_ext : (forall a, v' a = v a) -> (forall k, answers l k = 0%nat) -> (forall k, ~ made l k) -> K v' (h ++ l) n.
Proof.
  intros Hv Ha Hm. constructor.
  - intros a b k. rewrite !Hv. apply (k_inj _ _ _ HK).
  - intros k. setoid_rewrite Hv. rewrite (k_open _ _ _ HK). unfold unanswered. rewrite answers_app, made_app, Ha, Nat.add_0_r. specialize (Hm k). tauto.
  - intros k. rewrite answers_app, Ha, Nat.add_0_r. apply (k_one _ _ _ HK).
  - intros k. rewrite made_app. intros [H|H]; [by apply (k_lt _ _ _ HK)|by apply Hm in H].
  - intros k. rewrite answers_app, Ha, Nat.add_0_r, made_app. left. by apply (k_ans _ _ _ HK).
Qed.
(** request n is made and held by a0 *)
Lemma K_add a0 : v a0 = None -> (forall a, a <> a0 -> v' a = v a) -> v' a0 = Some n -> (forall k, answers l k = 0%nat) -> (forall k, made l k <-> k = n) -> K v' (h ++ l) (S n).
Proof.
  intros H0 Hv Hn Ha Hm.
  assert (Ha0 : forall k, v a0 <> Some k) by (intros; congruence).
  assert (Hnn : answers h n = 0%nat).
  { destruct (decide (answers h n = 0%nat)) as [|Hx]; [done|]. apply (k_ans _ _ _ HK), (k_lt _ _ _ HK) in Hx. lia. }
  constructor.
  - intros a b k H1 H2. destruct (decide (a = a0 \/ b = a0)) as [Hd|Hd].
    + assert (Hx : forall c, c <> a0 -> v' c = Some k -> (k < n)%nat) by (intros c Hc Hvc; rewrite Hv in Hvc by done; by eapply K_fresh).
      destruct (decide (a = a0)) as [->|Hna], (decide (b = a0)) as [->|Hnb]; try done.
      * specialize (Hx b Hnb H2). assert (n = k) by congruence. lia.
      * specialize (Hx a Hna H1). assert (n = k) by congruence. lia.
      * tauto.
    + rewrite Hv in H1 by tauto. rewrite Hv in H2 by tauto. by eapply (k_inj _ _ _ HK).
  - intros k. unfold unanswered. rewrite answers_app, made_app, Ha, Nat.add_0_r, Hm. split.
    + intros (a & E). destruct (decide (a = a0)) as [->|Hne].
      * assert (k = n) by congruence. subst. tauto.
      * rewrite Hv in E by done. assert (unanswered h k) as [? ?] by (apply (k_open _ _ _ HK); eauto). tauto.
    + intros [[H1| ->] H2]; [|by eauto]. assert (exists a, v a = Some k) as (a & E) by by apply (k_open _ _ _ HK). exists a. rewrite Hv; [done|]. congruence.
  - intros k. rewrite answers_app, Ha, Nat.add_0_r. apply (k_one _ _ _ HK).
  - intros k. rewrite made_app, Hm. intros [H| ->]; [|lia]. apply (k_lt _ _ _ HK) in H. lia.
  - intros k. rewrite answers_app, Ha, Nat.add_0_r, made_app. left. by apply (k_ans _ _ _ HK).
Qed.
(** request n is made and answered *)
Lemma K_instant : (forall a, v' a = v a) -> (forall k, answers l k = if decide (k = n) then 1%nat else 0%nat) -> (forall k, made l k <-> k = n) -> K v' (h ++ l) (S n).
Proof.
  intros Hv Ha Hm.
  assert (Hnn : answers h n = 0%nat).
  { destruct (decide (answers h n = 0%nat)) as [|Hx]; [done|]. apply (k_ans _ _ _ HK), (k_lt _ _ _ HK) in Hx. lia. }
  constructor.
  - intros a b k. rewrite !Hv. apply (k_inj _ _ _ HK).
  - intros k. setoid_rewrite Hv. rewrite (k_open _ _ _ HK). unfold unanswered. rewrite answers_app, made_app, Ha, Hm. destruct (decide (k = n)) as [->|]; [|rewrite Nat.add_0_r; tauto].
    split; [intros [H _]; apply (k_lt _ _ _ HK) in H; lia|intros [_ ?]; lia].
  - intros k. rewrite answers_app, Ha. pose proof (k_one _ _ _ HK k). destruct (decide (k = n)) as [->|]; lia.
  - intros k. rewrite made_app, Hm. intros [H| ->]; [|lia]. apply (k_lt _ _ _ HK) in H. lia.
  - intros k. rewrite answers_app, Ha, made_app, Hm. destruct (decide (k = n)) as [->|]; [by right|]. rewrite Nat.add_0_r. left. by apply (k_ans _ _ _ HK).
Qed.
(** the request k of a0 is answered *)
Lemma K_del a0 j : v a0 = Some j -> (forall a, a <> a0 -> v' a = v a) -> v' a0 = None -> (forall k, answers l k = if decide (k = j) then 1%nat else 0%nat) -> (forall k, ~ made l k) -> K v' (h ++ l) n.
Proof.
  intros H0 Hv Hn Ha Hm. assert (unanswered h j) as [Hj1 Hj2] by (apply (k_open _ _ _ HK); eauto).
  assert (Hs : forall a k, v' a = Some k -> v a = Some k /\ a <> a0) by (intros a k E; destruct (decide (a = a0)) as [->|Hne]; [congruence|]; by rewrite <- Hv).
  constructor.
  - intros a b k [H1 _]%Hs [H2 _]%Hs. by eapply (k_inj _ _ _ HK).
  - intros k. unfold unanswered. rewrite answers_app, made_app, Ha. split.
    + intros (a & [E Hne]%Hs). assert (unanswered h k) as [? ?] by (apply (k_open _ _ _ HK); eauto). split; [tauto|]. destruct (decide (k = j)) as [->|]; [|lia].
      exfalso. apply Hne. by eapply (k_inj _ _ _ HK).
    + intros [[H|H] H1]; [|by apply Hm in H]. destruct (decide (k = j)) as [->|Hkj]; [lia|]. rewrite Nat.add_0_r in H1.
      assert (exists a, v a = Some k) as (a & E) by by apply (k_open _ _ _ HK). exists a. rewrite Hv; [done|]. congruence.
  - intros k. rewrite answers_app, Ha. pose proof (k_one _ _ _ HK k). destruct (decide (k = j)) as [->|]; lia.
  - intros k. rewrite made_app. intros [H|H]; [by apply (k_lt _ _ _ HK)|by apply Hm in H].
  - intros k. rewrite answers_app, Ha, made_app. destruct (decide (k = j)) as [->|]; [tauto|]. rewrite Nat.add_0_r. left. by apply (k_ans _ _ _ HK).
Qed.
End K.

(** ** operations in flight *)
Definition flight (s : sys) (o : nat) (d : dir) : option nat :=
  match objs s !! o with Some x => if bz (sid x d) && negb (f2 (sid x d)) then Some (rqo x d) else None | None => None end.
Record P (l : list op) (g : nat -> dir -> option nat) : Prop := {
  p_nd : NoDup l.*1;
  p_el : forall o d k, (o, d, k) ∈ l <-> g o d = Some k }.
Lemma P_perm l l' g g' : P l g -> l' ≡ₚ l -> (forall o d, g' o d = g o d) -> P l' g'.
Proof. intros [H1 H2] Hp Hg. constructor; [by rewrite Hp|]. intros o d k. rewrite Hp, Hg. apply H2. Qed.
Lemma P_add l g g' o d k : P l g -> g o d = None -> g' o d = Some k -> (forall o' d', (o', d') <> (o, d) -> g' o' d' = g o' d') -> P ((o, d, k) :: l) g'.
Proof.
  intros [H1 H2] H0 Hk Hg. constructor.
  - cbn. constructor; [|done]. intros ([[o' d'] k'] & E & H)%elem_of_list_fmap. cbn in E. injection E as <- <-. apply H2 in H. congruence.
  - intros o' d' k'. rewrite elem_of_cons. destruct (decide ((o', d') = (o, d))) as [[= -> ->]|Hne].
    + split; [intros [[= ->]|H]; [done|apply H2 in H; congruence]|]. intros E. left. congruence.
    + rewrite Hg by done. rewrite <- H2. split; [intros [[= -> -> ->]|]; done|tauto].
Qed.
Lemma P_del l g g' o d k : P ((o, d, k) :: l) g -> g' o d = None -> (forall o' d', (o', d') <> (o, d) -> g' o' d' = g o' d') -> P l g'.
Proof.
  intros [H1 H2] Hk Hg. cbn in H1. apply NoDup_cons in H1 as [Hn H1]. constructor; [done|]. intros o' d' k'. destruct (decide ((o', d') = (o, d))) as [[= -> ->]|Hne].
  - rewrite Hk. split; [|done]. intros H. exfalso. apply Hn. apply elem_of_list_fmap. by exists (o, d, k').
  - rewrite Hg by done. rewrite <- H2, elem_of_cons. split; [tauto|]. intros [[= -> -> ->]|]; done.
Qed.

(** ** the invariant *)
Definition alive_bz (s : sys) (o : nat) (d : dir) : Prop := exists x, objs s !! o = Some x /\ bz (sid x d) = true.
Definition alive_f2 (s : sys) (o : nat) (d : dir) : Prop := exists x, objs s !! o = Some x /\ bz (sid x d) = true /\ f2 (sid x d) = true.
Definition pcok (s : sys) : Prop :=
  match pc s with
  | PIdle => True
  | PW o r w r2 w2 => (r = true -> alive_bz s o R) /\ (w = true -> alive_bz s o W) /\ (r2 = true -> alive_f2 s o R) /\ (w2 = true -> alive_f2 s o W)
  | PR o r w r2 => (r = true -> alive_bz s o R) /\ (w = true -> alive_bz s o W) /\ (r2 = true -> alive_f2 s o R)
  | PE o r w => (r = true -> alive_bz s o R) /\ (w = true -> alive_bz s o W)
  end.
Record I (s : sys) : Prop := {
  i_k : K (val s) (hist s) (nx s);
  i_p : P (pend s ++ cops (cq s)) (flight s);
  i_f2 : forall o x d, objs s !! o = Some x -> f2 (sid x d) = true -> bz (sid x d) = true /\ kd x = KConn;
  i_lis : forall o x, objs s !! o = Some x -> kd x = KListen -> bz (sw x) = false;
  i_nacs : forall o x, objs s !! o = Some x -> kd x <> KListen -> acs x = None;
  i_udp : forall o x, objs s !! o = Some x -> kd x <> KUdp false;
  i_made : forall o d k, val s (HS o d) = Some k -> exists c, cside c = d /\ OMade k o c ∈ hist s;
  i_acc : forall o k, acc s = Some (o, k) -> exists x, objs s !! o = Some x /\ kd x = KListen /\ bz (sr x) = false /\ rq (sw x) = k /\ acs x = None;
  i_heap : forall k, k ∈ heap s <-> k ∈ nexts (cq s);
  i_nnd : NoDup (nexts (cq s));
  i_pc : pcok s }.
