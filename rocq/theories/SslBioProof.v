(** C59, proofs about the two buffers: what iovecs and write windows point to stays in place. *)
From Verif Require Export SslBioModel KbufSpec KbufProof KbufRun.
From Coq Require Import ZifyBool ZifyNat.

Section chunks.
Implicit Types (s b : buf) (c : chunk Z) (l : list (chunk Z)).

Lemma get_chunk_app p l1 l2 : get_chunk p (l1 ++ l2) = match get_chunk p l1 with Some c => Some c | None => get_chunk p l2 end.
Proof. induction l1 as [|x l1 IH]; cbn; [done|]. by destruct (decide _). Qed.
Lemma get_chunk_in c l : NoDup (cid <$> l) -> c ∈ l -> get_chunk (cid c) l = Some c.
Proof.
  induction l as [|x l IH]; intros Hn Hc; [set_solver|]. cbn in *. apply NoDup_cons in Hn as [Hx Hn].
  apply elem_of_cons in Hc as [->|Hc]; [by rewrite decide_True|]. rewrite decide_False; [by apply IH|].
  intros E. apply Hx. rewrite E. by apply elem_of_list_fmap_1.
Qed.
Lemma set_chunk_get p f l l' : (forall c c', f c = Some c' -> cid c' = cid c) -> set_chunk p f l = Some l' ->
  forall q c, get_chunk q l = Some c -> exists c', get_chunk q l' = Some c' /\ (c' = c \/ q = p /\ f c = Some c').
Proof.
  intros Hf. revert l'. induction l as [|x l IH]; intros l' E q c Hg; [done|]. cbn in E, Hg.
  destruct (decide (cid x = p)) as [Hp|Hp].
  - destruct (f x) as [x'|] eqn:Ef; [|done]. cbn in E. injection E as <-. cbn. rewrite (Hf _ _ Ef).
    destruct (decide (cid x = q)) as [Hq|Hq].
    + injection Hg as <-. exists x'. split; [done|]. right. split; [by subst|done].
    + exists c. by split; [|left].
  - destruct (set_chunk p f l) as [l1|] eqn:E1; [|done]. cbn in E. injection E as <-. cbn.
    destruct (decide (cid x = q)); [exists c; by split; [|left]|]. by apply IH.
Qed.

(** every chunk stays, with the same used bytes *)
Definition stable s s' : Prop := forall p c, get_chunk p (ch s) = Some c -> exists c', get_chunk p (ch s') = Some c' /\
  cused c <= cused c' /\ cused c <= length (cmem c') /\ take (cused c) (cmem c') = take (cused c) (cmem c).
Lemma stable_trans (s1 s2 s3 : buf) : stable s1 s2 -> stable s2 s3 -> stable s1 s3.
Proof.
  intros H1 H2 p x Hx. destruct (H1 p x Hx) as (y & Hy & U1 & L1 & T1). destruct (H2 p y Hy) as (z & Hz & U2 & L2 & T2).
  exists z. split_and!; try done; try lia. rewrite <- T1.
  transitivity (take (cused x) (take (cused y) (cmem z))); [by rewrite take_take, Nat.min_l by lia|].
  rewrite T2, take_take. by rewrite Nat.min_l by lia.
Qed.
Lemma R_le s q bss : R s q bss -> forall p c, get_chunk p (ch s) = Some c -> cused c <= length (cmem c).
Proof.
  intros (_ & _ & _ & HF & _) p c Hg. assert (c ∈ ch s) as Hc.
  { clear HF. revert Hg. generalize (ch s). induction l as [|x l IH]; [done|]. cbn. destruct (decide _); [intros [= ->]; left|right; by apply IH]. }
  apply elem_of_list_lookup in Hc as [i Hi]. destruct (Forall2_lookup_l _ _ _ _ _ HF Hi) as (b & _ & Hb). by eapply chunk_ok_le.
Qed.
Lemma stable_refl s q bss : R s q bss -> stable s s.
Proof. intros HR p c Hc. exists c. split_and!; try done. by eapply R_le. Qed.

Lemma gwb_stable s q bss s' w len : R s q bss -> krw_get_write_buffer s = Some (s', w, len) -> stable s s'.
Proof.
  intros HR E. pose proof (R_le _ _ _ HR) as Hle.
  assert (ch s' = ch s \/ ch s = [] \/ exists x, ch s' = ch s ++ [x]) as [Hc|[Hc|[x Hc]]].
  { destruct HR as (Hs & Hn & Hf & HF & Ht & Hc). unfold krw_get_write_buffer in E.
    destruct Hc as [(Ec & Er & Ew & Ewh & Eq)|(off & h & l & pre & Eh & Ec & Er & Eq & Ho & Ew & Ewh)]; [by right; left|].
    rewrite Ew in E. cbn in E. rewrite Ew in E. cbn in E. rewrite Ec, get_chunk_last in E by (by rewrite <- Ec). cbn in E.
    destruct (_ || _) eqn:Eb in E.
    - right; right. destruct (guard_b _) eqn:E1 in E; [|done]. cbn in E. rewrite set_next_last in E by (by rewrite <- Ec). cbn in E.
      destruct (guard_b _) eqn:E2 in E; [|done]. cbn in E. injection E as <- _ _. cbn. exists (new_chunk (nid s) (csize s)). by rewrite Ec, <- app_assoc.
    - left. cbn in E. destruct (guard_b _) eqn:E2 in E; [|done]. cbn in E. destruct (wh s); [|done]. cbn in E. injection E as <- _ _. done. }
  - intros p c Hg. exists c. rewrite Hc. split_and!; try done. by eapply Hle.
  - intros p c Hg. by rewrite Hc in Hg.
  - intros p c Hg. exists c. rewrite Hc, get_chunk_app, Hg. split_and!; try done. by eapply Hle.
Qed.
Lemma store_cid off bs c c' : store off bs c = Some c' -> cid c' = cid c.
Proof. unfold store, guard_b. destruct (bool_decide _); [|done]. cbn. by intros [= <-]. Qed.
Lemma fill_stable s q bss pre (l : chunk Z) bs s1 s2 : R s q bss -> ch s = pre ++ [l] -> poke s (cid l, cused l) bs = Some s1 ->
  krw_write_success s1 (length bs) = Some s2 -> stable s s2.
Proof.
  intros HR Ec E1 E2. pose proof (R_le _ _ _ HR) as Hle. destruct HR as (_ & Hn & _).
  unfold poke in E1. cbn in E1. destruct (set_chunk (cid l) _ (ch s)) as [l1|] eqn:Es1; [|done]. cbn in E1. injection E1 as <-.
  unfold krw_write_success in E2. cbn in E2. destruct (whb s) as [p2|]; [|done]. cbn in E2.
  destruct (set_chunk p2 _ l1) as [l2|] eqn:Es2; [|done]. cbn in E2. destruct (wh s) as [[w1 w2]|]; [|done]. cbn in E2. injection E2 as <-.
  intros p c Hg. cbn. specialize (Hle _ _ Hg).
  destruct (set_chunk_get _ _ _ _ (store_cid _ _) Es1 p c Hg) as (c1 & Hg1 & Hc1).
  assert (cused c1 = cused c /\ cused c <= length (cmem c1) /\ take (cused c) (cmem c1) = take (cused c) (cmem c)) as (U1 & L1 & T1).
  { destruct Hc1 as [->|[-> Hst]]; [done|]. assert (c = l) as ->.
    { rewrite Ec, get_chunk_last in Hg by (by rewrite <- Ec). by injection Hg. }
    unfold store in Hst. destruct (guard_b _) eqn:Eg; [|done]. cbn in Hst. injection Hst as <-. cbn.
    assert (cused l + length bs <= length (cmem l)).
    { unfold guard_b in Eg. destruct (bool_decide _) eqn:Eb; [|done]. by apply bool_decide_eq_true in Eb. }
    split_and!; [done|rewrite !app_length, take_length; lia|].
    rewrite take_app_le by (rewrite take_length; lia). rewrite take_take. f_equal. lia. }
  assert (forall c2 c3 : chunk Z, Some (mkc (cid c2) (cmem c2) (cused c2 + length bs)) = Some c3 -> cid c3 = cid c2) as Hf by (by intros ?? [= <-]).
  destruct (set_chunk_get _ _ _ _ Hf Es2 p c1 Hg1) as (c2 & Hg2 & Hc2).
  exists c2. split; [done|]. destruct Hc2 as [->|[_ [= <-]]]; cbn; split_and!; try done; lia.
Qed.
Lemma write_str_stable n : forall s q bss bs s', length bs <= n -> R s q bss -> krw_write_str n s bs = Some s' -> stable s s'.
Proof.
  induction n as [|n IH]; intros s q bss bs s' Hle HR E.
  { destruct bs; [|cbn in Hle; lia]. cbn in E. injection E as <-. by eapply stable_refl. }
  destruct bs as [|x bs]; [cbn in E; injection E as <-; by eapply stable_refl|].
  remember (x :: bs) as xs eqn:Exs.
  destruct (gwb_ok s q bss HR) as (s1 & l & pre & b & preb & Eg & Hu & Ecs & HR1 & Ec & Ewh & Hm & Hb & Hbb).
  assert (Ek: krw_write_str (S n) s xs = ('(s, w, len) ← krw_get_write_buffer s;
      let wlen := min (length xs) (Z.to_nat len) in
      s ← poke s w (take wlen xs); s ← krw_write_success s wlen; krw_write_str n s (drop wlen xs))) by (by subst xs).
  rewrite Ek, Eg in E. cbn [mbind option_bind] in E. cbv zeta in E.
  set (wlen := min (length xs) (Z.to_nat (Z.of_nat (csize s) - Z.of_nat (cused l)))) in E.
  assert (Hx1: 1 <= length xs) by (subst xs; cbn; lia).
  assert (Hw: 1 <= wlen <= length xs) by (unfold wlen; lia).
  assert (Hlt: length (take wlen xs) = wlen) by (rewrite take_length; lia).
  destruct (fill_ok s1 q preb b pre l (take wlen xs) HR1 Ec Ewh) as (s2 & s3 & Ep & Ews & HR3 & Ecs3 & _).
  { congruence. } { lia. }
  rewrite Ep in E. cbn [mbind option_bind] in E. pose proof Ews as Ews'. rewrite Hlt in Ews. rewrite Ews in E. cbn [mbind option_bind] in E.
  eapply stable_trans; [by eapply gwb_stable|]. eapply stable_trans; [eapply fill_stable; [exact HR1|exact Ec|exact Ep|exact Ews']|].
  eapply IH; [|exact HR3|exact E]. rewrite drop_length. lia.
Qed.

(** iovecs *)
Definition iov_ok s (v : iov) (x : list Z) : Prop := exists c, get_chunk v.1.1 (ch s) = Some c /\ v.1.2 + v.2 <= cused c /\ deref s v = Some x.
Lemma iov_stable s s' v x : stable s s' -> iov_ok s v x -> iov_ok s' v x.
Proof.
  intros Hst (c & Hg & Hle & Hd). destruct (Hst _ _ Hg) as (c' & Hg' & U & L & T). exists c'. split_and!; [done|lia|].
  rewrite <- Hd. unfold deref. rewrite Hg, Hg'. cbn. unfold load.
  assert (length (cmem c) >= v.1.2 + v.2) as Hl.
  { unfold deref in Hd. rewrite Hg in Hd. cbn in Hd. unfold load, guard_b in Hd. destruct (bool_decide _) eqn:Eb in Hd; [|done]. apply bool_decide_eq_true in Eb. lia. }
  rewrite !bool_decide_true by lia. cbn. f_equal.
  assert (forall m, v.1.2 + v.2 <= m -> forall k : list (option Z), take v.2 (drop v.1.2 k) = take v.2 (drop v.1.2 (take m k))) as G.
  { intros m Hm k. rewrite skipn_firstn_comm, take_take. f_equal. lia. }
  rewrite (G (cused c) Hle (cmem c')), T, <- G by done. done.
Qed.
Lemma iovs_mapM s v (l : list (list Z)) : Forall2 (iov_ok s) v l -> mapM (deref s) v = Some l.
Proof. intros H. apply stdpp.list.mapM_Some. eapply Forall2_impl; [exact H|]. intros ?? (c & _ & _ & Hd). done. Qed.
Lemma read_iovs_ok s q bss n : R s q bss -> q <> [] -> [] ∉ bss -> exists v (l : list (list Z)), read_iovs s (S n) = Some v /\ Forall2 (iov_ok s) v l /\
  concat l `prefix_of` q /\ concat l <> [].
Proof.
  intros HR Hq Hb. destruct (peek_ok s q bss n HR) as (l & El & _ & Hpre & _ & Hnil & Hhd).
  assert (ch s <> []) as Hch by (by eapply R_nil_ch).
  destruct l as [|d l]; [destruct Hnil as [_ Hn]; by specialize (Hn eq_refl)|].
  pose proof HR as (_ & Hnd & _ & _ & _ & _).
  unfold krw_get_read_buffers in El. unfold read_iovs. destruct (rh s) as [pp|] eqn:Er; [|done].
  destruct (head_off s) as [[c off]|] eqn:Eh; [|done]. cbn [mbind option_bind] in El |- *.
  destruct (load c off (cused c - off)) as [b0|] eqn:El0; [|done]. cbn [mbind option_bind] in El.
  destruct (mapM _ _) as [bs|] eqn:Em; [|done]. cbn [mbind option_bind] in El. injection El as -> ->.
  assert (c ∈ ch s /\ off <= cused c) as [Hc Ho].
  { unfold head_off in Eh. destruct (ch s) as [|c0 cs]; [done|]. cbn in Eh. rewrite Er in Eh. cbn in Eh. destruct pp as [pi po]. cbn in Eh.
    unfold guard_b in Eh. destruct (bool_decide (pi = cid c0)); [|done]. cbn in Eh.
    destruct (bool_decide (po <= cused c0)) eqn:Eb; [|done]. cbn in Eh. injection Eh as -> ->.
    split; [left|]. by apply bool_decide_eq_true in Eb. }
  eexists _, (d :: l). split; [reflexivity|]. split_and!.
  - constructor.
    + exists c. cbn [fst snd]. rewrite (get_chunk_in c) by done. split_and!; [done|lia|]. unfold deref. cbn [fst snd]. rewrite (get_chunk_in c) by done. done.
    + apply stdpp.list.mapM_Some in Em. apply Forall2_fmap_l. 
      assert (Forall (λ c, c ∈ ch s) (take (S n - 1) (tail (ch s)))) as Hin.
      { apply Forall_forall. intros x Hx. apply elem_of_take in Hx as (i & Hx & _). apply elem_of_list_lookup_2 in Hx.
        destruct (ch s); [done|]. by right. }
      revert Em Hin. generalize (take (S n - 1) (tail (ch s))) l. clear -Hnd. intros k. induction k as [|x k IH]; intros l Em Hin; inversion Em; subst; constructor.
      * inversion Hin; subst. exists x. unfold deref. cbn [fst snd]. rewrite (get_chunk_in x) by done. split_and!; [done|lia|done].
      * inversion Hin; subst. by apply IH.
  - done.
  - destruct (Hhd d eq_refl) as (h & o & Hh & -> & Ho'). destruct bss as [|h0 bss]; [done|]. cbn in Hh. injection Hh as ->.
    cbn. intros E. apply app_eq_nil in E as [E _]. apply (f_equal length) in E. rewrite drop_length in E. cbn in E.
    assert (h <> []) as Hne by (intros ->; apply Hb; left). destruct h; [done|]. cbn in E, Ho'. lia.
Qed.

(** krw_read on an empty buffer changes nothing *)
Lemma read_nil s bss n : R s [] bss -> krw_read n s n [] = Some (s, []).
Proof.
  intros HR. destruct n as [|n]; [done|]. cbn. unfold krw_get_read_buffer. destruct (peek_ok s [] bss 0 HR) as (l & -> & _ & Hpre & _). cbn.
  apply prefix_nil_inv in Hpre. destruct l as [|d l]; cbn; [done|]. cbn in Hpre. apply app_eq_nil in Hpre as [-> _]. cbn. done.
Qed.
End chunks.
