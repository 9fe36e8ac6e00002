(** Invariant of the file I/O model (AioModel.v) under the duties of AioSpec.v. *)
From Verif Require Import AioModel AioSpec.
Local Open Scope Z_scope.

Lemma upd_eq {A} (g : nat -> A) k v : upd g k v k = v.
Proof. unfold upd. by rewrite decide_True. Qed.
Lemma upd_ne {A} (g : nat -> A) k v x : x <> k -> upd g k v x = g x.
Proof. intros H. unfold upd. by rewrite decide_False. Qed.

(** * Arithmetic of alignment *)
Section arith.
Context (kk : Z) (Hk : 0 <= kk <= 15).
Notation A := (2 ^ kk).
Lemma A_pos : 0 < A <= 32768.
Proof. split; [apply Z.pow_pos_nonneg; lia|]. change 32768 with (2 ^ 15). apply Z.pow_le_mono_r; lia. Qed.
Lemma ldiff_mod d : Z.ldiff d (A - 1) = d - d mod A.
Proof.
  replace (A - 1) with (Z.ones kk) by (rewrite Z.ones_equiv; lia).
  rewrite Z.ldiff_ones_r by lia. rewrite Z.shiftl_mul_pow2, Z.shiftr_div_pow2 by lia.
  pose proof (Z.div_mod d A ltac:(pose proof A_pos; lia)). lia.
Qed.
Lemma afloor_mod d : afloor A d = d - d mod A.
Proof. apply ldiff_mod. Qed.
Lemma gap_bound wr off dir : 0 <= gap A wr off dir < 32768.
Proof.
  pose proof A_pos. unfold gap. destruct wr; [lia|]. destruct dir; [|lia]. pose proof (Z.mod_pos_bound off A ltac:(lia)). lia.
Qed.
Lemma doff_gap off : u16 (off - afloor A off) = gap A None off true.
Proof.
  rewrite afloor_mod. replace (off - (off - off mod A)) with (off mod A) by lia. unfold u16.
  pose proof (gap_bound None off true). cbn in *. apply Z.mod_small. lia.
Qed.
Lemma i16_small x : 0 <= x < 32768 -> i16 x = x.
Proof. intros H. unfold i16. rewrite Z.mod_small; lia. Qed.
End arith.

Definition batch (s : sys) : list cqe := match pc s with AIdle => [] | ADrain _ b => b end.
Definition owed (s : sys) : nat := match pc s with AIdle => 0 | ADrain n _ => n end.
Definition itok (o : iocb) : nat * nat := (i_id o, i_file o).
Definition ctok (c : cqe) : nat * nat := (c_id c, c_file c).
Definition toks (s : sys) : list (nat * nat) := (itok <$> infl s) ++ (ctok <$> batch s ++ ring s).
Definition on (s : sys) (t id f : nat) : Prop := fib s t = FWait id f \/ exists r, fib s t = FReady id f r.

Section inv.
Context (A : Z) (nd : bool) (c0 : nat -> list Z).
Definition matched (h : list hev) (id t f : nat) (wr : option (list Z)) (off : Z) (len : nat) (dir : bool) : Prop :=
  HCall id t f wr off len dir true ∈ h.
Definition done_ok (h : list hev) (id t f : nat) (r : Z) (bytes : list Z) : Prop :=
  exists wr off len dir res before after, matched h id t f wr off len dir /\ HExec id f res before after ∈ h /\
    kernel_did A wr off dir res before after /\ result_ok A wr off len dir res before r bytes.
Definition cq_ok (s : sys) (c : cqe) : Prop :=
  exists t wr off len dir before after, matched (hist s) (c_id c) t (c_file c) wr off len dir /\
    HExec (c_id c) (c_file c) (c_res c) before after ∈ hist s /\ kernel_did A wr off dir (c_res c) before after /\
    (dir = false \/ wr <> None -> c_res c <= Z.of_nat len) /\
    (wr = None -> 0 < c_res c -> 0 <= off - gap A wr off dir /\ bufs s (c_id c) = slice before (off - gap A wr off dir) (c_res c) /\
       off - gap A wr off dir + c_res c <= Z.of_nat (length before)) /\
    (nd = false -> dir = true -> gap A wr off dir < c_res c).
Record AI (s : sys) : Prop := {
  a_nd : NoDup (toks s).*2;
  a_tok : forall id f, (id, f) ∈ toks s -> fib s (fdata (fls s f)) = FWait id f;
  a_wait : forall t id f, fib s t = FWait id f -> (id, f) ∈ toks s /\ fdata (fls s f) = t;
  a_one : forall t t' id id' f, on s t id f -> on s t' id' f -> t = t';
  a_cnt : length (ring s) = (unsig s + evfd s + owed s)%nat;
  a_called : called (hist s) = seq 0 (nid s);
  a_info : forall t id f, on s t id f -> exists wr off len dir, matched (hist s) id t f wr off len dir /\
    fdir (fls s f) = dir /\ fdoff (fls s f) = gap A wr off dir /\ (dir = true -> folen (fls s f) = Z.of_nat len) /\ off = pos f (hist s);
  a_infl : forall o, o ∈ infl s -> exists t off len dir, matched (hist s) (i_id o) t (i_file o) (i_wr o) off len dir /\
    i_off o = off - gap A (i_wr o) off dir /\ (dir = false \/ i_wr o <> None -> i_len o = Z.of_nat len) /\
    (forall d, i_wr o = Some d -> len = length d);
  a_ring : forall c, c ∈ batch s ++ ring s -> cq_ok s c;
  a_ready : forall t id f r, fib s t = FReady id f r -> done_ok (hist s) id t f r (take (Z.to_nat r) (drop (Z.to_nat (fdoff (fls s f))) (bufs s id)));
  a_ret : forall id t f r bytes, HRet id t f r bytes ∈ hist s -> done_ok (hist s) id t f r bytes;
  a_pos : forall f, (exists t id r, fib s t = FReady id f r /\ foff (fls s f) = pos f (hist s) + Z.max 0 r) \/
    ((forall t id r, fib s t <> FReady id f r) /\ foff (fls s f) = pos f (hist s));
  a_cont : forall f, cont s f = contents (c0 f) f (hist s);
  a_rnd : NoDup (returned (hist s));
  a_rout : forall t id f, on s t id f -> id ∉ returned (hist s);
  a_acc : forall id, id ∈ accepted (hist s) -> id ∈ returned (hist s) \/ exists t f, on s t id f;
  a_end : NoDup (executed (hist s));
  a_elt : forall id, id ∈ executed (hist s) -> (id < nid s)%nat;
  a_eout : forall o, o ∈ infl s -> i_id o ∉ executed (hist s);
  a_doff : forall f, 0 <= fdoff (fls s f);
  a_hcall : forall h1 h2 id t f wr off len dir acc, hist s = h1 ++ HCall id t f wr off len dir acc :: h2 -> off = pos f h1;
  a_hexec : forall h1 h2 id f res before after, hist s = h1 ++ HExec id f res before after :: h2 -> before = contents (c0 f) f h1;
  a_hret : forall h1 h2 id t f r bytes, hist s = h1 ++ HRet id t f r bytes :: h2 ->
    exists wr len dir, matched (hist s) id t f wr (pos f h1) len dir }.

(** * Histories *)
Lemma hist_snoc (h h1 h2 : list hev) (x y : hev) : h ++ [y] = h1 ++ x :: h2 ->
  (y = x /\ h = h1 /\ h2 = []) \/ exists h3, h2 = h3 ++ [y] /\ h = h1 ++ x :: h3.
Proof.
  intros H. destruct h2 as [|z h2 _] using rev_ind.
  - left. by apply app_inj_tail in H as [-> ->].
  - right. exists h2. rewrite app_comm_cons, app_assoc in H. by apply app_inj_tail in H as [-> ->].
Qed.
Lemma pos_snoc f h x : pos f (h ++ [x]) = pos1 f (pos f h) x.
Proof. unfold pos. by rewrite fold_left_app. Qed.
Lemma contents_snoc c f h x : contents c f (h ++ [x]) = cont1 f (contents c f h) x.
Proof. unfold contents. by rewrite fold_left_app. Qed.
Lemma called_elem h id t f wr off len dir acc : HCall id t f wr off len dir acc ∈ h -> id ∈ called h.
Proof. intros H. unfold called. apply elem_of_list_omap. by eexists. Qed.
Lemma called_uniq h id t f wr off len dir acc t' f' wr' off' len' dir' acc' : NoDup (called h) ->
  HCall id t f wr off len dir acc ∈ h -> HCall id t' f' wr' off' len' dir' acc' ∈ h ->
  t' = t /\ f' = f /\ wr' = wr /\ off' = off /\ len' = len /\ dir' = dir /\ acc' = acc.
Proof.
  induction h as [|x h IH]; [intros _ H; by apply elem_of_nil in H|]. intros HN H1 H2.
  apply elem_of_cons in H1 as [H1|H1], H2 as [H2|H2].
  - rewrite <- H2 in H1. injection H1 as -> -> -> -> -> -> ->. done.
  - subst x. cbn in HN. apply NoDup_cons in HN as [HN _]. destruct HN. by eapply called_elem.
  - subst x. cbn in HN. apply NoDup_cons in HN as [HN _]. destruct HN. by eapply called_elem.
  - apply IH; try done. unfold called in *. cbn in HN. destruct x; try done. by apply NoDup_cons in HN as [_ HN].
Qed.
Lemma matched_mono h x id t f wr off len dir : matched h id t f wr off len dir -> matched (h ++ [x]) id t f wr off len dir.
Proof. unfold matched. intros H. apply elem_of_app. by left. Qed.
Lemma done_mono h x id t f r b : done_ok h id t f r b -> done_ok (h ++ [x]) id t f r b.
Proof.
  intros (wr & off & len & dir & res & bf & af & H1 & H2 & H3 & H4). exists wr, off, len, dir, res, bf, af.
  split_and!; try done; [by apply matched_mono|]. apply elem_of_app. by left.
Qed.
Lemma AI_uniq s id t f wr off len dir t' f' wr' off' len' dir' : AI s ->
  matched (hist s) id t f wr off len dir -> matched (hist s) id t' f' wr' off' len' dir' ->
  t' = t /\ f' = f /\ wr' = wr /\ off' = off /\ len' = len /\ dir' = dir.
Proof.
  intros HI H1 H2. pose proof (called_uniq (hist s) id t f wr off len dir true t' f' wr' off' len' dir' true) as H.
  destruct H as (? & ? & ? & ? & ? & ? & _); try done. rewrite (a_called s HI). apply NoDup_seq.
Qed.
Lemma called_lt s id t f wr off len dir acc : AI s -> HCall id t f wr off len dir acc ∈ hist s -> (id < nid s)%nat.
Proof. intros HI H. apply called_elem in H. rewrite (a_called s HI) in H. apply elem_of_seq in H. lia. Qed.
Lemma on_lt s t id f : AI s -> on s t id f -> (id < nid s)%nat.
Proof. intros HI H. destruct (a_info s HI _ _ _ H) as (wr & off & len & dir & Hm & _). by eapply called_lt. Qed.
Lemma returned_elem h id : id ∈ returned h <-> exists t f r b, HRet id t f r b ∈ h.
Proof.
  unfold returned. rewrite elem_of_list_omap. split.
  - intros (x & Hx & E). destruct x; try done. injection E as <-. eauto.
  - intros (t & f & r & b & H). by eexists.
Qed.
Lemma returned_lt s id : AI s -> id ∈ returned (hist s) -> (id < nid s)%nat.
Proof.
  intros HI (t & f & r & b & H)%returned_elem. destruct (a_ret s HI _ _ _ _ _ H) as (? & ? & ? & ? & ? & ? & ? & Hm & _). by eapply called_lt.
Qed.
Lemma not_on s t id f f' : ~ busy s f -> on s t id f' -> f' <> f.
Proof. intros Hb Ho ->. apply Hb. exists t, id. exact Ho. Qed.

Lemma AI_init : AI (ainit c0).
Proof.
  constructor; cbn; try done; try apply NoDup_nil_2; try (intros; match goal with H : _ ∈ [] |- _ => by apply elem_of_nil in H end).
  - intros t t' id id' f [|[]]; done.
  - intros t id f [|[]]; done.
  - intros f. by right.
  - intros t id f _. apply not_elem_of_nil.
  - intros [] *; done.
  - intros [] *; done.
  - intros [] *; done.
Qed.

(** * The submitted call *)
Lemma hcall_snoc s h1 h2 x id t f wr off len dir acc :
  (forall h1 h2 id t f wr off len dir acc, hist s = h1 ++ HCall id t f wr off len dir acc :: h2 -> off = pos f h1) ->
  (forall id t f wr off len dir acc, x = HCall id t f wr off len dir acc -> off = pos f (hist s)) ->
  hist s ++ [x] = h1 ++ HCall id t f wr off len dir acc :: h2 -> off = pos f h1.
Proof. intros H1 H2 H. apply hist_snoc in H as [(-> & <- & _)|(h3 & -> & H)]; [by eapply H2|by eapply H1]. Qed.
Lemma hexec_snoc s h1 h2 x id f res before after :
  (forall h1 h2 id f res before after, hist s = h1 ++ HExec id f res before after :: h2 -> before = contents (c0 f) f h1) ->
  (forall id f res before after, x = HExec id f res before after -> before = contents (c0 f) f (hist s)) ->
  hist s ++ [x] = h1 ++ HExec id f res before after :: h2 -> before = contents (c0 f) f h1.
Proof. intros H1 H2 H. apply hist_snoc in H as [(-> & <- & _)|(h3 & -> & H)]; [by eapply H2|by eapply H1]. Qed.
Lemma hret_snoc s h1 h2 x id t f r bytes :
  (forall h1 h2 id t f r bytes, hist s = h1 ++ HRet id t f r bytes :: h2 -> exists wr len dir, matched (hist s) id t f wr (pos f h1) len dir) ->
  (forall id t f r bytes, x = HRet id t f r bytes -> exists wr len dir, matched (hist s) id t f wr (pos f (hist s)) len dir) ->
  hist s ++ [x] = h1 ++ HRet id t f r bytes :: h2 -> exists wr len dir, matched (hist s ++ [x]) id t f wr (pos f h1) len dir.
Proof.
  intros H1 H2 H. apply hist_snoc in H as [(E & <- & _)|(h3 & _ & H)].
  - destruct (H2 _ _ _ _ _ E) as (wr & len & dir & Hm). exists wr, len, dir. by apply matched_mono.
  - destruct (H1 _ _ _ _ _ _ _ H) as (wr & len & dir & Hm). exists wr, len, dir. by apply matched_mono.
Qed.
Lemma cq_mono s s' x c : hist s' = hist s ++ [x] -> bufs s' (c_id c) = bufs s (c_id c) -> cq_ok s c -> cq_ok s' c.
Proof.
  intros Hh Hb (t & wr & off & len & dir & bf & af & H1 & H2 & H3 & H4 & H5 & H6). exists t, wr, off, len, dir, bf, af.
  rewrite Hh, Hb. split_and!; try done; [by apply matched_mono|]. apply elem_of_app. by left.
Qed.
Lemma free_pos s f : AI s -> ~ busy s f -> foff (fls s f) = pos f (hist s).
Proof.
  intros HI Hb. destruct (a_pos s HI f) as [(t & id & r & H & _)|[_ H]]; [|done]. destruct Hb. exists t, id. eauto.
Qed.
Lemma AI_reject s t f x wr len klen : AI s -> ~ busy s f -> foff x = foff (fls s f) -> 0 <= fdoff x ->
  AI (submit s t f x wr (foff (fls s f)) len klen false).
Proof.
  intros HI Hb Hx1 Hx2. pose proof (free_pos s f HI Hb) as Hp. pose proof HI as [b1 b2 b3 b4 b5 b6 b7 b8 b9 b10 b11 b12 b13 b14 b15 b16 b17 b17' b18 b19 b20 b21 b22].
  assert (Hne : forall t id f', on s t id f' -> upd (fls s) f x f' = fls s f').
  { intros t' id f' Ho. apply upd_ne. by eapply not_on. }
  unfold submit. constructor; cbn [hist fls fib infl ring unsig evfd pc nid bufs cont]; try done.
  - intros id f' H. specialize (b2 id f' H). rewrite (Hne _ _ _ (or_introl b2)). done.
  - intros t' id f' H. specialize (b3 _ _ _ H). rewrite (Hne t' id f' (or_introl H)). done.
  - unfold called in *. rewrite seq_S, omap_app, b6. done.
  - intros t' id f' Ho. rewrite (Hne t' id f' Ho). destruct (b7 _ _ _ Ho) as (w & o & l & d & H1 & H2). exists w, o, l, d. rewrite pos_snoc. cbn. split; [by apply matched_mono|done].
  - intros o Ho. destruct (b8 o Ho) as (t' & off & l & d & H1 & H2). exists t', off, l, d. split; [by apply matched_mono|done].
  - intros c Hc. eapply cq_mono; [done|done|by apply b9].
  - intros t' id f' r H. rewrite (Hne t' id f'); [|right; eauto]. apply done_mono. by apply b10.
  - intros id t' f' r b H. apply done_mono. apply b11. apply elem_of_app in H as [H|H]; [done|]. by apply elem_of_list_singleton in H.
  - intros f'. rewrite pos_snoc. cbn. destruct (b12 f') as [(t' & id & r & H1 & H2)|[H1 H2]].
    + left. exists t', id, r. rewrite (Hne t' id f'); [done|right; eauto].
    + right. split; [done|]. unfold upd. case_decide; [subst; congruence|done].
  - intros f'. rewrite contents_snoc. apply b13.
  - unfold returned in *. by rewrite omap_app, app_nil_r.
  - intros t' id f' Ho. unfold returned in *. rewrite omap_app, app_nil_r. by eapply b15.
  - intros id. unfold accepted, returned in *. rewrite !omap_app, !app_nil_r. apply b16.
  - unfold executed in *. by rewrite omap_app, app_nil_r.
  - intros id. unfold executed in *. rewrite omap_app, app_nil_r. intros H. specialize (b17' id H). lia.
  - intros o Ho. unfold executed in *. rewrite omap_app, app_nil_r. by apply b18.
  - intros f'. unfold upd. case_decide; [done|apply b19].
  - intros h1 h2 id t' f' w o l d acc H. eapply hcall_snoc; [exact b20| |exact H]. intros * E. clear -E Hp. injection E; intros; subst; exact Hp.
  - intros h1 h2 id f' res bf af H. eapply hexec_snoc; [exact b21| |exact H]. intros *. done.
  - intros h1 h2 id t' f' r' by_ H. eapply hret_snoc; [exact b22| |exact H]. intros *. done.
Qed.
Lemma on_other s t v t' id f : t' <> t -> (upd (fib s) t v t' = FWait id f \/ exists r, upd (fib s) t v t' = FReady id f r) -> on s t' id f.
Proof. intros H. rewrite (upd_ne _ _ _ _ H). done. Qed.
Lemma AI_submit s t f x wr len klen : AI s -> fib s t = FRun -> ~ busy s f -> foff x = foff (fls s f) ->
  fdoff x = gap A wr (foff x) (fdir x) -> 0 <= fdoff x -> (fdir x = true -> folen x = Z.of_nat len) -> fdata x = t ->
  adj_off x = foff x - gap A wr (foff x) (fdir x) -> (fdir x = false \/ wr <> None -> klen = Z.of_nat len) ->
  (forall d, wr = Some d -> len = length d) ->
  AI (submit s t f x wr (foff (fls s f)) len klen true).
Proof.
  intros HI Ht Hb Hx1 Hx2 Hx3 Hx4 Hx5 Hx6 Hx7 Hx8. pose proof (free_pos s f HI Hb) as Hp.
  pose proof HI as [b1 b2 b3 b4 b5 b6 b7 b8 b9 b10 b11 b12 b13 b14 b15 b16 b17 b17' b18 b19 b20 b21 b22].
  assert (Hne : forall t id f', on s t id f' -> upd (fls s) f x f' = fls s f').
  { intros t' id f' Ho. apply upd_ne. by eapply not_on. }
  assert (Hton : forall t' id f', on s t' id f' -> t' <> t).
  { intros t' id f' Ho ->. destruct Ho as [Ho|[r Ho]]; congruence. }
  assert (Hnf : forall id f', (id, f') ∈ toks s -> f' <> f).
  { intros id f' H ->. specialize (b2 id f H). apply Hb. exists (fdata (fls s f)), id. by left. }
  assert (Hid : nid s ∉ returned (hist s)). { intros H. apply (returned_lt s _ HI) in H. lia. }
  assert (Htk : forall id f', (id, f') ∈ toks (submit s t f x wr (foff (fls s f)) len klen true) <-> (id, f') ∈ toks s \/ (id = nid s /\ f' = f)).
  { intros id f'. unfold toks, submit, batch. cbn [hist fls fib infl ring unsig evfd pc nid bufs cont].
    rewrite fmap_app, !elem_of_app. cbn. rewrite elem_of_list_singleton. unfold itok at 2. cbn.
    split; [intros [[?|[= -> ->]]|?]; tauto|intros [[?|?]|[-> ->]]; tauto]. }
  unfold submit in *. constructor; cbn [hist fls fib infl ring unsig evfd pc nid bufs cont].
  - assert (E : (toks (submit s t f x wr (foff (fls s f)) len klen true)).*2 ≡ₚ f :: (toks s).*2).
    { unfold toks, submit, batch. cbn [hist fls fib infl ring unsig evfd pc nid bufs cont]. rewrite !fmap_app. cbn. solve_Permutation. }
    unfold submit in E. rewrite E. constructor; [|done]. intros ([id f'] & -> & H)%elem_of_list_fmap. by eapply (Hnf id).
  - intros id f' [H|[-> ->]]%Htk.
    + pose proof (b2 _ _ H) as H2. rewrite (Hne _ _ _ (or_introl H2)). rewrite upd_ne; [done|]. by eapply Hton; left.
    + by rewrite upd_eq, Hx5, upd_eq.
  - intros t' id f' H. destruct (decide (t' = t)) as [->|Hn].
    + rewrite upd_eq in H. injection H as <- <-. rewrite upd_eq. split; [apply Htk; by right|done].
    + rewrite (upd_ne _ _ _ _ Hn) in H. destruct (b3 _ _ _ H) as [H1 H2]. split; [apply Htk; by left|]. by rewrite (Hne t' id f' (or_introl H)).
  - intros t1 t2 id1 id2 f' H1 H2. unfold on in *. cbn [fib] in *.
    destruct (decide (t1 = t)) as [->|N1], (decide (t2 = t)) as [->|N2]; [done| | |].
    + rewrite upd_eq in H1. assert (f' = f) as -> by (destruct H1 as [|[]]; congruence). apply on_other in H2; [|done]. by destruct (not_on s t2 id2 f f Hb H2).
    + rewrite upd_eq in H2. assert (f' = f) as -> by (destruct H2 as [|[]]; congruence). apply on_other in H1; [|done]. by destruct (not_on s t1 id1 f f Hb H1).
    + apply on_other in H1, H2; try done. by eapply b4.
  - done.
  - unfold called in *. rewrite seq_S, omap_app, b6. done.
  - intros t' id f' Ho. unfold on in Ho. cbn [fib] in Ho. destruct (decide (t' = t)) as [->|Hn].
    + rewrite upd_eq in Ho. assert (id = nid s /\ f' = f) as [-> ->] by (destruct Ho as [|[]]; [split; congruence|done]).
      exists wr, (foff (fls s f)), len, (fdir x). rewrite upd_eq, <- Hx1, pos_snoc. cbn. split_and!; try done; [|congruence]. apply elem_of_app. right. by apply elem_of_list_singleton.
    + apply on_other in Ho; [|done]. rewrite (Hne t' id f' Ho). destruct (b7 _ _ _ Ho) as (w & o & l & d & H1 & H2). exists w, o, l, d. rewrite pos_snoc. cbn. split; [by apply matched_mono|done].
  - intros o Ho. apply elem_of_app in Ho as [Ho|Ho].
    + destruct (b8 o Ho) as (t' & off & l & d & H1 & H2). exists t', off, l, d. split; [by apply matched_mono|done].
    + apply elem_of_list_singleton in Ho as ->. cbn. exists t, (foff (fls s f)), len, (fdir x). rewrite <- Hx1. split; [|done].
      apply elem_of_app. right. by apply elem_of_list_singleton.
  - intros c Hc. eapply cq_mono; [done|done|by apply b9].
  - intros t' id f' r H. destruct (decide (t' = t)) as [->|Hn]; [by rewrite upd_eq in H|]. rewrite (upd_ne _ _ _ _ Hn) in H.
    rewrite (Hne t' id f'); [|right; eauto]. apply done_mono. by apply b10.
  - intros id t' f' r b H. apply done_mono. apply b11. apply elem_of_app in H as [H|H]; [done|]. by apply elem_of_list_singleton in H.
  - intros f'. rewrite pos_snoc. cbn. destruct (b12 f') as [(t' & id & r & H1 & H2)|[H1 H2]].
    + left. exists t', id, r. rewrite (Hne t' id f'); [|right; eauto]. rewrite upd_ne; [done|]. eapply Hton. right. eauto.
    + right. split; [|unfold upd; case_decide; [subst; congruence|done]]. intros t' id r. unfold upd. case_decide; [done|apply H1].
  - intros f'. rewrite contents_snoc. apply b13.
  - unfold returned in *. by rewrite omap_app, app_nil_r.
  - intros t' id f' Ho. unfold returned in *. rewrite omap_app, app_nil_r. unfold on in Ho. cbn [fib] in Ho. destruct (decide (t' = t)) as [->|Hn].
    + rewrite upd_eq in Ho. assert (id = nid s) as -> by (destruct Ho as [|[]]; congruence). done.
    + apply on_other in Ho; [|done]. by eapply b15.
  - intros id. unfold accepted, returned in *. rewrite !omap_app. cbn. rewrite app_nil_r, elem_of_app, elem_of_list_singleton. intros [H| ->].
    + destruct (b16 id H) as [?|(t' & f' & Ho)]; [by left|]. right. exists t', f'. unfold on. cbn [fib]. rewrite upd_ne; [done|by eapply Hton].
    + right. exists t, f. left. cbn [fib]. by rewrite upd_eq.
  - unfold executed in *. by rewrite omap_app, app_nil_r.
  - intros id. unfold executed in *. rewrite omap_app, app_nil_r. intros H. specialize (b17' id H). lia.
  - intros o Ho. unfold executed in *. rewrite omap_app, app_nil_r. apply elem_of_app in Ho as [Ho|Ho]; [by apply b18|].
    apply elem_of_list_singleton in Ho as ->. cbn.
    intros H. specialize (b17' _ H). lia.
  - intros f'. unfold upd. case_decide; [done|apply b19].
  - intros h1 h2 id t' f' w o l d acc H. eapply hcall_snoc; [exact b20| |exact H]. intros * E. clear -E Hp. injection E; intros; subst; exact Hp.
  - intros h1 h2 id f' res bf af H. eapply hexec_snoc; [exact b21| |exact H]. intros *. done.
  - intros h1 h2 id t' f' r' by_ H. eapply hret_snoc; [exact b22| |exact H]. intros *. done.
Qed.
End inv.
