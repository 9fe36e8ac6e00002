(** Invariant of the file I/O model, continued: every step keeps it. *)
From Verif Require Import AioModel AioSpec AioProof.
Local Open Scope Z_scope.

Lemma take_in_take {X} (r g n : nat) (l : list X) : (r + g <= n)%nat -> take r (drop g (take n l)) = take r (drop g l).
Proof.
  intros H. replace n with (g + (n - g))%nat by lia. rewrite <- take_drop_commute, take_take. f_equal. lia.
Qed.
Lemma lookup_perm {X} (l : list X) i x : l !! i = Some x -> l ≡ₚ x :: (take i l ++ drop (S i) l).
Proof.
  intros H. rewrite <- (take_drop_middle l i x H) at 1. apply Permutation_sym, Permutation_middle.
Qed.

Section inv.
Context (kk : Z) (Hkk : 0 <= kk <= 15) (nd : bool) (c0 : nat -> list Z).
Notation A := (2 ^ kk).
Notation AI := (AI A nd c0).

Lemma AI_book s s' : AI s -> fls s' = fls s -> cont s' = cont s -> infl s' = infl s -> fib s' = fib s -> bufs s' = bufs s ->
  nid s' = nid s -> hist s' = hist s -> batch s' ++ ring s' = batch s ++ ring s -> length (ring s') = (unsig s' + evfd s' + owed s')%nat -> AI s'.
Proof.
  intros HI E1 E2 E3 E4 E5 E6 E7 E8 E9. pose proof HI as [b1 b2 b3 b4 b5 b6 b7 b8 b9 b10 b11 b12 b13 b14 b15 b16 b17 b17' b18 b19 b20 b21 b22].
  assert (ET : toks s' = toks s) by (unfold toks; by rewrite E3, E8).
  assert (EO : forall t id f, on s' t id f <-> on s t id f) by (intros; unfold on; by rewrite E4).
  constructor; rewrite ?ET, ?E1, ?E2, ?E3, ?E4, ?E5, ?E6, ?E7, ?E8; try done.
  - intros t t' id id' f. rewrite !EO. apply b4.
  - intros t id f. rewrite EO. apply b7.
  - intros c Hc. destruct (b9 c Hc) as (t & wr & off & len & dir & bf & af & H). exists t, wr, off, len, dir, bf, af. by rewrite E7, E5.
  - intros t id f. rewrite EO. apply b15.
  - intros id H. destruct (b16 id H) as [?|(t & f & Ho)]; [by left|]. right. exists t, f. by apply EO.
Qed.

(** changes of a file nobody uses *)
Lemma AI_file s f x hs : AI s -> ~ busy s f -> 0 <= fdoff x ->
  (hs = [] /\ foff x = foff (fls s f) \/ hs = [HSeek f (foff x)]) ->
  AI (mks (upd (fls s) f x) (cont s) (infl s) (ring s) (unsig s) (evfd s) (pc s) (fib s) (bufs s) (nid s) (hist s ++ hs)).
Proof.
  intros HI Hb Hx Hhs. pose proof (free_pos A nd c0 s f HI Hb) as Hp. pose proof HI as [b1 b2 b3 b4 b5 b6 b7 b8 b9 b10 b11 b12 b13 b14 b15 b16 b17 b17' b18 b19 b20 b21 b22].
  assert (Hne : forall t id f', on s t id f' -> upd (fls s) f x f' = fls s f').
  { intros t' id f' Ho. apply upd_ne. by eapply not_on. }
  assert (Hm : forall y, y ∈ hist s -> y ∈ hist s ++ hs) by (intros y Hy; apply elem_of_app; by left).
  assert (Hd : forall id t f r b, done_ok A (hist s) id t f r b -> done_ok A (hist s ++ hs) id t f r b).
  { intros *. destruct Hhs as [[-> _]| ->]; [by rewrite app_nil_r|apply done_mono]. }
  assert (Hom : forall (g : hev -> option nat), (forall p, g (HSeek f p) = None) -> omap g (hist s ++ hs) = omap g (hist s)).
  { intros g Hg. rewrite omap_app. destruct Hhs as [[-> _]| ->]; cbn; [by rewrite app_nil_r|]. by rewrite Hg, app_nil_r. }
  assert (Hps : forall t id f', on s t id f' -> pos f' (hist s ++ hs) = pos f' (hist s)).
  { intros t' id f' Ho. pose proof (not_on s t' id f f' Hb Ho) as Hf. destruct Hhs as [[-> _]| ->]; [by rewrite app_nil_r|].
    rewrite pos_snoc. cbn. by rewrite decide_False by congruence. }
  constructor; cbn [hist fls fib infl ring unsig evfd pc nid bufs cont]; try done.
  - intros id f' H. specialize (b2 id f' H). rewrite (Hne _ _ _ (or_introl b2)). done.
  - intros t' id f' H. specialize (b3 _ _ _ H). rewrite (Hne t' id f' (or_introl H)). done.
  - unfold called in *. by rewrite Hom.
  - intros t' id f' Ho. rewrite (Hne t' id f' Ho). destruct (b7 _ _ _ Ho) as (w & o & l & d & H1 & H2). exists w, o, l, d. rewrite (Hps t' id f' Ho). split; [by apply Hm|done].
  - intros o Ho. destruct (b8 o Ho) as (t' & off & l & d & H1 & H2). exists t', off, l, d. split; [by apply Hm|done].
  - intros c Hc. destruct (b9 c Hc) as (t & wr & off & len & dir & bf & af & H1 & H2 & H3). exists t, wr, off, len, dir, bf, af.
    cbn [hist bufs]. split_and!; try apply H3; by apply Hm.
  - intros t' id f' r H. rewrite (Hne t' id f'); [|right; eauto]. apply Hd. by apply b10.
  - intros id t' f' r b H. apply Hd. apply b11. apply elem_of_app in H as [H|H]; [done|].
    destruct Hhs as [[-> _]| ->]; [by apply elem_of_nil in H|]. by apply elem_of_list_singleton in H.
  - intros f'. destruct (b12 f') as [(t' & id & r & H1 & H2)|[H1 H2]].
    + left. exists t', id, r. assert (Hf : f' <> f) by (eapply (not_on s t' id f); [done|right; eauto]).
      rewrite (Hne t' id f'); [|right; eauto]. split; [done|]. destruct Hhs as [[-> _]| ->]; [by rewrite app_nil_r|].
      rewrite pos_snoc. cbn. by rewrite decide_False by congruence.
    + right. split; [done|]. destruct (decide (f' = f)) as [->|Hf].
      * rewrite upd_eq. destruct Hhs as [[-> ->]| ->]; [by rewrite app_nil_r|]. rewrite pos_snoc. cbn. by rewrite decide_True.
      * rewrite (upd_ne _ _ _ _ Hf), H2. destruct Hhs as [[-> _]| ->]; [by rewrite app_nil_r|].
        rewrite pos_snoc. cbn. by rewrite decide_False by congruence.
  - intros f'. destruct Hhs as [[-> _]| ->]; [by rewrite app_nil_r|]. rewrite contents_snoc. apply b13.
  - unfold returned in *. by rewrite Hom.
  - intros t' id f' Ho. unfold returned in *. rewrite Hom; [|done]. by eapply b15.
  - intros id. unfold accepted, returned in *. rewrite !Hom; [|done|done]. apply b16.
  - unfold executed in *. by rewrite Hom.
  - intros id. unfold executed in *. rewrite Hom; [|done]. apply b17'.
  - intros o Ho. unfold executed in *. rewrite Hom; [|done]. by apply b18.
  - intros f'. unfold upd. case_decide; [done|apply b19].
  - intros h1 h2 id t' f' w o l d acc H. destruct Hhs as [[-> _]| ->]; [rewrite app_nil_r in H; by eapply b20|].
    eapply hcall_snoc; [exact b20| |exact H]. intros *. done.
  - intros h1 h2 id f' res bf af H. destruct Hhs as [[-> _]| ->]; [rewrite app_nil_r in H; by eapply b21|].
    eapply hexec_snoc; [exact b21| |exact H]. intros *. done.
  - intros h1 h2 id t' f' r' by_ H. destruct Hhs as [[-> _]| ->]; [rewrite app_nil_r in *; by eapply b22|].
    eapply hret_snoc; [exact b22| |exact H]. intros *. done.
Qed.

(** the ready loop resumes the fiber *)
Lemma AI_resume s t id f r : AI s -> fib s t = FReady id f r ->
  AI (mks (fls s) (cont s) (infl s) (ring s) (unsig s) (evfd s) (pc s) (upd (fib s) t FRun) (bufs s) (nid s)
       (hist s ++ [HRet id t f r (take (Z.to_nat r) (drop (Z.to_nat (fdoff (fls s f))) (bufs s id)))])).
Proof.
  intros HI Ht. pose proof HI as [b1 b2 b3 b4 b5 b6 b7 b8 b9 b10 b11 b12 b13 b14 b15 b16 b17 b17' b18 b19 b20 b21 b22].
  set (h := HRet _ _ _ _ _).
  assert (Hon : forall t' id' f', (upd (fib s) t FRun t' = FWait id' f' \/ exists r, upd (fib s) t FRun t' = FReady id' f' r) -> t' <> t /\ on s t' id' f').
  { intros t' id' f' Ho. destruct (decide (t' = t)) as [->|Hn]; [rewrite upd_eq in Ho; by destruct Ho as [|[]]|]. split; [done|]. by eapply on_other. }
  constructor; cbn [hist fls fib infl ring unsig evfd pc nid bufs cont]; try done.
  - intros id' f' H. pose proof (b2 _ _ H) as H2. rewrite upd_ne; [done|]. intros E. rewrite E in H2. congruence.
  - intros t' id' f' H. destruct (Hon t' id' f' (or_introl H)) as [Hn _]. rewrite (upd_ne _ _ _ _ Hn) in H. by apply b3.
  - intros t1 t2 id1 id2 f' H1 H2. apply Hon in H1 as [_ H1], H2 as [_ H2]. by eapply b4.
  - unfold called in *. by rewrite omap_app, app_nil_r.
  - intros t' id' f' Ho. apply Hon in Ho as [Hn Ho]. assert (Hff : f' <> f). { intros ->. apply Hn. eapply (b4 t' t id' id f); [done|right; eauto]. }
    destruct (b7 _ _ _ Ho) as (w & o & l & d & H1 & H2). exists w, o, l, d. rewrite pos_snoc. cbn. rewrite decide_False by congruence. split; [by apply matched_mono|done].
  - intros o Ho. destruct (b8 o Ho) as (t' & off & l & d & H1 & H2). exists t', off, l, d. split; [by apply matched_mono|done].
  - intros c Hc. eapply cq_mono; [done|done|by apply b9].
  - intros t' id' f' r' H. destruct (Hon t' id' f' ltac:(right; eauto)) as [Hn _]. rewrite (upd_ne _ _ _ _ Hn) in H. apply done_mono. by apply b10.
  - intros id' t' f' r' b H. apply done_mono. apply elem_of_app in H as [H|H]; [by apply b11|]. apply elem_of_list_singleton in H.
    injection H as -> -> -> -> ->. by apply b10.
  - intros f'. rewrite pos_snoc. cbn. destruct (b12 f') as [(t' & id' & r' & H1 & H2)|[H1 H2]].
    + destruct (decide (f = f')) as [<-|Hf].
      * right. assert (t' = t) as -> by (eapply (b4 t' t id' id f); right; eauto). rewrite Ht in H1. injection H1 as <- <-.
        split; [|done]. intros t' id' r' H. destruct (Hon t' id' f ltac:(right; eauto)) as [Hn Ho]. apply Hn.
        eapply (b4 t' t id' id f); [done|right; eauto].
      * left. exists t', id', r'. split; [|done]. rewrite upd_ne; [done|]. intros ->. congruence.
    + right. destruct (decide (f = f')) as [<-|Hf]; [by destruct (H1 t id r)|]. split; [|done]. intros t' id' r' H.
      destruct (Hon t' id' f' ltac:(right; eauto)) as [Hn Ho]. rewrite (upd_ne _ _ _ _ Hn) in H. by eapply H1.
  - intros f'. rewrite contents_snoc. apply b13.
  - unfold returned in *. rewrite omap_app. cbn. apply NoDup_app. split; [done|]. split; [|apply NoDup_singleton].
    intros x Hx1 Hx2. apply elem_of_list_singleton in Hx2 as ->. eapply (b15 t id f); [right; eauto|done].
  - intros t' id' f' Ho. apply Hon in Ho as [Hn Ho]. unfold returned in *. rewrite omap_app. cbn. rewrite elem_of_app, elem_of_list_singleton.
    intros [H| ->]; [by eapply b15|].
    destruct (b7 _ _ _ Ho) as (w & o & l & d & H1 & _). destruct (b7 t id f ltac:(right; eauto)) as (w2 & o2 & l2 & d2 & H2 & _).
    destruct (AI_uniq _ _ _ _ _ _ _ _ _ _ _ _ _ _ _ _ _ HI H1 H2) as [-> _]. done.
  - intros id'. unfold accepted, returned in *. rewrite !omap_app. cbn. rewrite app_nil_r, elem_of_app, elem_of_list_singleton.
    intros H. destruct (b16 id' H) as [?|(t' & f' & Ho)]; [by left; left|]. destruct (decide (t' = t)) as [->|Hn].
    + left. right. destruct Ho as [Ho|[r' Ho]]; congruence.
    + right. exists t', f'. unfold on. cbn [fib]. by rewrite (upd_ne _ _ _ _ Hn).
  - unfold executed in *. by rewrite omap_app, app_nil_r.
  - intros id'. unfold executed in *. rewrite omap_app, app_nil_r. apply b17'.
  - intros o Ho. unfold executed in *. rewrite omap_app, app_nil_r. by apply b18.
  - intros h1 h2 id' t' f' w o l d acc H. eapply hcall_snoc; [exact b20| |exact H]. intros *. done.
  - intros h1 h2 id' f' res bf af H. eapply hexec_snoc; [exact b21| |exact H]. intros *. done.
  - intros h1 h2 id' t' f' r' by_ H. eapply hret_snoc; [exact b22| |exact H]. intros * E. injection E as <- <- <- _ _.
    destruct (b7 t id f ltac:(right; eauto)) as (w & o & l & d & H1 & _ & _ & _ & ->). by exists w, l, d.
Qed.

(** tokens determine their file *)
Lemma tok_on s id f : AI s -> (id, f) ∈ toks s -> on s (fdata (fls s f)) id f.
Proof. intros HI H. left. by apply (a_tok _ _ _ s HI). Qed.
Lemma on_uniq s t t' id f f' : AI s -> on s t id f -> on s t' id f' -> t' = t /\ f' = f.
Proof.
  intros HI H1 H2. destruct (a_info _ _ _ s HI _ _ _ H1) as (w & o & l & d & M1 & _). destruct (a_info _ _ _ s HI _ _ _ H2) as (w2 & o2 & l2 & d2 & M2 & _).
  destruct (AI_uniq _ _ _ _ _ _ _ _ _ _ _ _ _ _ _ _ _ HI M1 M2) as (-> & -> & _). done.
Qed.
Lemma AI_complete s i o res c' b : AI s -> infl s !! i = Some o ->
  (forall off dir len, i_off o = off - gap A (i_wr o) off dir -> (dir = false \/ i_wr o <> None -> i_len o = Z.of_nat len) ->
     (forall d, i_wr o = Some d -> len = length d) -> fdir (fls s (i_file o)) = dir -> fdoff (fls s (i_file o)) = gap A (i_wr o) off dir ->
     kernel_did A (i_wr o) off dir res (cont s (i_file o)) c' /\
     (dir = false \/ i_wr o <> None -> res <= Z.of_nat len) /\
     (i_wr o = None -> 0 < res -> 0 <= off - gap A (i_wr o) off dir /\ b = slice (cont s (i_file o)) (off - gap A (i_wr o) off dir) res /\
        off - gap A (i_wr o) off dir + res <= Z.of_nat (length (cont s (i_file o)))) /\
     (nd = false -> dir = true -> gap A (i_wr o) off dir < res)) ->
  AI (complete s i o res c' b).
Proof.
  intros HI Hi Hc. pose proof HI as [b1 b2 b3 b4 b5 b6 b7 b8 b9 b10 b11 b12 b13 b14 b15 b16 b17 b17' b18 b19 b20 b21 b22].
  assert (Hio : o ∈ infl s) by (by eapply elem_of_list_lookup_2). pose proof (lookup_perm _ _ _ Hi) as HP.
  assert (Hot : (i_id o, i_file o) ∈ toks s). { unfold toks. apply elem_of_app. left. apply elem_of_list_fmap. by exists o. }
  assert (Hoo : on s (fdata (fls s (i_file o))) (i_id o) (i_file o)) by (by apply tok_on).
  assert (HT : toks (complete s i o res c' b) ≡ₚ toks s).
  { unfold toks, complete, batch. cbn [hist fls fib infl ring unsig evfd pc nid bufs cont].
    assert (E : itok <$> infl s ≡ₚ itok o :: (itok <$> take i (infl s) ++ drop (S i) (infl s))) by (by rewrite HP at 1).
    rewrite E, app_assoc, (fmap_app ctok _ [_]), app_assoc. change (ctok <$> [mkc (i_id o) (i_file o) res]) with [itok o].
    rewrite Permutation_app_comm. done. }
  assert (Hot2 : forall o', o' ∈ take i (infl s) ++ drop (S i) (infl s) -> o' ∈ infl s /\ i_id o' <> i_id o).
  { intros o' Ho'. assert (Hin : o' ∈ infl s) by (rewrite HP; by apply elem_of_cons; right). split; [done|]. intros E.
    assert (Hot' : (i_id o', i_file o') ∈ toks s). { unfold toks. apply elem_of_app. left. apply elem_of_list_fmap. by exists o'. }
    pose proof (tok_on s _ _ HI Hot') as Ho2. rewrite E in Ho2. destruct (on_uniq s _ _ _ _ _ HI Hoo Ho2) as [_ E2].
    unfold toks in b1. rewrite fmap_app in b1. apply NoDup_app in b1 as [b1 _]. rewrite HP in b1. cbn in b1.
    apply NoDup_cons in b1 as [b1 _]. apply b1. rewrite <- E2. apply elem_of_list_fmap. exists (itok o'). split; [done|]. apply elem_of_list_fmap. by exists o'. }
  assert (Hct : forall c, c ∈ batch s ++ ring s -> c_id c <> i_id o).
  { intros c Hc' E. assert (Hot' : (c_id c, c_file c) ∈ toks s). { unfold toks. apply elem_of_app. right. apply elem_of_list_fmap. by exists c. }
    pose proof (tok_on s _ _ HI Hot') as Ho2. rewrite E in Ho2. destruct (on_uniq s _ _ _ _ _ HI Hoo Ho2) as [_ E2].
    unfold toks in b1. rewrite fmap_app in b1. apply NoDup_app in b1 as (_ & b1 & _). apply (b1 (i_file o)).
    - apply elem_of_list_fmap. exists (itok o). split; [done|]. apply elem_of_list_fmap. by exists o.
    - apply elem_of_list_fmap. exists (ctok c). split; [by rewrite <- E2|]. apply elem_of_list_fmap. by exists c. }
  assert (Hmm : forall y h, y ∈ hist s -> y ∈ hist s ++ [h]) by (intros y h Hy; apply elem_of_app; by left).
  assert (EO : forall t id f, on (complete s i o res c' b) t id f <-> on s t id f) by (intros; done).
  constructor; cbn [complete hist fls fib infl ring unsig evfd pc nid bufs cont].
  - by rewrite HT.
  - intros id f. rewrite HT. apply b2.
  - intros t id f H. rewrite HT. by apply b3.
  - apply b4.
  - rewrite app_length, b5. unfold owed, complete. cbn. lia.
  - unfold called in *. by rewrite omap_app, app_nil_r.
  - intros t id f Ho. destruct (b7 _ _ _ Ho) as (w & of_ & l & d & H1 & H2). exists w, of_, l, d. rewrite pos_snoc. cbn. split; [by apply matched_mono|done].
  - intros o' Ho'. apply Hot2 in Ho' as [Ho' _]. destruct (b8 o' Ho') as (t' & off & l & d & H1 & H2). exists t', off, l, d. split; [by apply matched_mono|done].
  - intros c Hc'. unfold complete, batch in Hc'. cbn [pc ring] in Hc'. fold (batch s) in Hc'. rewrite app_assoc in Hc'. apply elem_of_app in Hc' as [Hc'|Hc'].
    + eapply cq_mono; [unfold complete; done| |by apply b9]. unfold complete. cbn [bufs]. apply upd_ne. by apply Hct.
    + apply elem_of_list_singleton in Hc' as ->. destruct (b8 o Hio) as (t & off & len & dir & H1 & H2 & H3 & H4).
      destruct (b7 _ _ _ Hoo) as (w & of_ & l & d & M1 & M2 & M3 & M4 & _).
      destruct (AI_uniq _ _ _ _ _ _ _ _ _ _ _ _ _ _ _ _ _ HI H1 M1) as (E1 & _ & -> & -> & -> & ->).
      destruct (Hc off dir len H2 H3 H4 M2 M3) as (K1 & K2 & K3 & K4).
      exists t, (i_wr o), off, len, dir, (cont s (i_file o)), c'. unfold complete. cbn [c_id c_file c_res hist bufs]. rewrite upd_eq. split_and!; try done.
      * by apply matched_mono.
      * apply elem_of_app. right. by apply elem_of_list_singleton.
  - intros t id f r H. apply done_mono. rewrite upd_ne; [by apply b10|]. intros ->.
    destruct (on_uniq s _ t _ _ f HI Hoo ltac:(right; eauto)) as [-> ->]. pose proof (b2 _ _ Hot). congruence.
  - intros id t f r bb H. apply done_mono. apply b11. apply elem_of_app in H as [H|H]; [done|]. by apply elem_of_list_singleton in H.
  - intros f. rewrite pos_snoc. cbn. apply b12.
  - intros f. rewrite contents_snoc. cbn. unfold upd. destruct (decide (f = i_file o)) as [->|Hn].
    + by rewrite decide_True.
    + rewrite decide_False by congruence. apply b13.
  - unfold returned in *. by rewrite omap_app, app_nil_r.
  - intros t id f Ho. unfold returned in *. rewrite omap_app, app_nil_r. by eapply b15.
  - intros id. unfold accepted, returned in *. rewrite !omap_app, !app_nil_r. apply b16.
  - unfold executed in *. rewrite omap_app. cbn. apply NoDup_app. split; [done|]. split; [|apply NoDup_singleton].
    intros y Hy1 Hy2. apply elem_of_list_singleton in Hy2 as ->. by apply (b18 o).
  - intros id. unfold executed in *. rewrite omap_app. cbn. rewrite elem_of_app, elem_of_list_singleton. intros [H| ->]; [by apply b17'|].
    by eapply (on_lt A nd c0 s).
  - intros o' Ho'. apply Hot2 in Ho' as [Ho' Hn]. unfold executed in *. rewrite omap_app. cbn. rewrite elem_of_app, elem_of_list_singleton.
    intros [H|H]; [by eapply b18|done].
  - done.
  - intros h1 h2 id' t' f' w o' l d acc H. eapply hcall_snoc; [exact b20| |exact H]. intros *. done.
  - intros h1 h2 id' f' res' bf af H. eapply hexec_snoc; [exact b21| |exact H]. intros * E. injection E as <- <- <- <- <-. apply b13.
  - intros h1 h2 id' t' f' r' by_ H. eapply hret_snoc; [exact b22| |exact H]. intros *. done.
Qed.

(** the callback *)
Lemma adj_result x wr off len dir res before buf r : fdir x = dir -> fdoff x = gap A wr off dir -> (dir = true -> folen x = Z.of_nat len) ->
  adj_res nd x res = Some r -> (dir = false \/ wr <> None -> res <= Z.of_nat len) ->
  (wr = None -> 0 < res -> 0 <= off - gap A wr off dir /\ buf = slice before (off - gap A wr off dir) res /\ off - gap A wr off dir + res <= Z.of_nat (length before)) ->
  result_ok A wr off len dir res before r (take (Z.to_nat r) (drop (Z.to_nat (fdoff x)) buf)).
Proof.
  intros E1 E2 E3 HR HL HB. pose proof (gap_bound kk Hkk wr off dir) as HG. unfold adj_res in HR. rewrite E1, E2 in HR.
  assert (Hr : (res < gap A wr off dir -> r < 0) /\ (gap A wr off dir <= res -> r = Z.min (res - gap A wr off dir) (Z.of_nat len))).
  { destruct dir; cbn [negb] in HR.
    - rewrite E3 in HR by done. destruct (negb nd && (gap A wr off true <? 0)); [done|]. destruct (negb nd && negb _); [done|].
      destruct (res <? gap A wr off true) eqn:E; injection HR as <-; [apply Z.ltb_lt in E|apply Z.ltb_ge in E]; lia.
    - destruct (negb nd && _); [done|]. injection HR as <-. assert (gap A wr off false = 0) as -> by (by destruct wr). specialize (HL (or_introl eq_refl)). lia. }
  destruct Hr as [Hr1 Hr2]. split_and!; [done|done|]. intros Hw. set (g := gap A wr off dir) in *.
  destruct (Z.lt_ge_cases 0 r) as [Hr|Hr].
  2: { split; [|lia]. rewrite take_length. lia. }
  assert (Hg : g <= res). { destruct (Z.lt_ge_cases res g) as [H|H]; [specialize (Hr1 H); lia|done]. } specialize (Hr2 Hg).
  destruct (HB Hw ltac:(lia)) as (B1 & -> & B3). rewrite E2.
  assert (E : take (Z.to_nat r) (drop (Z.to_nat g) (slice before (off - g) res)) = slice before off r).
  { unfold slice. rewrite take_in_take by lia. rewrite drop_drop. do 2 f_equal. lia. }
  rewrite E. split; [|split; [lia|done]]. unfold slice. rewrite take_length, drop_length. lia.
Qed.
Lemma AI_cb s n c b r : AI s -> pc s = ADrain n (c :: b) -> adj_res nd (fls s (c_file c)) (c_res c) = Some r ->
  let f := c_file c in let x := fls s f in
  fib s (fdata x) = FWait (c_id c) f /\
  AI (mks (upd (fls s) f (mkf (if 0 <? r then foff x + r else foff x) (fdir x) (fdoff x) (folen x) (fdata x)))
       (cont s) (infl s) (ring s) (unsig s) (evfd s) (ADrain n b) (upd (fib s) (fdata x) (FReady (c_id c) f r)) (bufs s) (nid s) (hist s)).
Proof.
  intros HI Hp HR f x. pose proof HI as [b1 b2 b3 b4 b5 b6 b7 b8 b9 b10 b11 b12 b13 b14 b15 b16 b17 b17' b18 b19 b20 b21 b22].
  assert (Hb : batch s = c :: b) by (unfold batch; by rewrite Hp).
  assert (Hcb : c ∈ batch s ++ ring s) by (rewrite Hb; cbn; apply elem_of_cons; by left).
  assert (Hct : (c_id c, f) ∈ toks s). { unfold toks. apply elem_of_app. right. apply elem_of_list_fmap. by exists c. }
  pose proof (b2 _ _ Hct) as Hw. fold x in Hw. split; [done|]. set (t := fdata x) in *. set (id := c_id c) in *.
  set (x' := mkf _ _ _ _ _). set (s' := mks _ _ _ _ _ _ _ _ _ _ _).
  assert (HT : toks s ≡ₚ (id, f) :: toks s').
  { unfold toks. rewrite Hb. unfold s', batch. cbn [hist fls fib infl ring unsig evfd pc nid bufs cont]. cbn. change (ctok c) with (id, f). solve_Permutation. }
  assert (HN : f ∉ (toks s').*2 /\ NoDup (toks s').*2). { rewrite HT in b1. cbn in b1. by apply NoDup_cons in b1. }
  assert (Hfn : forall id' f', (id', f') ∈ toks s' -> f' <> f).
  { intros id' f' H ->. apply (proj1 HN). apply elem_of_list_fmap. by exists (id', f). }
  assert (EO : forall t' id' f', on s' t' id' f' <-> on s t' id' f').
  { intros t' id' f'. unfold on, s'. cbn [fib]. destruct (decide (t' = t)) as [->|Hn]; [|by rewrite (upd_ne _ _ _ _ Hn)].
    rewrite upd_eq, Hw. split; [intros [?|[r' [= <- <- <-]]]; [done|by left]|intros [[= <- <-]|[]]; [right; eauto|done]]. }
  assert (Hfx : forall f', fdir (upd (fls s) f x' f') = fdir (fls s f') /\ fdoff (upd (fls s) f x' f') = fdoff (fls s f') /\
      folen (upd (fls s) f x' f') = folen (fls s f') /\ fdata (upd (fls s) f x' f') = fdata (fls s f')).
  { intros f'. destruct (decide (f' = f)) as [->|Hn]; [by rewrite upd_eq|by rewrite (upd_ne _ _ _ _ Hn)]. }
  assert (Hnr : forall t' id' r', fib s t' <> FReady id' f r').
  { intros t' id' r' H. assert (t' = t) as -> by (eapply (b4 t' t id' id f); [right; eauto|by left]). congruence. }
  constructor; unfold s'; cbn [hist fls fib infl ring unsig evfd pc nid bufs cont]; fold s'; try done.
  - apply HN.
  - intros id' f' H. pose proof (Hfn _ _ H) as Hf. rewrite (upd_ne _ _ _ _ Hf). assert (H2 : (id', f') ∈ toks s) by (rewrite HT; apply elem_of_cons; by right).
    pose proof (b2 _ _ H2) as H3. rewrite upd_ne; [done|]. intros E. rewrite E, Hw in H3. congruence.
  - intros t' id' f' H. destruct (decide (t' = t)) as [->|Hn]; [by rewrite upd_eq in H|]. rewrite (upd_ne _ _ _ _ Hn) in H. destruct (b3 _ _ _ H) as [H1 H2].
    rewrite HT in H1. apply elem_of_cons in H1 as [[= -> ->]|H1]; [exfalso; apply Hn; symmetry; exact H2|]. split; [done|]. rewrite (proj2 (proj2 (proj2 (Hfx f')))). done.
  - intros t1 t2 id1 id2 f'. rewrite !EO. apply b4.
  - rewrite b5. unfold owed, s'. rewrite Hp. done.
  - intros t' id' f'. rewrite EO. destruct (Hfx f') as (-> & -> & -> & _). apply b7.
  - intros c' Hc'. assert (H2 : c' ∈ batch s ++ ring s). { rewrite Hb. unfold s', batch in Hc'. cbn in Hc' |- *. apply elem_of_cons. by right. }
    destruct (b9 _ H2) as (t' & wr & off & len & dir & bf & af & H). exists t', wr, off, len, dir, bf, af. done.
  - intros t' id' f' r' H. destruct (Hfx f') as (_ & -> & _). destruct (decide (t' = t)) as [->|Hn]; [|rewrite (upd_ne _ _ _ _ Hn) in H; by apply b10].
    rewrite upd_eq in H. injection H as <- <- <-.
    destruct (b9 c Hcb) as (t' & wr & off & len & dir & bf & af & M1 & M2 & M3 & M4 & M5 & M6).
    destruct (b7 t id f (or_introl Hw)) as (w & of_ & l & d & N1 & N2 & N3 & N4 & _).
    destruct (AI_uniq _ _ _ _ _ _ _ _ _ _ _ _ _ _ _ _ _ HI N1 M1) as (-> & _ & -> & -> & -> & ->).
    exists w, of_, l, d, (c_res c), bf, af. split_and!; try done. by apply adj_result.
  - intros f'. destruct (decide (f' = f)) as [->|Hf].
    + left. exists t, id, r. rewrite !upd_eq. split; [done|]. destruct (b12 f) as [(t' & id' & r' & H1 & _)|[_ H2]]; [by destruct (Hnr t' id' r')|].
      unfold x'. cbn [foff]. unfold x. rewrite H2. destruct (0 <? r) eqn:E; [apply Z.ltb_lt in E|apply Z.ltb_ge in E]; lia.
    + rewrite (upd_ne _ _ _ _ Hf). destruct (b12 f') as [(t' & id' & r' & H1 & H2)|[H1 H2]].
      * left. exists t', id', r'. split; [|done]. rewrite upd_ne; [done|]. intros ->. congruence.
      * right. split; [|done]. intros t' id' r' H. destruct (decide (t' = t)) as [->|Hn]; [rewrite upd_eq in H; congruence|].
        rewrite (upd_ne _ _ _ _ Hn) in H. by eapply H1.
  - intros t' id' f'. rewrite EO. apply b15.
  - intros id' H. destruct (b16 id' H) as [?|(t' & f' & Ho)]; [by left|]. right. exists t', f'. by apply EO.
  - intros f'. destruct (Hfx f') as (_ & -> & _). apply b19.
Qed.
End inv.
