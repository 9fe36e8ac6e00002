(** Freeing, cleanup, reset, destroy, arrays; the invariant of the client machine. *)
From Verif Require Import PoolSpec PoolProof.
Local Open Scope Z_scope.
#[local] Arguments larges : simpl never. #[local] Arguments hdrs : simpl never. #[local] Arguments recs : simpl never. #[local] Arguments smalls : simpl never.

Section inv2.
Context (psize : Z) (Hps : 64 <= psize < 2 ^ 63) (Hp8 : psize mod 8 = 0).
Context (sysm : nat -> list region -> Z -> Z -> option Z) (HS : sys_ok sysm).
Notation PI := (PI psize). Notation blk_ok := (blk_ok psize).

Lemma PI_perm X U V p : PI X U p -> U ≡ₚ V -> PI X V p.
Proof. intros [D1 D2 D3 D4 D5 D6 D7 D8] E. constructor; try done. by rewrite <- E. Qed.
Lemma create_ok p : create_pool sysm psize = Some p -> PI [] [] p /\ cleanup p = [].
Proof.
  unfold create_pool. destruct (sysm 0 [] 16 psize) as [a|] eqn:E; [|done]. intros [= <-]. split; [|done].
  pose proof (sys_pos _ HS _ _ _ _ _ E). pose proof (sys_al _ HS _ _ _ _ _ E).
  constructor; cbn; try done.
  - exists 0%nat. cbn. constructor; [|constructor]. constructor; cbn; unfold SZ_POOL; try done; try lia. intros r Hr. by apply elem_of_nil in Hr.
  - lia.
  - unfold MAX_FROM_POOL, SZ_POOL. case_decide; lia.
  - unfold breg. cbn. replace (a + psize - a) with psize by lia. done.
  - intros r Hr. by apply elem_of_nil in Hr.
  - intros h o Hr. by apply elem_of_nil in Hr.
Qed.

Lemma find_free_ok a l : forall r l', find_free l a = Some (r, l') -> r.1 = a /\ larges l ≡ₚ r :: larges l' /\ hdrs l' = hdrs l.
Proof.
  induction l as [|[h [q|]] l IH]; intros r l'; cbn [find_free]; [done| |].
  - case_decide.
    + intros [= <- <-]. rewrite !larges_cons. by cbn.
    + destruct (find_free l a) as [[q1 l1]|]; [|done]. intros [= <- <-]. destruct (IH _ _ eq_refl) as (A & B & C). rewrite !larges_cons. cbn.
      split_and!; [done|rewrite B; apply Permutation_swap|]. unfold hdrs in *. cbn. by rewrite C.
  - destruct (find_free l a) as [[q1 l1]|]; [|done]. intros [= <- <-]. destruct (IH _ _ eq_refl) as (A & B & C). rewrite !larges_cons. cbn.
    split_and!; [done|by rewrite B|]. unfold hdrs in *. cbn. by rewrite C.
Qed.
Lemma pfree_ok U p a n b p' : PI [] U p -> (a, n) ∈ U -> 0 < n -> pfree p a = (b, p') ->
  cleanup p' = cleanup p /\ PI [] (if b then remove1 (a, n) U else U) p'.
Proof.
  intros HP Hin Hn. unfold pfree. destruct (find_free (large p) a) as [[r l]|] eqn:E; [|by intros [= <- <-]].
  destruct (find_free_ok _ _ _ _ E) as (A & B & C). intros [= <- <-]. split; [done|].
  assert (Hrl : r ∈ larges (large p)) by (rewrite B; left).
  assert (r = (a, n)) as ->.
  { apply (pdisj_eq (live p)); [by eapply live_disj|unfold live; apply elem_of_app; by right| |].
    - rewrite (PI_part _ _ _ _ HP), elem_of_app. by left.
    - pose proof (PI_lpos _ _ _ _ HP _ Hrl). unfold disj. cbn. lia. }
  pose proof (remove1_perm (a, n) U Hin) as HU.
  destruct HP as [D1 D2 D3 D4 D5 D6 D7 D8].
  assert (Hs : (a, n) ∈ sysr p) by (rewrite D4; cbn; rewrite elem_of_app; by right).
  pose proof (remove1_perm (a, n) (sysr p) Hs) as HR.
  constructor; cbn; try done.
  - apply (Permutation_cons_inv (a := (a, n))). rewrite <- HR, D4, B. cbn. by rewrite <- Permutation_middle.
  - rewrite HR in D5. by destruct D5.
  - intros r Hr. apply D6. rewrite B. by right.
  - intros h o Ho. destruct (hdrs_in _ _ h C) as [o' Ho']; [by exists o|eauto].
  - apply (Permutation_cons_inv (a := (a, n))). unfold live in *. cbn. rewrite C.
    transitivity (smalls (blocks p) ++ larges (large p)); [rewrite B; solve_Permutation|]. rewrite D8. rewrite HU at 1. done.
Qed.
Lemma cleanup_add_ok U p h d o p' : PI [] U p -> cleanup_add sysm p h d = (o, p') ->
  PI [] U p' /\ cleanup p' = match o with Some c => (c, h, d) :: cleanup p | None => cleanup p end.
Proof.
  intros HP. unfold cleanup_add, palloc. destruct (if decide _ then _ else _) as [[c|] q] eqn:E;
    destruct (palloc_any psize Hps Hp8 sysm HS U p SZ_CLEAN true _ _ HP ltac:(done) E) as (A & B & C); intros [= <- <-].
  - destruct C as [[D1 D2 D3 D4 D5 D6 D7 D8] _]. cbn. rewrite A in *. split; [|done]. constructor; cbn; try done. unfold live in *. cbn. rewrite D8. unfold recs. cbn. solve_Permutation.
  - done.
Qed.
Lemma cleanup_set_ok U p c d : PI [] U p -> PI [] U (cleanup_set p c d).
Proof.
  intros [D1 D2 D3 D4 D5 D6 D7 D8]. constructor; cbn; try done. unfold live in *. cbn. rewrite D8. unfold recs.
  rewrite <- list_fmap_compose. do 2 f_equiv. apply reflexive_eq. apply list_fmap_ext. intros i e _. cbn. by case_decide.
Qed.
Lemma readable_in a n q sys : q ∈ sys -> inside a n q -> readable a n sys = true.
Proof. intros Hq Hi. unfold readable. apply existsb_exists. exists q. split; [by apply elem_of_list_In|]. by apply bool_decide_eq_true. Qed.
Lemma run_cleanup_ok l sys : (forall e, e ∈ l -> exists q, q ∈ sys /\ inside e.1.1 SZ_CLEAN q) -> run_cleanup l sys = Some (to_run l).
Proof.
  induction l as [|[[c h] d] l IH]; intros H; [done|]. cbn [run_cleanup]. destruct (H (c, h, d)) as (q & Hq & Hi); [left|].
  rewrite (readable_in c SZ_CLEAN q sys Hq Hi), IH by (intros e He; apply H; by right). unfold to_run. cbn. by case_decide.
Qed.
Lemma free_large_ok B l : (forall h o, (h, o) ∈ l -> exists q, q ∈ B /\ inside h SZ_LARGE q) ->
  forall sys, sys ≡ₚ B ++ larges l -> exists sys', free_large l sys = Some sys' /\ sys' ≡ₚ B.
Proof.
  induction l as [|[h o] l IH]; intros H sys HE; [exists sys; split; [done|]; rewrite HE; unfold larges; cbn; by rewrite app_nil_r|]. cbn [free_large].
  destruct (H h o) as (q & Hq & Hi); [left|]. rewrite (readable_in h _ q sys) by (try done; rewrite HE, elem_of_app; by left).
  assert (H' : forall h o, (h, o) ∈ l -> exists q, q ∈ B /\ inside h SZ_LARGE q) by (intros h' o' Ho; apply (H h' o'); by right).
  rewrite larges_cons in HE. destruct o as [r|]; cbn in HE; [|by apply IH].
  assert (Hr : r ∈ sys) by (rewrite HE, elem_of_app; right; left). rewrite decide_True by done. apply IH; [done|].
  apply (Permutation_cons_inv (a := r)). rewrite <- (remove1_perm r sys Hr), HE. by rewrite <- Permutation_middle.
Qed.
Lemma free_blocks_ok hs bs : Forall2 blk_ok hs bs -> forall sys, sys ≡ₚ breg <$> bs -> exists sys', free_blocks bs sys = Some sys' /\ sys' = [].
Proof.
  induction 1 as [|h b hs bs HB HF IH]; intros sys HE; [exists sys; split; [done|]; by apply Permutation_nil_r in HE|]. cbn [free_blocks].
  assert (Hr : breg b ∈ sys) by (rewrite HE; cbn; left).
  rewrite (readable_in (ba b) _ (breg b) sys Hr). 2: { destruct HB. unfold inside, breg, SZ_DATA. cbn. lia. }
  change (ba b, bend b - ba b) with (breg b). rewrite decide_True by done. apply IH.
  apply (Permutation_cons_inv (a := breg b)). by rewrite <- (remove1_perm _ _ Hr), HE.
Qed.
Lemma recs_readable U p : PI [] U p -> forall e, e ∈ cleanup p -> exists q, q ∈ sysr p /\ inside e.1.1 SZ_CLEAN q.
Proof.
  intros HP e He. destruct (live_inside psize [] U p (e.1.1, SZ_CLEAN) HP) as [_ H]; [|by apply H].
  rewrite (PI_part _ _ _ _ HP), !elem_of_app. right; right. apply elem_of_list_fmap. eauto.
Qed.
Lemma hdrs_readable U p : PI [] U p -> forall h o, (h, o) ∈ large p -> exists q, q ∈ breg <$> blocks p /\ inside h SZ_LARGE q.
Proof.
  intros HP h o Ho. apply (PI_hdr _ _ _ _ HP) in Ho. apply smalls_in in Ho as (b & Hb & Hr). destruct (PI_hs _ _ _ _ HP) as [n Hf].
  destruct (hs_in _ _ _ _ Hf Hb) as (h' & Hh & HB). exists (breg b). split; [apply elem_of_list_fmap; eauto|].
  apply (blk_inside psize h' b (h, SZ_LARGE)); try done. lia.
Qed.
Lemma destroy_ok U p : PI [] U p -> destroy_pool p = Some (to_run (cleanup p), []).
Proof.
  intros HP. unfold destroy_pool. rewrite (run_cleanup_ok _ _ (recs_readable _ _ HP)).
  destruct (free_large_ok (breg <$> blocks p) (large p) (hdrs_readable _ _ HP) (sysr p)) as (sys & -> & Hsys); [apply (PI_sys _ _ _ _ HP)|].
  destruct (PI_hs _ _ _ _ HP) as [n Hf]. destruct (free_blocks_ok _ _ Hf sys Hsys) as (sys' & -> & ->). done.
Qed.
Lemma reset_ok U p : PI [] U p -> exists p', reset_pool p = Some (to_run (cleanup p), p') /\ PI [] [] p' /\ cleanup p' = [].
Proof.
  intros HP. unfold reset_pool. rewrite (run_cleanup_ok _ _ (recs_readable _ _ HP)).
  destruct (free_large_ok (breg <$> blocks p) (large p) (hdrs_readable _ _ HP) (sysr p)) as (sys & -> & Hsys); [apply (PI_sys _ _ _ _ HP)|].
  eexists. split; [done|]. split; [|done]. destruct HP as [[n Hf] D2 D3 D4 D5 D6 D7 D8].
  set (f := λ b, mkb (ba b) (ba b + SZ_POOL) (bend b) 0 []).
  assert (Hbr : breg <$> (f <$> blocks p) = breg <$> blocks p) by (rewrite <- list_fmap_compose; done).
  constructor; cbn; try done.
  - exists n. clear -Hf Hps. apply Forall2_fmap_r. eapply Forall2_impl; [exact Hf|]. intros h b [B1 B2 B3 B0 B4 B5 B6 B7].
    constructor; cbn; unfold SZ_POOL; try done; try lia. intros r Hr. by apply elem_of_nil in Hr.
  - rewrite fmap_length. lia.
  - rewrite Hbr, Hsys. unfold larges. cbn. by rewrite app_nil_r.
  - rewrite D4 in D5. cbn in D5. apply pdisj_app in D5 as (? & _). by rewrite Hsys.
  - intros r Hr. by apply elem_of_nil in Hr.
  - intros h o Ho. by apply elem_of_nil in Ho.
  - unfold live, hdrs, recs, larges. cbn. rewrite app_nil_r. unfold smalls. clear. induction (blocks p); cbn; auto.
Qed.
End inv2.
