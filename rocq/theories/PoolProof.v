(** Invariants of the pool. *)
From Verif Require Import PoolSpec.
Local Open Scope Z_scope.

#[global] Instance disj_sym : Symmetric disj.
Proof. intros r q. unfold disj. tauto. Qed.
Lemma pdisj_app l k : pdisj (l ++ k) <-> pdisj l /\ pdisj k /\ forall x y, x ∈ l -> y ∈ k -> disj x y.
Proof.
  induction l as [|r l IH]; cbn; [set_solver|]. rewrite IH, Forall_app, !Forall_forall. split.
  - intros ((H1 & H2) & H3 & H4 & H5). split_and!; try done. intros x y [->|Hx]%elem_of_cons Hy; auto.
  - intros ((H1 & H2) & H3 & H4). split_and!; try done.
    + intros y Hy. apply H4; [by left|done]. + intros x y Hx Hy. apply H4; [by right|done].
Qed.
#[global] Instance pdisj_perm : Proper ((≡ₚ) ==> iff) pdisj.
Proof.
  intros l k H. induction H as [|x l k H IH|x y l|l k m H1 IH1 H2 IH2]; cbn; [done| | |tauto].
  - rewrite IH. by rewrite H.
  - rewrite !Forall_cons. split; intros ((?&?)&?&?); split_and!; try done; by symmetry.
Qed.

Lemma pdisj_eq l x y : pdisj l -> x ∈ l -> y ∈ l -> ~ disj x y -> x = y.
Proof.
  induction l as [|r l IH]; cbn; intros H Hx Hy Hn; [by apply elem_of_nil in Hx|]. destruct H as [H1 H2]. rewrite Forall_forall in H1.
  apply elem_of_cons in Hx as [->|Hx]; apply elem_of_cons in Hy as [->|Hy]; [done| | |by apply IH].
  - destruct Hn. by apply H1.
  - destruct Hn. symmetry. by apply H1.
Qed.
Lemma disj_mono r r' q : disj r q -> r.1 <= r'.1 -> r'.1 + r'.2 <= r.1 + r.2 -> disj r' q.
Proof. unfold disj. lia. Qed.

Lemma align8_eq m : align8 m = 8 * ((m + 7) / 8).
Proof.
  unfold align8. change 7 with (Z.ones 3) at 2. rewrite <- Z.ldiff_land, Z.ldiff_ones_r by lia.
  rewrite Z.shiftl_mul_pow2, Z.shiftr_div_pow2 by lia. change (2 ^ 3) with 8. lia.
Qed.
Lemma align8_ge m : m <= align8 m.
Proof. rewrite align8_eq. pose proof (Z.mod_pos_bound (m + 7) 8 ltac:(lia)). pose proof (Z.div_mod (m + 7) 8 ltac:(lia)). lia. Qed.
Lemma align8_le m e : m <= e -> e mod 8 = 0 -> align8 m <= e.
Proof.
  intros H He. rewrite align8_eq. pose proof (Z.mod_pos_bound (m + 7) 8 ltac:(lia)). pose proof (Z.div_mod (m + 7) 8 ltac:(lia)).
  pose proof (Z.div_mod e 8 ltac:(lia)). assert ((m + 7) / 8 <= e / 8); [|lia].
  assert ((m + 7) / 8 < e / 8 + 1); [|lia]. apply Z.div_lt_upper_bound; lia.
Qed.
Lemma align8_mod m : align8 m mod 8 = 0.
Proof. rewrite align8_eq, Z.mul_comm. apply Z.mod_mul. lia. Qed.
Lemma align8_id m : m mod 8 = 0 -> align8 m = m.
Proof. intros H. apply Z.le_antisymm; [by apply align8_le|apply align8_ge]. Qed.

Section inv.
Context (psize : Z).
Record blk_ok (hdr : Z) (b : blk) : Prop := {
  bo_pos : 0 < ba b; bo_al : ba b mod 16 = 0; bo_end : bend b = ba b + psize; bo_h : hdr <= 64;
  bo_lo : ba b + hdr <= blast b; bo_hi : blast b <= bend b;
  bo_dj : pdisj (blive b);
  bo_in : forall r, r ∈ blive b -> 0 <= r.2 /\ (0 < r.2 -> ba b + hdr <= r.1 /\ r.1 + r.2 <= blast b) }.
Definition breg (b : blk) : region := (ba b, bend b - ba b).
Definition smalls (bs : list blk) : list region := bs ≫= blive.
Definition larges (l : list (Z * option region)) : list region := omap snd l.
Definition live (p : pool) : list region := smalls (blocks p) ++ larges (large p).
Definition hdrs (l : list (Z * option region)) : list region := (λ e, (e.1, SZ_LARGE)) <$> l.
Definition recs (l : list (Z * Z * Z)) : list region := (λ e, (e.1.1, SZ_CLEAN)) <$> l.

#[local] Arguments larges : simpl never. #[local] Arguments hdrs : simpl never. #[local] Arguments recs : simpl never. #[local] Arguments smalls : simpl never.
(** X: system regions in transit; U: the regions handed out and not given back *)
Record PI (X U : list region) (p : pool) : Prop := mkPI {
  PI_hs : exists n, Forall2 blk_ok (64 :: replicate n 32) (blocks p);
  PI_cur : (cur p < length (blocks p))%nat;
  PI_max : 0 <= pmax p <= psize - 64;
  PI_sys : sysr p ≡ₚ X ++ (breg <$> blocks p) ++ larges (large p);
  PI_sdj : pdisj (sysr p);
  PI_lpos : forall r, r ∈ larges (large p) -> 0 < r.2;
  PI_hdr : forall h o, (h, o) ∈ large p -> (h, SZ_LARGE) ∈ smalls (blocks p);
  PI_part : live p ≡ₚ U ++ hdrs (large p) ++ recs (cleanup p) }.

Context (Hps : 64 <= psize < 2 ^ 63) (Hp8 : psize mod 8 = 0).

Lemma mod16_8 a : a mod 16 = 0 -> a mod 8 = 0.
Proof. intros H. apply Z.mod_divide in H; [|lia]. apply Z.mod_divide; [lia|]. destruct H as [k ->]. exists (2 * k). lia. Qed.
Lemma bend_mod8 h b : blk_ok h b -> bend b mod 8 = 0.
Proof.
  intros H. rewrite (bo_end _ _ H). pose proof (mod16_8 _ (bo_al _ _ H)). rewrite Z.add_mod by lia. rewrite H0, Hp8. done.
Qed.
Lemma carve_ok h b al size m b' : blk_ok h b -> 0 <= h -> 0 <= size -> carve al size b = Some (m, b') ->
  blk_ok h b' /\ breg b' = breg b /\ blive b' = (m, size) :: blive b /\ (al = true -> m mod 8 = 0).
Proof.
  intros HB Hh Hs. unfold carve. set (m0 := if al then align8 (blast b) else blast b).
  case_decide as Hd; [|done]. intros [= <- <-]. destruct HB as [B1 B2 B3 B0 B4 B5 B6 B7].
  assert (Hm : blast b <= m0 <= bend b).
  { unfold m0. destruct al; [|lia]. split; [apply align8_ge|apply align8_le; [lia|]]. eapply bend_mod8. by constructor. }
  rewrite Z.mod_small in Hd by lia.
  assert (Hsz : m0 + size <= bend b) by lia.
  split_and!; [|done|done|].
  - constructor; cbn; try done; try lia.
    + split; [|done]. apply Forall_forall. intros r Hr. destruct (B7 r Hr) as (? & ?). unfold disj. cbn. lia.
    + intros r [->|Hr]%elem_of_cons; cbn; [lia|]. destruct (B7 r Hr) as (? & ?). lia.
  - intros ->. apply align8_mod.
Qed.
Lemma try_small_ok al size hs bs : Forall2 blk_ok hs bs -> Forall (λ h, 0 <= h) hs -> 0 <= size -> forall m bs', try_small al size bs = Some (m, bs') ->
  Forall2 blk_ok hs bs' /\ breg <$> bs' = breg <$> bs /\ smalls bs' ≡ₚ (m, size) :: smalls bs /\ (al = true -> m mod 8 = 0).
Proof.
  intros HF Hh Hs. induction HF as [|h b hs bs HB HF IH]; cbn; [done|]. apply Forall_cons in Hh as [Hh1 Hh2]. intros m bs' HT.
  destruct (carve al size b) as [[m1 b1]|] eqn:EC.
  - injection HT as <- <-. destruct (carve_ok h b al size m1 b1 HB Hh1 Hs EC) as (A & B & C & D).
    split_and!; [by constructor| |unfold smalls; cbn; by rewrite C|done]. cbn. by rewrite B.
  - destruct (try_small al size bs) as [[m2 bs2]|]; [|done]. injection HT as <- <-. destruct (IH Hh2 m2 bs2 eq_refl) as (A & B & C & D).
    split_and!; [by constructor|cbn; by rewrite B| |done]. unfold smalls in *. cbn. rewrite C. solve_Permutation.
Qed.
Lemma bump_ok hs bs : Forall2 blk_ok hs bs -> forall i c bs' c', bump bs i c = (bs', c') ->
  Forall2 blk_ok hs bs' /\ breg <$> bs' = breg <$> bs /\ smalls bs' = smalls bs /\ (c' = c \/ (c' < i + length bs)%nat).
Proof.
  induction 1 as [|h b hs bs HB HF IH]; intros i c bs' c'; cbn [bump]; [intros [= <- <-]; split_and!; try done; by left|].
  destruct bs as [|b2 bs2]; [intros [= <- <-]; split_and!; try done; [by constructor|by left]|].
  destruct (bump (b2 :: bs2) (S i) (if decide (bfailed b > 4) then S i else c)) as [r c2] eqn:E.
  destruct (IH _ _ _ _ E) as (A & B & C & D). intros [= <- <-]. split_and!.
  - constructor; [|done]. destruct HB. by constructor.
  - cbn [fmap list_fmap]. f_equal. exact B.
  - unfold smalls in *. cbn [mbind list_bind blive]. f_equal. exact C.
  - cbn [length] in *. case_decide; destruct D; lia.
Qed.
Lemma hs_nonneg n : Forall (λ h, 0 <= h) (64 :: replicate n 32).
Proof. constructor; [lia|]. apply Forall_replicate. lia. Qed.
Lemma smalls_app l k : smalls (l ++ k) = smalls l ++ smalls k.
Proof. unfold smalls. by rewrite bind_app. Qed.

Context (sysm : nat -> list region -> Z -> Z -> option Z) (HS : sys_ok sysm).
Lemma palloc_small_ok X U p size al o p' : PI X U p -> 0 <= size <= psize - 32 -> palloc_small sysm p size al = (o, p') ->
  large p' = large p /\ cleanup p' = cleanup p /\ pmax p' = pmax p /\
  match o with
  | None => PI X U p' /\ blocks p' = blocks p /\ sysr p' = sysr p
  | Some m => PI X ((m, size) :: U) p' /\ (m, size) ∈ smalls (blocks p') /\ (al = true -> m mod 8 = 0) /\ (forall q, q ∈ sysr p -> q ∈ sysr p')
  end.
Proof.
  intros HP Hs. destruct HP as [[n Hf] Hcur Hmax Hsys Hsdj Hlpos Hhdr Hpart]. unfold palloc_small.
  set (hs := 64 :: replicate n 32) in *.
  assert (Hsplit : Forall2 blk_ok (take (cur p) hs) (take (cur p) (blocks p)) /\ Forall2 blk_ok (drop (cur p) hs) (drop (cur p) (blocks p))).
  { split; [by apply Forall2_take|by apply Forall2_drop]. }
  destruct Hsplit as [Hft Hfd].
  assert (Hnn : Forall (λ h, 0 <= h) (drop (cur p) hs)) by (apply Forall_drop, hs_nonneg).
  destruct (try_small al size (drop (cur p) (blocks p))) as [[m bs]|] eqn:ET.
  - intros [= <- <-]. destruct (try_small_ok al size _ _ Hfd Hnn ltac:(lia) m bs ET) as (A & B & C & D).
    assert (Hsm : smalls (take (cur p) (blocks p) ++ bs) ≡ₚ (m, size) :: smalls (blocks p)).
    { rewrite smalls_app, C, <- Permutation_middle, <- smalls_app, take_drop. done. }
    assert (Hbr : breg <$> (take (cur p) (blocks p) ++ bs) = breg <$> blocks p).
    { rewrite fmap_app, B, <- fmap_app, take_drop. done. }
    split_and!; cbn; try done; [|rewrite Hsm; by left].
    constructor; cbn; try done.
    + exists n. fold hs. rewrite <- (take_drop (cur p) hs). by apply Forall2_app.
    + rewrite <- (fmap_length breg), Hbr, fmap_length. done.
    + by rewrite Hbr.
    + intros h o Ho. rewrite Hsm. right. eauto.
    + unfold live in *. cbn. rewrite Hsm. cbn. by rewrite Hpart.
  - unfold palloc_block. destruct (blocks p) as [|b0 bs0] eqn:Eb; [cbn in Hcur; lia|]. rewrite <- Eb in *.
    assert (Hb0 : blk_ok 64 b0) by (rewrite Eb in Hf; by inversion Hf).
    assert (Hpz : bend b0 - ba b0 = psize) by (rewrite (bo_end _ _ Hb0); lia). rewrite Hpz.
    destruct (sysm (tick p) (sysr p) 16 psize) as [a|] eqn:ES.
    2: { intros [= <- <-]. split_and!; cbn; try done. constructor; cbn; try done. by exists n. }
    destruct (bump (drop (cur p) (blocks p)) (cur p) (cur p)) as [bs c] eqn:EB. intros [= <- <-].
    destruct (bump_ok _ _ Hfd _ _ _ _ EB) as (A & B & C & D).
    pose proof (sys_pos _ HS _ _ _ _ _ ES) as S1. pose proof (sys_al _ HS _ _ _ _ _ ES) as S2.
    pose proof (sys_dj _ HS _ _ _ _ _ ES) as S3.
    assert (Ha8 : align8 (a + SZ_DATA) = a + SZ_DATA).
    { apply align8_id. rewrite Z.add_mod by lia. rewrite (mod16_8 a S2). done. } rewrite Ha8. unfold SZ_DATA in *.
    set (nb := mkb a (a + 32 + size) (a + psize) 0 [(a + 32, size)]).
    assert (Hnb : blk_ok 32 nb).
    { constructor; cbn; try done; try lia. intros r ->%elem_of_list_singleton. cbn. lia. }
    assert (Hsm : smalls (take (cur p) (blocks p) ++ bs ++ [nb]) ≡ₚ (a + 32, size) :: smalls (blocks p)).
    { rewrite !smalls_app, C. rewrite (app_assoc (smalls (take _ _))), <- smalls_app, take_drop. unfold smalls at 2. cbn. by rewrite Permutation_app_comm. }
    assert (Hbr : breg <$> (take (cur p) (blocks p) ++ bs ++ [nb]) = (breg <$> blocks p) ++ [(a, psize)]).
    { rewrite !fmap_app, B, (app_assoc (breg <$> take _ _)), <- fmap_app, take_drop. cbn. unfold breg at 2. cbn. do 3 f_equal. lia. }
    split_and!; cbn; try done.
    2: { rewrite Hsm. by left. }
    2: { intros _. rewrite Z.add_mod by lia. rewrite (mod16_8 a S2). done. }
    2: { intros q Hq. by right. }
    constructor; cbn; try done.
    + exists (S n). change (64 :: replicate (S n) 32) with (64 :: ([32] ++ replicate n 32)).
      assert (([32] ++ replicate n 32) = replicate n 32 ++ [32]) as ->. { change [32] with (replicate 1 32). rewrite <- !replicate_add. f_equal. lia. }
      change (64 :: replicate n 32 ++ [32]) with (hs ++ [32]). rewrite <- (take_drop (cur p) hs), <- app_assoc. apply Forall2_app; [done|].
      apply Forall2_app; [done|]. by constructor.
    + rewrite <- (fmap_length breg), Hbr, app_length, fmap_length. cbn. rewrite drop_length in D. destruct D; lia.
    + rewrite Hbr, Hsys. solve_Permutation.
    + intros h o Ho. rewrite Hsm. right. eauto.
    + unfold live in *. cbn. rewrite Hsm. cbn. by rewrite Hpart.
Qed.

Lemma larges_cons e l : larges (e :: l) = option_list (snd e) ++ larges l.
Proof. destruct e as [h [r|]]; done. Qed.
Lemma reuse_ok r l : forall n l', reuse l n r = Some l' ->
  larges l' ≡ₚ r :: larges l /\ hdrs l' = hdrs l.
Proof.
  induction l as [|[h [q|]] l IH]; intros [|n] l'; cbn [reuse]; try done.
  - destruct (reuse l n r) as [l1|] eqn:E; [|done]. intros [= <-]. destruct (IH _ _ E) as [A B]. rewrite !larges_cons, A. cbn. split; [apply Permutation_swap|].
    unfold hdrs in *. cbn. by rewrite B.
  - intros [= <-]. by rewrite !larges_cons.
Qed.
Lemma hdrs_in l k h : hdrs l = hdrs k -> (exists o, (h, o) ∈ l) -> exists o, (h, o) ∈ k.
Proof.
  intros E [o Ho]. assert (H : (h, SZ_LARGE) ∈ hdrs l). { apply elem_of_list_fmap. by exists (h, o). }
  rewrite E in H. apply elem_of_list_fmap in H as ([h' o'] & [= ->] & ?). by exists o'.
Qed.
Lemma szl : 0 <= SZ_LARGE <= psize - 32.
Proof. unfold SZ_LARGE. lia. Qed.
(** r, the region in transit, becomes a large allocation *)
Lemma new_large_ok U p r o p' : PI [r] U p -> 0 < r.2 -> new_large sysm p r = (o, p') ->
  cleanup p' = cleanup p /\ pmax p' = pmax p /\
  match o with None => PI [] U p' | Some m => m = r.1 /\ PI [] (r :: U) p' end.
Proof.
  intros HP Hr. unfold new_large. destruct (palloc_small sysm p SZ_LARGE true) as [[h|] q] eqn:E;
    destruct (palloc_small_ok _ _ _ _ _ _ _ HP szl E) as (A & B & C & D).
  - destruct D as (D & Din & _). intros [= <- <-]. cbn. split_and!; try done. destruct D as [D1 D2 D3 D4 D5 D6 D7 D8]. constructor; cbn; try done.
    + rewrite D4. rewrite larges_cons. cbn. rewrite <- Permutation_middle. done.
    + intros x. rewrite larges_cons. cbn. intros [->|Hx]%elem_of_cons; [done|auto].
    + intros h' o' [[= -> ->]|Hh]%elem_of_cons; [done|eauto].
    + unfold live in *. cbn [blocks large set_large]. rewrite larges_cons. cbn [snd option_list]. cbn. rewrite <- Permutation_middle, D8. cbn. solve_Permutation.
  - destruct D as (D & Db & Ds). intros [= <- <-]. cbn. split_and!; try done. destruct D as [D1 D2 D3 D4 D5 D6 D7 D8]. constructor; cbn; try done.
    + assert (r ∈ sysr q) as Hin by (rewrite D4; cbn; left). pose proof (remove1_perm r (sysr q) Hin) as Hp. rewrite Hp in D4. cbn in D4. by apply Permutation_cons_inv in D4.
    + assert (r ∈ sysr q) as Hin by (rewrite D4; cbn; left). pose proof (remove1_perm r (sysr q) Hin) as Hp. rewrite Hp in D5. by destruct D5.
Qed.
Lemma transit X U p a size al k : PI X U p -> sysm k (sysr p) al size = Some a -> PI ((a, size) :: X) U (set_sys p ((a, size) :: sysr p)).
Proof.
  intros [D1 D2 D3 D4 D5 D6 D7 D8] HS1. constructor; cbn; try done; [by rewrite D4|]. split; [|done]. by eapply sys_dj.
Qed.
Lemma set_sys_same X U p : PI X U p -> PI X U (set_sys p (sysr p)).
Proof. intros [D1 D2 D3 D4 D5 D6 D7 D8]. by constructor. Qed.
Lemma palloc_large_ok U p size o p' : PI [] U p -> 0 < size -> palloc_large sysm p size = (o, p') ->
  cleanup p' = cleanup p /\ pmax p' = pmax p /\
  match o with None => PI [] U p' | Some m => PI [] ((m, size) :: U) p' /\ m mod 8 = 0 end.
Proof.
  intros HP Hs. unfold palloc_large. destruct (sysm (tick p) (sysr p) 16 size) as [a|] eqn:ES.
  2: { intros [= <- <-]. split_and!; try done. by apply set_sys_same. }
  pose proof (transit _ _ _ _ _ _ _ HP ES) as HT. pose proof (sys_al _ HS _ _ _ _ _ ES) as Hal. apply mod16_8 in Hal.
  cbn [large set_sys]. destruct (reuse (large p) 5 (a, size)) as [l|] eqn:ER.
  - intros [= <- <-]. split_and!; try done. destruct (reuse_ok _ _ _ _ ER) as [A B]. destruct HT as [D1 D2 D3 D4 D5 D6 D7 D8].
    constructor; cbn in *; try done.
    + rewrite D4, A. by rewrite <- Permutation_middle.
    + intros r. rewrite A. intros [->|Hr]%elem_of_cons; [done|auto].
    + intros h o Ho. destruct (hdrs_in _ _ h B) as [o' Ho']; [by exists o|eauto].
    + unfold live in *. cbn in *. rewrite A, B, <- Permutation_middle. by rewrite D8.
  - intros E. destruct (new_large_ok _ _ _ _ _ HT Hs E) as (A & B & C). split_and!; try done. destruct o; [|done]. by destruct C as [-> C].
Qed.
Lemma palloc_any U p size al o p' : PI [] U p -> 0 <= size ->
  (if decide (size <= pmax p) then palloc_small sysm p size al else palloc_large sysm p size) = (o, p') ->
  cleanup p' = cleanup p /\ pmax p' = pmax p /\
  match o with None => PI [] U p' | Some m => PI [] ((m, size) :: U) p' /\ (al = true -> m mod 8 = 0) end.
Proof.
  intros HP Hs. pose proof (PI_max _ _ _ HP). case_decide; intros E.
  - assert (Hz : 0 <= size <= psize - 32) by lia. destruct (palloc_small_ok _ _ _ _ _ _ _ HP Hz E) as (A & B & C & D). split_and!; try done. destruct o; tauto.
  - assert (Hz : 0 < size) by lia. destruct (palloc_large_ok _ _ _ _ _ HP Hz E) as (A & B & C). split_and!; try done. destruct o; tauto.
Qed.
Lemma pmemalign_ok U p size al o p' : PI [] U p -> 0 < size -> pmemalign sysm p size al = (o, p') ->
  cleanup p' = cleanup p /\ match o with None => PI [] U p' | Some m => PI [] ((m, size) :: U) p' /\ m mod al = 0 end.
Proof.
  intros HP Hs. unfold pmemalign. destruct (sysm (tick p) (sysr p) al size) as [a|] eqn:ES.
  2: { intros [= <- <-]. split_and!; try done. by apply set_sys_same. }
  pose proof (transit _ _ _ _ _ _ _ HP ES) as HT. pose proof (sys_al _ HS _ _ _ _ _ ES) as Hal.
  intros E. destruct (new_large_ok _ _ _ _ _ HT Hs E) as (A & B & C). split_and!; try done. destruct o; [|done]. by destruct C as [-> C].
Qed.

(** all live regions are pairwise disjoint *)
Lemma smalls_in bs r : r ∈ smalls bs -> exists b, b ∈ bs /\ r ∈ blive b.
Proof. unfold smalls. intros (b & ? & ?)%elem_of_list_bind. eauto. Qed.
Lemma hs_in n (bs : list blk) b : Forall2 blk_ok (64 :: replicate n 32) bs -> b ∈ bs -> exists h, 32 <= h /\ blk_ok h b.
Proof.
  intros HF [i Hi]%elem_of_list_lookup. destruct (Forall2_lookup_r _ _ _ _ _ HF Hi) as (h & Hh & HB). exists h. split; [|done].
  destruct i; cbn in Hh; [injection Hh as <-; lia|]. apply lookup_replicate in Hh as [-> _]. lia.
Qed.
Lemma blk_inside h b r : 0 <= h -> blk_ok h b -> r ∈ blive b -> 0 < r.2 -> inside r.1 r.2 (breg b).
Proof. intros Hh [B1 B2 B3 B0 B4 B5 B6 B7] Hr Hp. destruct (B7 r Hr). unfold inside, breg. cbn. lia. Qed.
Lemma disj_inside r q x y : disj x y -> (0 < r.2 -> inside r.1 r.2 x) -> (0 < q.2 -> inside q.1 q.2 y) -> disj r q.
Proof. unfold disj, inside. lia. Qed.
Lemma smalls_disj hs bs : Forall2 blk_ok hs bs -> Forall (λ h, 0 <= h) hs -> pdisj (breg <$> bs) -> pdisj (smalls bs).
Proof.
  induction 1 as [|h b hs bs HB HF IH]; [done|]. intros Hh HD. apply Forall_cons in Hh as [Hh1 Hh2]. destruct HD as [HD1 HD2].
  unfold smalls in *. cbn [mbind list_bind]. apply pdisj_app. split_and!; [apply HB|by apply IH|].
  intros x y Hx Hy. apply smalls_in in Hy as (b' & Hb' & Hy). rewrite Forall_forall in HD1.
  apply elem_of_list_lookup in Hb' as [i Hi]. destruct (Forall2_lookup_r _ _ _ _ _ HF Hi) as (h' & Hh' & HB').
  apply (disj_inside x y (breg b) (breg b')).
  - apply HD1. apply elem_of_list_fmap. exists b'. split; [done|]. by eapply elem_of_list_lookup_2.
  - intros. by eapply blk_inside.
  - intros. rewrite Forall_forall in Hh2. eapply (blk_inside h'); try done. apply Hh2. by eapply elem_of_list_lookup_2.
Qed.
Lemma live_disj X U p : PI X U p -> pdisj (live p).
Proof.
  intros [[n Hf] D2 D3 D4 D5 D6 D7 D8]. unfold live. rewrite D4 in D5. rewrite !pdisj_app in D5. destruct D5 as (_ & (E1 & E2 & E3) & E4).
  apply pdisj_app. split_and!; [|done|].
  - eapply smalls_disj; [done|apply hs_nonneg|done].
  - intros x y (b & Hb & Hx)%smalls_in Hy. destruct (hs_in _ _ _ Hf Hb) as (h & Hh & HB).
    apply (disj_inside x y (breg b) y); [|intros; eapply blk_inside; [|done..]; lia|unfold inside; lia].
    apply E3; [|done]. apply elem_of_list_fmap. eauto.
Qed.
Lemma live_inside X U p r : PI X U p -> r ∈ live p -> 0 <= r.2 /\ (0 < r.2 -> exists q, q ∈ sysr p /\ inside r.1 r.2 q).
Proof.
  intros [[n Hf] D2 D3 D4 D5 D6 D7 D8] [(b & Hb & Hx)%smalls_in|Hr]%elem_of_app.
  - destruct (hs_in _ _ _ Hf Hb) as (h & Hh & HB). split; [by apply HB|]. intros Hp. exists (breg b). split.
    + rewrite D4. rewrite !elem_of_app. right; left. apply elem_of_list_fmap. eauto.
    + eapply blk_inside; [|done..]. lia.
  - split; [specialize (D6 r Hr); lia|]. intros _. exists r. split; [|unfold inside; lia]. rewrite D4, !elem_of_app. auto.
Qed.
End inv.
