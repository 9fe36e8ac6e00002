(** Pool arrays and the invariant of the client machine. *)
From Verif Require Import PoolSpec PoolProof PoolProof2.
Local Open Scope Z_scope.
#[local] Arguments larges : simpl never. #[local] Arguments hdrs : simpl never. #[local] Arguments recs : simpl never. #[local] Arguments smalls : simpl never.

Section inv3.
Context (psize : Z) (Hps : 64 <= psize < 2 ^ 63) (Hp8 : psize mod 8 = 0).
Context (sysm : nat -> list region -> Z -> Z -> option Z) (HS : sys_ok sysm).
Notation PI := (PI psize). Notation blk_ok := (blk_ok psize).

Lemma first_in U p e n b bs : PI [] ((e, n) :: U) p -> blocks p = b :: bs -> 0 < n -> e + n = blast b -> (e, n) ∈ blive b.
Proof.
  intros HP Eb Hn He. pose proof (live_disj _ _ _ _ HP) as HD.
  assert (Hl : (e, n) ∈ live p) by (rewrite (PI_part _ _ _ _ HP); left).
  destruct (PI_hs _ _ _ _ HP) as [k Hf]. assert (Hf' := Hf). rewrite Eb in Hf. inversion Hf as [|? ? ? ? HB HF]; subst.
  pose proof (PI_sdj _ _ _ _ HP) as Hs. rewrite (PI_sys _ _ _ _ HP), Eb in Hs. cbn in Hs. destruct Hs as [Hs1 _]. rewrite Forall_forall in Hs1.
  assert (Hno : forall q, q ∈ (breg <$> bs) ++ larges (large p) -> inside e n q -> False).
  { intros q Hq Hi. specialize (Hs1 q Hq). destruct HB. unfold disj, breg, inside in *. cbn in *. lia. }
  unfold live in Hl. rewrite Eb in Hl. apply elem_of_app in Hl as [Hl|Hl].
  - unfold smalls in Hl. cbn in Hl. apply elem_of_app in Hl as [Hl|Hl]; [done|]. exfalso. apply smalls_in in Hl as (b' & Hb' & Hl).
    apply (Hno (breg b')); [apply elem_of_app; left; apply elem_of_list_fmap; eauto|].
    destruct (hs_in _ _ _ b' Hf') as (h & Hh & HB'); [rewrite Eb; by right|]. apply (blk_inside psize h b' (e, n)); try done. lia.
  - exfalso. apply (Hno (e, n)); [apply elem_of_app; by right|unfold inside; cbn; lia].
Qed.
Lemma part_disj X U e n p h o : PI X ((e, n) :: U) p -> 0 < n -> (h, o) ∈ large p -> (h, SZ_LARGE) <> (e, n).
Proof.
  intros HP Hn Ho [= -> Hz]. pose proof (live_disj _ _ _ _ HP) as HD. rewrite (PI_part _ _ _ _ HP) in HD. destruct HD as [HD _].
  rewrite Forall_forall in HD. specialize (HD (e, SZ_LARGE)). unfold disj in HD. cbn in HD. unfold SZ_LARGE in *. destruct HD; [|lia..].
  rewrite !elem_of_app. right; left. apply elem_of_list_fmap. by exists (e, o).
Qed.
(** the first block's last allocation r is replaced by the list q (a longer or no region) *)
Lemma swap_first U p e n b bs b' q : PI [] ((e, n) :: U) p -> 0 < n -> blocks p = b :: bs -> (e, n) ∈ blive b ->
  blk_ok 64 b' -> breg b' = breg b -> blive b' = q ++ remove1 (e, n) (blive b) ->
  PI [] (q ++ U) (mkpool (b' :: bs) (cur p) (large p) (cleanup p) (pmax p) (sysr p) (tick p)).
Proof.
  intros HP Hn Eb Hin HB' Hbr Hbl. pose proof (remove1_perm _ _ Hin) as HR.
  pose proof (fun h o => part_disj _ _ _ _ _ h o HP Hn) as Hne.
  destruct HP as [[m Hf] D2 D3 D4 D5 D6 D7 D8]. rewrite Eb in Hf. inversion Hf as [|? ? ? ? HB HF]; subst.
  constructor; cbn [blocks cur large cleanup pmax sysr tick]; try done.
  - exists m. by constructor.
  - by rewrite Eb in D2.
  - rewrite Eb in D4. cbn in *. by rewrite Hbr.
  - intros h o Ho. specialize (D7 h o Ho). rewrite Eb in D7. unfold smalls in *. cbn in *. apply elem_of_app in D7 as [D7|D7]; [|rewrite elem_of_app; auto].
    rewrite elem_of_app. left. rewrite Hbl, elem_of_app. right. rewrite HR in D7. apply elem_of_cons in D7 as [D7|D7]; [|done]. by destruct (Hne h o).
  - unfold live in *. cbn [blocks large]. rewrite Eb in D8. unfold smalls in *. cbn [mbind list_bind] in *. rewrite HR in D8. cbn in D8.
    apply Permutation_cons_inv in D8. rewrite Hbl, <- !app_assoc in *. by rewrite D8.
Qed.
Lemma first_block X U p : PI X U p -> exists b bs, blocks p = b :: bs /\ blk_ok 64 b /\ first_last p = blast b /\ first_end p = bend b.
Proof.
  intros HP. unfold first_last, first_end. destruct (PI_hs _ _ _ _ HP) as [k Hf]. destruct (blocks p) as [|b bs]; [inversion Hf|].
  inversion Hf; subst. eauto 10.
Qed.
Lemma grow_last_ok U p e n k : PI [] ((e, n) :: U) p -> 0 < n -> 0 <= k -> e + n = first_last p -> first_last p + k <= first_end p ->
  PI [] ((e, n + k) :: U) (grow_last p (e, n) k).
Proof.
  intros HP Hn Hk He Hend. destruct (first_block _ _ _ HP) as (b & bs & Eb & HB & E1 & E2). rewrite E1 in *. rewrite E2 in *.
  unfold grow_last. rewrite Eb. pose proof (first_in _ _ _ _ _ _ HP Eb Hn He) as Hin. pose proof (remove1_perm _ _ Hin) as HR. cbn [fst snd].
  apply (swap_first U p e n b bs _ [(e, n + k)] HP Hn Eb Hin); [|done|done].
  destruct HB as [B1 B2 B3 B0 B4 B5 B6 B7]. constructor; cbn; try done; try lia.
  - rewrite HR in B6. destruct B6 as [B6 B6']. split; [|done]. rewrite Forall_forall in *. intros r Hr. specialize (B6 r Hr).
    assert (r ∈ blive b) as Hr' by (rewrite HR; by right). destruct (B7 r Hr') as [? ?]. unfold disj in *. cbn in *. lia.
  - intros r [->|Hr]%elem_of_cons; cbn.
    + destruct (B7 _ Hin) as [? ?]. cbn in *. lia.
    + assert (r ∈ blive b) as Hr' by (rewrite HR; by right). destruct (B7 r Hr') as [? ?]. lia.
Qed.
Lemma cut_last_ok U p e n : PI [] ((e, n) :: U) p -> 0 < n -> e + n = first_last p -> PI [] U (cut_last p (e, n)).
Proof.
  intros HP Hn He. destruct (first_block _ _ _ HP) as (b & bs & Eb & HB & E1 & E2). rewrite E1 in *.
  unfold cut_last. rewrite Eb. pose proof (first_in _ _ _ _ _ _ HP Eb Hn He) as Hin. pose proof (remove1_perm _ _ Hin) as HR. cbn [fst snd].
  apply (swap_first U p e n b bs _ [] HP Hn Eb Hin); [|done|done].
  destruct HB as [B1 B2 B3 B0 B4 B5 B6 B7]. destruct (B7 _ Hin) as [B8 B9]. cbn in *. constructor; cbn; try done; try lia.
  - rewrite HR in B6. by destruct B6.
  - intros r Hr. assert (r ∈ blive b) as Hr' by (rewrite HR; by right). destruct (B7 r Hr') as [? ?].
    rewrite HR in B6. destruct B6 as [B6 B6']. rewrite Forall_forall in *. specialize (B6 r Hr). unfold disj in B6. cbn in *. lia.
Qed.
Lemma palloc_ok U p size o p' : PI [] U p -> 0 <= size -> palloc sysm p size = (o, p') ->
  cleanup p' = cleanup p /\ match o with None => PI [] U p' | Some m => PI [] ((m, size) :: U) p' /\ m mod 8 = 0 end.
Proof.
  intros HP Hs E. destruct (palloc_any psize Hps Hp8 sysm HS U p size true o p' HP Hs E) as (A & B & C). split; [done|]. destruct o; [|done]. naive_solver.
Qed.

Record arr_ok (a : arr) (c : list Z) (m : Z -> Z) : Prop := {
  ao_n : 1 <= nalloc a; ao_s : 1 <= esize a; ao_c : 0 <= nelts a <= nalloc a;
  ao_len : Z.of_nat (length c) = esize a * nelts a;
  ao_val : forall i, 0 <= i < Z.of_nat (length c) -> m (elts a + i) = nth (Z.to_nat i) c 0 }.

Lemma array_create_ok U p n sz o p' : PI [] U p -> 1 <= n -> 1 <= sz -> array_create sysm p n sz = (o, p') ->
  cleanup p' = cleanup p /\ match o with
  | None => exists G, PI [] (U ++ G) p'
  | Some a => PI [] (areg a ++ U) p' /\ forall m, arr_ok a [] m end.
Proof.
  intros HP Hn Hs. unfold array_create. destruct (palloc sysm p SZ_ARRAY) as [[s|] q] eqn:E1;
    (destruct (palloc_ok _ _ SZ_ARRAY _ _ HP ltac:(done) E1) as (A & B)).
  2: { intros [= <- <-]. split; [done|]. exists []. by rewrite app_nil_r. }
  destruct B as [B _]. destruct (palloc sysm q (n * sz)) as [[e|] q2] eqn:E2; assert (Hz : 0 <= n * sz) by lia;
    (destruct (palloc_ok _ _ _ _ _ B Hz E2) as (C & D)); intros [= <- <-]; (split; [congruence|]).
  - destruct D as [D _]. split; [|intros m; constructor; cbn; lia]. eapply PI_perm; [exact D|]. unfold areg. cbn. rewrite (Z.mul_comm n). solve_Permutation.
  - exists [(s, SZ_ARRAY)]. eapply PI_perm; [exact D|]. solve_Permutation.
Qed.

(** what a push of n elements does *)
Definition push_post (U : list region) (p : pool) (m : Z -> Z) (a : arr) (n : Z) (r : option Z * pool * (Z -> Z) * arr) : Prop :=
  let '(o, p', m', a') := r in
  cleanup p' = cleanup p /\
  match o with
  | None => PI [] (areg a ++ U) p' /\ m' = m /\ a' = a
  | Some e => (exists G, PI [] (areg a' ++ G ++ U) p') /\ nelts a' = nelts a + n /\ nelts a' <= nalloc a' /\ 1 <= nalloc a' /\ esize a' = esize a /\
      e = elts a' + esize a * nelts a /\ (forall i, 0 <= i < esize a * nelts a -> m' (elts a' + i) = m (elts a + i)) /\
      (forall x, ~ (elts a' <= x < elts a' + esize a' * nalloc a') -> m' x = m x)
  end.
Lemma push_in_place U p m a n : PI [] (areg a ++ U) p -> 1 <= nalloc a -> 0 <= n -> nelts a + n <= nalloc a ->
  push_post U p m a n (Some (elts a + esize a * nelts a), p, m, mka (a_self a) (elts a) (nelts a + n) (esize a) (nalloc a)).
Proof.
  intros HP Hn Hk Hf. unfold push_post. cbn. split_and!; try done; try lia. exists []. exact HP.
Qed.
Lemma push_grow U p m a n : PI [] (areg a ++ U) p -> 1 <= nalloc a -> 1 <= esize a -> 0 <= n -> nelts a <= nalloc a ->
  elts a + esize a * nalloc a = first_last p -> first_last p + n * esize a <= first_end p ->
  push_post U p m a n (Some (elts a + esize a * nelts a), grow_last p (elts a, esize a * nalloc a) (n * esize a), m,
    mka (a_self a) (elts a) (nelts a + n) (esize a) (nalloc a + n)).
Proof.
  intros HP Hn Hs Hk Hc He Hend. unfold push_post. cbn.
  assert (HP' : PI [] ((elts a, esize a * nalloc a) :: (a_self a, SZ_ARRAY) :: U) p) by (eapply PI_perm; [exact HP|]; unfold areg; solve_Permutation).
  apply (grow_last_ok _ _ _ _ (n * esize a)) in HP'; try done; try nia.
  split_and!; try done; try lia.
  { unfold grow_last. by destruct (blocks p). }
  exists []. eapply PI_perm; [exact HP'|]. unfold areg. cbn. replace (esize a * (nalloc a + n)) with (esize a * nalloc a + n * esize a) by lia. solve_Permutation.
Qed.
Lemma push_move U p m a n na e p' : PI [] ((e, na * esize a) :: areg a ++ U) p' -> cleanup p' = cleanup p -> 1 <= nalloc a -> 1 <= esize a -> 0 <= n -> 0 <= nelts a ->
  nelts a + n <= na -> 1 <= na -> forall sz, sz = esize a * nelts a ->
  push_post U p m a n (Some (e + esize a * nelts a), p', move m e (elts a) sz, mka (a_self a) e (nelts a + n) (esize a) na).
Proof.
  intros HP Hcl Hn Hs Hk Hc Hle Hna sz ->. unfold push_post. cbn. split_and!; try done; try lia.
  - exists [(elts a, esize a * nalloc a)]. eapply PI_perm; [exact HP|]. unfold areg. cbn. rewrite (Z.mul_comm na). solve_Permutation.
  - intros i Hi. unfold move. rewrite decide_True by lia. f_equal. lia.
  - intros x Hx. unfold move. rewrite decide_False; [done|]. nia.
Qed.
Lemma array_push_ok U p m a c : PI [] (areg a ++ U) p -> arr_ok a c m -> push_post U p m a 1 (array_push sysm p m a).
Proof.
  intros HP [A1 A2 A3 A4 A5]. unfold array_push. cbn [nelts nalloc esize elts a_self].
  case_decide as Hfull; [|apply push_in_place; try done; lia]. case_decide as Hl.
  - destruct Hl as [Hl1 Hl2]. pose proof (push_grow U p m a 1 HP A1 A2 ltac:(lia) ltac:(lia) Hl1 ltac:(lia)) as H. by rewrite Z.mul_1_l in H.
  - destruct (palloc sysm p (2 * (esize a * nalloc a))) as [[e|] q] eqn:E; assert (Hz : 0 <= 2 * (esize a * nalloc a)) by lia;
      destruct (palloc_ok _ _ _ _ _ HP Hz E) as (C & D).
    + destruct D as [D _]. cbn [a_self elts esize nalloc nelts]. apply push_move; try done; try lia.
      eapply PI_perm; [exact D|]. replace (nalloc a * 2 * esize a) with (2 * (esize a * nalloc a)) by lia. done.
    + done.
Qed.
Lemma array_push_n_ok U p m a c n : PI [] (areg a ++ U) p -> arr_ok a c m -> 0 <= n -> push_post U p m a n (array_push_n sysm p m a n).
Proof.
  intros HP [A1 A2 A3 A4 A5] Hn0. unfold array_push_n. cbn [nelts nalloc esize elts a_self].
  case_decide as Hfull; [|apply push_in_place; try done; lia]. case_decide as Hl.
  - destruct Hl as [Hl1 Hl2]. apply push_grow; try done; lia.
  - set (na := 2 * (if decide (n >= nalloc a) then n else nalloc a)).
    assert (Hna : nelts a + n <= na /\ 1 <= na) by (unfold na; case_decide; lia).
    destruct (palloc sysm p (na * esize a)) as [[e|] q] eqn:E; assert (Hz : 0 <= na * esize a) by lia;
      destruct (palloc_ok _ _ _ _ _ HP Hz E) as (C & D).
    + destruct D as [D _]. cbn [a_self elts esize nalloc nelts]. apply push_move; try done; try lia.
    + done.
Qed.
Lemma array_destroy_ok U p a : PI [] (areg a ++ U) p -> 1 <= nalloc a -> 1 <= esize a ->
  cleanup (array_destroy p a) = cleanup p /\ exists G, PI [] (U ++ G) (array_destroy p a).
Proof.
  intros HP Hn Hs. unfold array_destroy. split.
  { repeat case_decide; unfold cut_last; repeat match goal with |- context [match blocks ?p with _ => _ end] => destruct (blocks p); cbn end; done. }
  assert (H1 : exists G, PI [] ((a_self a, SZ_ARRAY) :: G ++ U) (if decide (elts a + esize a * nalloc a = first_last p) then cut_last p (elts a, esize a * nalloc a) else p)).
  { case_decide.
    - exists []. apply cut_last_ok; [|nia|done]. eapply PI_perm; [exact HP|]. unfold areg. solve_Permutation.
    - by exists [(elts a, esize a * nalloc a)]. }
  destruct H1 as [G H1]. set (q := if decide _ then _ else _) in *. case_decide.
  - exists G. apply cut_last_ok; [|done|done]. eapply PI_perm; [exact H1|]. solve_Permutation.
  - exists ((a_self a, SZ_ARRAY) :: G). eapply PI_perm; [exact H1|]. solve_Permutation.
Qed.

(** ** The machine *)
Lemma aregs_insert m id a : m !! id = None -> aregs (<[id := a]> m) ≡ₚ areg a ++ aregs m.
Proof. intros H. unfold aregs. rewrite map_to_list_insert by done. done. Qed.
Lemma aregs_delete m id a : m !! id = Some a -> aregs m ≡ₚ areg a ++ aregs (delete id m).
Proof. intros H. rewrite <- (insert_delete m id a H) at 1. apply aregs_insert. apply lookup_delete. Qed.
Record MI (s : st) : Prop := mkMI {
  MI_pool : exists G, PI [] (user s ++ aregs (arrs s) ++ G) (po s);
  MI_arr : forall id a, arrs s !! id = Some a -> exists c, cont s !! id = Some c /\ arr_ok a c (mem s) }.

Lemma MI_disj s : MI s -> exists G, pdisj (user s ++ aregs (arrs s) ++ G ++ hdrs (large (po s)) ++ recs (cleanup (po s))).
Proof.
  intros [[G HP] _]. exists G. pose proof (live_disj _ _ _ _ HP) as HD. rewrite (PI_part _ _ _ _ HP) in HD. by rewrite <- !app_assoc in HD.
Qed.
Lemma arr_ok_ext a c m m' : arr_ok a c m -> (forall x, elts a <= x < elts a + esize a * nalloc a -> m' x = m x) -> arr_ok a c m'.
Proof. intros [A1 A2 A3 A4 A5] H. constructor; try done. intros i Hi. rewrite H by nia. by apply A5. Qed.
Lemma give_ok s size r o s' : MI s -> 0 <= size -> cleanup r.2 = cleanup (po s) ->
  (forall U, PI [] U (po s) -> match r.1 with None => PI [] U r.2 | Some m => PI [] ((m, size) :: U) r.2 end) ->
  give s size r = Some (o, s') -> MI s' /\ cleanup (po s') = cleanup (po s).
Proof.
  intros [[G HP] HA] Hs Hc Hr. unfold give. intros [= <- <-]. split; [|done]. constructor; [|done]. cbn. exists G. specialize (Hr _ HP). destruct (r.1); done.
Qed.
Lemma store_out m a bs x : ~ (a <= x < a + Z.of_nat (length bs)) -> store m a bs x = m x.
Proof. intros H. unfold store. by rewrite decide_False. Qed.
Lemma pushed_ok s id a c bs n r o s' : MI s -> arrs s !! id = Some a -> cont s !! id = Some c -> 0 <= n -> Z.of_nat (length bs) = n * esize a ->
  (forall U, PI [] (areg a ++ U) (po s) -> push_post U (po s) (mem s) a n r) ->
  pushed s id c bs r = Some (o, s') -> MI s' /\ cleanup (po s') = cleanup (po s).
Proof.
  intros HM Ha Hc Hn Hbs Hr. destruct (HM) as [[G HP] HA]. destruct (HA _ _ Ha) as (c' & Hc' & HO). rewrite Hc in Hc'. injection Hc' as <-.
  set (U := user s ++ aregs (delete id (arrs s)) ++ G).
  assert (HPU : PI [] (areg a ++ U) (po s)). { eapply PI_perm; [exact HP|]. unfold U. rewrite (aregs_delete _ _ _ Ha). solve_Permutation. }
  specialize (Hr U HPU). destruct r as [[[e p'] m'] a']. unfold pushed. cbn in Hr. destruct Hr as [Hcl Hr]. destruct e as [e|].
  - destruct Hr as ([G' HP'] & R1 & R2 & R3 & R4 & -> & R5 & R6). intros [= <- <-]. split; [|done]. constructor; cbn.
    + exists (G ++ G'). eapply PI_perm; [exact HP'|]. unfold U. rewrite <- (insert_delete_insert (arrs s)), aregs_insert by apply lookup_delete. solve_Permutation.
    + intros id2 a2. destruct (decide (id2 = id)) as [->|Hne].
      * rewrite !lookup_insert. intros [= <-]. exists (c ++ bs). split; [done|]. destruct HO as [A1 A2 A3 A4 A5].
        constructor; try lia.
        -- rewrite app_length, R1, R4. lia.
        -- rewrite app_length. intros i Hi. unfold store. rewrite R4 in *. case_decide as Hd.
           ++ rewrite app_nth2 by lia. f_equal. lia.
           ++ rewrite app_nth1 by lia. rewrite R5 by lia. apply A5. lia.
      * rewrite !lookup_insert_ne by done. intros Ha2. destruct (HA _ _ Ha2) as (c2 & Hc2 & HO2). exists c2. split; [done|].
        eapply arr_ok_ext; [exact HO2|]. intros x Hx.
        assert (HD : disj (elts a', esize a' * nalloc a') (elts a2, esize a2 * nalloc a2)).
        { pose proof (live_disj _ _ _ _ HP') as HD. rewrite (PI_part _ _ _ _ HP') in HD. destruct HD as [_ [HD _]].
          rewrite Forall_forall in HD. apply HD. rewrite !elem_of_app. left. right. unfold U. rewrite !elem_of_app. right. left.
          unfold aregs. apply elem_of_list_bind. exists (id2, a2). split; [|apply elem_of_map_to_list; by rewrite lookup_delete_ne].
          unfold areg. cbn. right. left. }
        assert (Hdx : ~ (elts a' <= x < elts a' + esize a' * nalloc a')) by (unfold disj in HD; cbn in HD; lia).
        rewrite store_out; [by apply R6|]. destruct HO. nia.
  - destruct Hr as (HP' & -> & ->). intros [= <- <-]. split; [|done]. rewrite insert_id by done. constructor; cbn; [|done].
    exists G. eapply PI_perm; [exact HP'|]. unfold U. rewrite (aregs_delete _ _ _ Ha). solve_Permutation.
Qed.
Definition reg1 (e : op * out) (acc : list (Z * Z * Z)) : list (Z * Z * Z) := registered [e] acc.
Lemma registered_cons e t acc : registered (e :: t) acc = registered t (reg1 e acc).
Proof. destruct e as [o r]. destruct o; cbn; try done; destruct r as [[|]| | |]; done. Qed.

Lemma step_ok s o r s' : MI s -> step sysm s o = Some (r, s') -> MI s' /\ cleanup (po s') = reg1 (o, r) (cleanup (po s)).
Proof.
  intros HM. destruct (HM) as [[G HP] HA]. destruct o; cbn [step].
  - case_decide as Hz; [|done]. intros E.
    assert (HH : reg1 (Alloc size, r) (cleanup (po s)) = cleanup (po s)) by done. rewrite HH.
    destruct (palloc sysm (po s) size) as [m p'] eqn:EP. destruct (palloc_ok _ _ _ _ _ HP Hz EP) as (A & _). eapply (give_ok s size (m, p')); try done.
    intros U HU. destruct (palloc_ok _ _ _ _ _ HU Hz EP) as (_ & B). cbn. destruct m; [by destruct B|done].
  - case_decide as Hz; [|done]. intros E.
    assert (HH : reg1 (Nalloc size, r) (cleanup (po s)) = cleanup (po s)) by done. rewrite HH.
    destruct (pnalloc sysm (po s) size) as [m p'] eqn:EP. destruct (palloc_any psize Hps Hp8 sysm HS _ _ _ false _ _ HP Hz EP) as (A & _). eapply (give_ok s size (m, p')); try done.
    intros U HU. destruct (palloc_any psize Hps Hp8 sysm HS _ _ _ false _ _ HU Hz EP) as (_ & _ & B). cbn. destruct m; [by destruct B|done].
  - case_decide as Hz; [|done]. destruct Hz as [Hz _]. intros E.
    assert (HH : reg1 (Memalign size al, r) (cleanup (po s)) = cleanup (po s)) by done. rewrite HH.
    destruct (pmemalign sysm (po s) size al) as [m p'] eqn:EP. destruct (pmemalign_ok psize Hps Hp8 sysm HS _ _ _ _ _ _ HP Hz EP) as (A & _). eapply (give_ok s size (m, p')); try done; [lia|].
    intros U HU. destruct (pmemalign_ok psize Hps Hp8 sysm HS _ _ _ _ _ _ HU Hz EP) as (_ & B). cbn. destruct m; [by destruct B|done].
  - case_decide as Hz; [|done]. destruct Hz as [Hz Hin]. destruct (pfree (po s) a) as [b p'] eqn:E. intros [= <- <-].
    assert (Hin' : (a, n) ∈ user s ++ aregs (arrs s) ++ G) by (apply elem_of_app; by left).
    destruct (pfree_ok psize _ _ _ _ _ _ HP Hin' Hz E) as (A & B). cbn [po]. split; [|done]. constructor; cbn; [|done]. exists G. destruct b; [|done].
    eapply PI_perm; [exact B|]. apply (Permutation_cons_inv (a := (a, n))). rewrite <- (remove1_perm _ _ Hin'), app_comm_cons, <- (remove1_perm _ _ Hin). done.
  - destruct (cleanup_add sysm (po s) h d) as [c p'] eqn:E. intros [= <- <-]. destruct (cleanup_add_ok psize Hps Hp8 sysm HS _ _ _ _ _ _ HP E) as [A B].
    split; [by constructor; cbn; eauto|]. cbn [po]. rewrite B. destruct c; done.
  - unfold cleanup_insert. destruct (list_find (λ e : Z * Z * Z, e.1.2 = h) (cleanup (po s))) as [[i e]|] eqn:EF.
    + intros [= <- <-]. split; [by constructor; cbn; eauto|]. cbn. rewrite decide_True; [done|].
      apply list_find_Some in EF as (H1 & H2 & _). apply elem_of_list_fmap. exists e. split; [done|]. by eapply elem_of_list_lookup_2.
    + apply list_find_None in EF. rewrite Forall_forall in EF.
      destruct (cleanup_add sysm (po s) h 0) as [c p'] eqn:E. intros [= <- <-]. destruct (cleanup_add_ok psize Hps Hp8 sysm HS _ _ _ _ _ _ HP E) as [A B].
      split; [by constructor; cbn; eauto|]. cbn [po]. rewrite B. destruct c; [|done]. cbn. rewrite decide_False; [done|].
      intros (e & He1 & He2)%elem_of_list_fmap. by apply (EF e He2).
  - case_decide as Hin; [|done]. intros [= <- <-]. split; [|done]. constructor; cbn; [|done]. exists G. by apply cleanup_set_ok.
  - destruct (reset_ok psize Hps _ _ HP) as (p' & -> & HP' & Hc). intros [= <- <-]. split; [|done]. constructor; cbn; [by exists []|]. intros id a. by rewrite lookup_empty.
  - case_decide as Hg; [|done]. destruct Hg as (Hn & Hz & Hid). destruct (array_create sysm (po s) n sz) as [[a|] p'] eqn:E;
      destruct (array_create_ok _ _ _ _ _ _ HP Hn Hz E) as [A B]; intros [= <- <-].
    + split; [|done]. destruct B as [B B']. constructor; cbn.
      * exists G. eapply PI_perm; [exact B|]. rewrite aregs_insert by done. solve_Permutation.
      * intros id2 a2. destruct (decide (id2 = id)) as [->|Hne]; [rewrite !lookup_insert; intros [= <-]; eauto|]. rewrite !lookup_insert_ne by done. apply HA.
    + split; [|done]. destruct B as [G' B]. constructor; cbn; [|done]. exists (G ++ G'). eapply PI_perm; [exact B|]. solve_Permutation.
  - destruct (arrs s !! id) as [a|] eqn:Ha; [|done]. destruct (cont s !! id) as [c|] eqn:Hc; [|done]. case_decide as Hg; [|done].
    assert (HH : reg1 (ArrPush id bs, r) (cleanup (po s)) = cleanup (po s)) by done. rewrite HH.
    destruct (HA _ _ Ha) as (c' & Hc' & HO). rewrite Hc in Hc'. injection Hc' as <-.
    eapply pushed_ok with (n := 1); try done; [lia|]. intros U HU. by eapply array_push_ok.
  - destruct (arrs s !! id) as [a|] eqn:Ha; [|done]. destruct (cont s !! id) as [c|] eqn:Hc; [|done]. case_decide as Hg; [|done]. destruct Hg as [Hn Hg].
    assert (HH : reg1 (ArrPushN id n bs, r) (cleanup (po s)) = cleanup (po s)) by done. rewrite HH.
    destruct (HA _ _ Ha) as (c' & Hc' & HO). rewrite Hc in Hc'. injection Hc' as <-.
    eapply pushed_ok with (n := n); try done. intros U HU. by eapply array_push_n_ok.
  - destruct (arrs s !! id) as [a|] eqn:Ha; [|done]. intros [= <- <-]. destruct (HA _ _ Ha) as (c & Hc & [A1 A2 A3 A4 A5]).
    set (U := user s ++ aregs (delete id (arrs s)) ++ G).
    assert (HPU : PI [] (areg a ++ U) (po s)). { eapply PI_perm; [exact HP|]. unfold U. rewrite (aregs_delete _ _ _ Ha). solve_Permutation. }
    destruct (array_destroy_ok _ _ _ HPU A1 A2) as [A [G' B]]. split; [|done]. constructor; cbn.
    + exists (G ++ G'). unfold U in B. by rewrite <- !app_assoc in B.
    + intros id2 a2 (Hne & Ha2)%lookup_delete_Some. rewrite lookup_delete_ne by done. by apply HA.
  - case_decide as Hg; [|done]. intros [= <- <-]. split; [|done]. constructor; cbn; [by exists G|].
    intros id a2 Ha2. destruct (HA _ _ Ha2) as (c2 & Hc2 & HO2). exists c2. split; [done|]. eapply arr_ok_ext; [exact HO2|]. intros x Hx.
    apply store_out. cbn. apply Exists_exists in Hg as (q & Hq & Hqa).
    destruct (MI_disj s HM) as [G' HD]. apply pdisj_app in HD as (_ & _ & HD). specialize (HD q (elts a2, esize a2 * nalloc a2) Hq).
    unfold disj in HD. cbn in HD. intros Hx2. assert (x = a) by lia. subst x. destruct HD as [?|[?|?]]; [|lia..].
    rewrite elem_of_app. left. unfold aregs. apply elem_of_list_bind. exists (id, a2). split; [|by apply elem_of_map_to_list]. unfold areg. set_solver.
Qed.
Lemma exec_ok l : forall s t s', MI s -> exec sysm s l = Some (t, s') -> MI s' /\ cleanup (po s') = registered t (cleanup (po s)).
Proof.
  induction l as [|o l IH]; intros s t s' HM; cbn [exec]; [intros [= <- <-]; done|].
  destruct (step sysm s o) as [[r s1]|] eqn:E; [|done]. destruct (step_ok _ _ _ _ HM E) as [HM1 HC1].
  destruct (exec sysm s1 l) as [[t1 s2]|] eqn:E1; [|done]. destruct (IH _ _ _ HM1 E1) as [HM2 HC2]. intros [= <- <-]. split; [done|].
  by rewrite registered_cons, HC2, HC1.
Qed.
Lemma history_ok m l t s : history sysm psize m l t s -> MI s /\ cleanup (po s) = registered t [].
Proof.
  intros (s0 & H0 & H1). unfold init in H0. destruct (create_pool sysm psize) as [p|] eqn:E; [|done]. injection H0 as <-.
  destruct (create_ok psize Hps sysm HS p E) as [HP HC]. eapply exec_ok in H1; cbn in *; [by rewrite HC in H1|].
  constructor; cbn; [by exists []|]. intros id a. by rewrite lookup_empty.
Qed.
End inv3.
