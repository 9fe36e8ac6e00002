(** C39-C42: full-transfer loops, vectored write, TLS scatter/gather, direct I/O window. *)
From Verif Require Import IoModel.
Local Open Scope Z_scope.

Ltac eqz := repeat match goal with |- Some _ = Some _ => f_equal | |- (_, _) = (_, _) => f_equal end; try done; try lia.
Ltac fin0 := split_and!; try done; try lia; try (split; [lia|done]); try (split; [done|lia]).
Definition env_ok (env : nat -> Z -> Z) : Prop := forall k n, env k n <= n.

Lemma fread_len f p n : length (fread f p n) = Z.to_nat n.
Proof. unfold fread. by rewrite fmap_length, seq_length. Qed.
Lemma fread_app f p a b : 0 <= a -> 0 <= b -> fread f p (a + b) = fread f p a ++ fread f (p + a) b.
Proof.
  intros Ha Hb. unfold fread. rewrite Z2Nat.inj_add by lia. rewrite seq_app, fmap_app. f_equal. rewrite Nat.add_0_l.
  apply list_eq. intros i. rewrite !list_lookup_fmap. destruct (decide (i < Z.to_nat b)%nat).
  - rewrite !lookup_seq_lt by lia. cbn. do 2 f_equal. lia.
  - rewrite !lookup_seq_ge by lia. done.
Qed.
Lemma slice_len d o n : 0 <= o -> 0 <= n -> o + n <= Z.of_nat (length d) -> length (slice d o n) = Z.to_nat n.
Proof. intros. unfold slice. rewrite take_length, drop_length. lia. Qed.
Lemma slice_app d o a b : 0 <= o -> 0 <= a -> 0 <= b -> slice d o (a + b) = slice d o a ++ slice d (o + a) b.
Proof. intros. unfold slice. rewrite !Z2Nat.inj_add by lia. by rewrite <- drop_drop, take_take_drop. Qed.
Lemma slice0 d n : slice d 0 n = take (Z.to_nat n) d. Proof. done. Qed.
Lemma slice_0 d o n : n <= 0 -> slice d o n = []. Proof. intros. unfold slice. by replace (Z.to_nat n) with 0%nat by lia. Qed.
Lemma fread_0 f o n : n <= 0 -> fread f o n = []. Proof. intros. unfold fread. by replace (Z.to_nat n) with 0%nat by lia. Qed.
Lemma patch_patch l o x y : 0 <= o -> o + Z.of_nat (length x) + Z.of_nat (length y) <= Z.of_nat (length l) ->
  patch (patch l o x) (o + Z.of_nat (length x)) y = patch l o (x ++ y).
Proof.
  intros Ho Hl. unfold patch. rewrite Z2Nat.inj_add, Nat2Z.id by lia.
  rewrite (app_assoc (take _ l) x). rewrite take_app_le by (rewrite app_length, take_length; lia).
  rewrite (take_ge (take _ l ++ x)) by (rewrite app_length, take_length; lia).
  rewrite drop_app_ge by (rewrite app_length, take_length; lia).
  rewrite app_length, take_length, drop_drop, <- !app_assoc. do 3 f_equal. rewrite app_length. f_equal. lia.
Qed.
Lemma patch_len l o x : 0 <= o -> o + Z.of_nat (length x) <= Z.of_nat (length l) -> length (patch l o x) = length l.
Proof. intros. unfold patch. rewrite !app_length, take_length, drop_length. lia. Qed.
Lemma patch_nil l o : patch l o [] = l.
Proof. unfold patch. cbn. by rewrite Nat.add_0_r, take_drop. Qed.
Lemma fwrite_fwrite f o x y z : fwrite (fwrite f o x) (o + Z.of_nat (length x)) y z = fwrite f o (x ++ y) z.
Proof.
  unfold fwrite. rewrite app_length. repeat case_decide; try lia; try done.
  - rewrite app_nth2 by lia. f_equal. lia.
  - rewrite app_nth1 by lia. done.
Qed.

(** ** C39 *)
Theorem C39_net_write_full : forall env buf len out, env_ok env -> 0 <= len <= Z.of_nat (length buf) ->
  exists r n, net_write_full (Z.to_nat len) env 0 buf 0 len out = Some (r, len - n, out ++ take (Z.to_nat n) buf) /\
    0 <= n <= len /\ (r = true <-> n = len).
Proof.
  intros env buf len0 out He Hl.
  assert (G : forall fuel k off len acc, (Z.to_nat len <= fuel)%nat -> 0 <= off -> 0 <= len -> off + len <= Z.of_nat (length buf) ->
    exists r n, net_write_full fuel env k buf off len acc = Some (r, len - n, acc ++ slice buf off n) /\ 0 <= n <= len /\ (r = true <-> n = len)).
  { induction fuel as [|fuel IH]; intros k off len acc Hf Ho H0 Hb; cbn [net_write_full].
    - rewrite decide_False by lia. exists true, 0. rewrite slice_0, app_nil_r, Z.sub_0_r by lia. fin0.
    - case_decide as Hd; [|exists true, 0; rewrite slice_0, app_nil_r, Z.sub_0_r by lia; fin0].
      case_decide as Hg; [exists false, 0; rewrite slice_0, app_nil_r, Z.sub_0_r by lia; fin0|].
      specialize (He k len). set (got := env k len) in *.
      destruct (IH (S k) (off + got) (len - got) (acc ++ slice buf off got)) as (r & n & E & H1 & H2); try lia.
      exists r, (got + n). rewrite E. rewrite slice_app, app_assoc by lia. split_and!; try lia; [eqz|]. rewrite H2. lia. }
  destruct (G (Z.to_nat len0) 0%nat 0 len0 out) as (r & n & E & H); try lia. exists r, n. by rewrite E, slice0.
Qed.
Lemma read_full_gen inp env : env_ok env ->
  forall fuel k off len pos buf, (Z.to_nat len <= fuel)%nat -> 0 <= off -> 0 <= len -> off + len <= Z.of_nat (length buf) ->
    exists r n, net_read_full fuel env k buf off len inp pos = Some (r, len - n, patch buf off (fread inp pos n), pos + n) /\ 0 <= n <= len /\ (r = true <-> n = len).
Proof.
  intros He. induction fuel as [|fuel IH]; intros k off len pos buf Hf Ho H0 Hb; cbn [net_read_full].
  - rewrite decide_False by lia. exists true, 0. rewrite fread_0, patch_nil, Z.sub_0_r, Z.add_0_r by lia. fin0.
  - case_decide as Hd; [|exists true, 0; rewrite fread_0, patch_nil, Z.sub_0_r, Z.add_0_r by lia; fin0].
    case_decide as Hg; [exists false, 0; rewrite fread_0, patch_nil, Z.sub_0_r, Z.add_0_r by lia; fin0|].
    specialize (He k len). set (got := env k len) in *.
    destruct (IH (S k) (off + got) (len - got) (pos + got) (patch buf off (fread inp pos got))) as (r & n & E & H1 & H2); try lia.
    { rewrite patch_len; rewrite ?fread_len; lia. }
    exists r, (got + n). rewrite E, fread_app by lia.
    rewrite <- patch_patch by (rewrite ?fread_len; lia). rewrite fread_len, Z2Nat.id by lia. split_and!; try lia; [eqz|]. rewrite H2. lia.
Qed.
(** the buffer then holds the first n bytes of the stream, the rest of it is as before *)
Theorem C39_net_read_full : forall env buf len inp pos, env_ok env -> 0 <= len <= Z.of_nat (length buf) ->
  exists r n, net_read_full (Z.to_nat len) env 0 buf 0 len inp pos = Some (r, len - n, fread inp pos n ++ drop (Z.to_nat n) buf, pos + n) /\
    0 <= n <= len /\ (r = true <-> n = len).
Proof.
  intros env buf len inp pos He Hl. destruct (read_full_gen inp env He (Z.to_nat len) 0%nat 0 len pos buf) as (r & n & E & H); try lia.
  exists r, n. rewrite E. unfold patch. cbn. by rewrite fread_len.
Qed.
Lemma file_read_eq fuel env : forall k buf off len f pos, file_read_full fuel env k buf off len f pos = net_read_full fuel env k buf off len f pos.
Proof. induction fuel as [|fuel IH]; intros; cbn; [done|]. repeat case_decide; try done. Qed.
Theorem C39_file_read_full : forall env buf len f pos, env_ok env -> 0 <= len <= Z.of_nat (length buf) ->
  exists r n, file_read_full (Z.to_nat len) env 0 buf 0 len f pos = Some (r, len - n, fread f pos n ++ drop (Z.to_nat n) buf, pos + n) /\
    0 <= n <= len /\ (r = true <-> n = len).
Proof. intros env buf len f pos He Hl. rewrite file_read_eq. by apply C39_net_read_full. Qed.
Theorem C39_file_write_full : forall env buf len f pos, env_ok env -> 0 <= len <= Z.of_nat (length buf) ->
  exists r n f', file_write_full (Z.to_nat len) env 0 buf 0 len f pos = Some (r, len - n, f', pos + n) /\
    0 <= n <= len /\ (r = true <-> n = len) /\
    (forall i, 0 <= i < n -> f' (pos + i) = nth (Z.to_nat i) buf 0) /\ (forall x, x < pos \/ pos + n <= x -> f' x = f x).
Proof.
  intros env buf len0 f0 pos0 He Hl.
  assert (G : forall fuel k off len f pos, (Z.to_nat len <= fuel)%nat -> 0 <= off -> 0 <= len -> off + len <= Z.of_nat (length buf) ->
    exists r n f', file_write_full fuel env k buf off len f pos = Some (r, len - n, f', pos + n) /\ 0 <= n <= len /\ (r = true <-> n = len) /\
      forall x, f' x = fwrite f pos (slice buf off n) x).
  { assert (Hnil : forall f pos off n x, n <= 0 -> f x = fwrite f pos (slice buf off n) x).
    { intros. rewrite slice_0 by lia. unfold fwrite. cbn. case_decide; [lia|done]. }
    induction fuel as [|fuel IH]; intros k off len f pos Hf Ho H0 Hb; cbn [file_write_full].
    - rewrite decide_False by lia. exists true, 0, f. rewrite Z.sub_0_r, Z.add_0_r. fin0. intros. by apply Hnil.
    - case_decide as Hd; [|exists true, 0, f; rewrite Z.sub_0_r, Z.add_0_r; fin0; intros; by apply Hnil].
      case_decide as Hg; [exists false, 0, f; rewrite Z.sub_0_r, Z.add_0_r; fin0; intros; by apply Hnil|].
      specialize (He k len). set (got := env k len) in *.
      destruct (IH (S k) (off + got) (len - got) (fwrite f pos (slice buf off got)) (pos + got)) as (r & n & f' & E & H1 & H2 & H3); try lia.
      exists r, (got + n), f'. rewrite E. split_and!; try lia; [eqz|rewrite H2; lia|].
      intros x. rewrite H3, slice_app by lia. rewrite <- fwrite_fwrite. rewrite slice_len, Z2Nat.id by lia. done. }
  destruct (G (Z.to_nat len0) 0%nat 0 len0 f0 pos0) as (r & n & f' & E & H1 & H2 & H3); try lia.
  exists r, n, f'. split_and!; try done; try lia.
  - intros i Hi. rewrite H3. unfold fwrite. rewrite slice_len by lia. rewrite decide_True by lia. rewrite slice0.
    replace (pos0 + i - pos0) with i by lia. rewrite <- (take_drop (Z.to_nat n) buf) at 2. rewrite app_nth1; [done|]. rewrite take_length. lia.
  - intros x Hx. rewrite H3. unfold fwrite. rewrite slice_len by lia. rewrite decide_False by lia. done.
Qed.
Theorem C39_sendfile_full : forall env len f pos out, env_ok env -> 0 <= len ->
  exists r n, sendfile_full (Z.to_nat len) env 0 len f pos out = Some (r, len - n, pos + n, out ++ fread f pos n) /\
    0 <= n <= len /\ (r = true <-> n = len).
Proof.
  intros env len0 f pos0 out0 He Hl.
  assert (G : forall fuel k len pos out, (Z.to_nat len <= fuel)%nat -> 0 <= len ->
    exists r n, sendfile_full fuel env k len f pos out = Some (r, len - n, pos + n, out ++ fread f pos n) /\ 0 <= n <= len /\ (r = true <-> n = len)); [|by apply G].
  induction fuel as [|fuel IH]; intros k len pos out Hf H0; cbn [sendfile_full].
  - rewrite decide_False by lia. exists true, 0. rewrite fread_0, app_nil_r, Z.sub_0_r, Z.add_0_r by lia. fin0.
  - case_decide as Hd; [|exists true, 0; rewrite fread_0, app_nil_r, Z.sub_0_r, Z.add_0_r by lia; fin0].
    case_decide as Hg; [exists false, 0; rewrite fread_0, app_nil_r, Z.sub_0_r, Z.add_0_r by lia; fin0|].
    specialize (He k len). set (got := env k len) in *.
    destruct (IH (S k) (len - got) (pos + got) (out ++ fread f pos got)) as (r & n & E & H1 & H2); try lia.
    exists r, (got + n). rewrite E, fread_app, app_assoc by lia. split_and!; try lia; [eqz|]. rewrite H2. lia.
Qed.
Definition demo_env (k : nat) (n : Z) : Z := match k with 0%nat => Z.min n 2 | 1%nat => Z.min n 3 | _ => Z.min n 0 end.
Example demo_env_ok : env_ok demo_env.
Proof. intros [|[|k]] n; unfold demo_env; lia. Qed.
Example demo_write : net_write_full 7 demo_env 0 [1;2;3;4;5;6;7] 0 7 [] = Some (false, 2, [1;2;3;4;5]).
Proof. reflexivity. Qed.

(** ** C40 *)
Definition lastne (v : list (list Z)) : Prop := forall b, last v = Some b -> b <> [].
Lemma join_cons (b : list Z) v : mjoin (b :: v) = b ++ mjoin v. Proof. done. Qed.
Lemma total_cons b v : total (b :: v) = Z.of_nat (length b) + total v.
Proof. unfold total. rewrite join_cons, app_length. lia. Qed.
Lemma advance_ok v : forall got, 0 <= got <= total v -> exists w, advance v got = Some w /\ mjoin w = drop (Z.to_nat got) (mjoin v) /\
  (exists u, u `suffix_of` v /\ (length w = length u)) /\ (lastne v -> lastne w).
Proof.
  induction v as [|b v IH]; intros got Hg; cbn [advance].
  - unfold total in Hg. cbn in Hg. rewrite decide_False by lia. exists []. split_and!; try done; [by destruct (Z.to_nat got)|by exists []].
  - rewrite total_cons in Hg. case_decide as H0.
    2: { exists (b :: v). replace got with 0 by lia. split_and!; try done. by exists (b :: v). }
    case_decide as H1.
    + exists (drop (Z.to_nat got) b :: v). split_and!; try done.
      * rewrite !join_cons, drop_app_le by lia. done.
      * by exists (b :: v).
      * intros Hl b' Hb'. destruct v as [|c v]; [|by apply Hl].
        injection Hb' as <-. intros E. apply (f_equal length) in E. rewrite drop_length in E. cbn in E. lia.
    + destruct (IH (got - Z.of_nat (length b))) as (w & E & H2 & (u & Hu & Hlu) & H3); [lia|]. exists w. split_and!; try done.
      * rewrite H2, join_cons, drop_app_ge by lia. f_equal. lia.
      * exists u. split; [by apply suffix_cons_r|done].
      * intros Hl. apply H3. intros b' Hb'. destruct v as [|c v]; [done|]. by apply Hl.
Qed.
(** *bc is the number of iovecs left.  The bytes sent are the first n of the concatenation, n is returned, and the
    array left denotes exactly the rest; the array is never overrun; if *bc is 0 all was sent.  The converse needs that
    the array does not end in an empty iovec. *)
Theorem C40_writev_full_partial : forall env v, env_ok env ->
  exists left n, writev_full (S (length (mjoin v))) env 0 v 0 [] = WDone left n (take (Z.to_nat n) (mjoin v)) /\
    0 <= n <= total v /\ mjoin left = drop (Z.to_nat n) (mjoin v) /\ (length left <= length v)%nat /\
    (left = [] -> n = total v) /\
    (n = total v -> (forall b, last v = Some b -> b <> []) -> left = []).
Proof.
  intros env v0 He.
  assert (G : forall fuel k v tot out, (S (length (mjoin v)) <= fuel)%nat -> exists left n, writev_full fuel env k v tot out = WDone left (tot + n) (out ++ take (Z.to_nat n) (mjoin v)) /\
    0 <= n <= total v /\ mjoin left = drop (Z.to_nat n) (mjoin v) /\ (length left <= length v)%nat /\ (lastne v -> lastne left)).
  { induction fuel as [|fuel IH]; intros k v tot out Hf; [lia|]. destruct v as [|b v]; cbn [writev_full].
    - exists [], 0. rewrite Z.add_0_r. cbn. rewrite app_nil_r. split_and!; try done.
    - set (w := b :: v) in *. pose proof (He k (total w)) as Hk. set (got := env k (total w)) in *. case_decide as Hg.
      { exists w, 0. rewrite Z.add_0_r. cbn [Z.to_nat take]. rewrite app_nil_r. split_and!; try done. unfold total. lia. }
      destruct (advance_ok w got ltac:(lia)) as (w' & -> & H2 & (u & Hu & Hlu) & H3).
      assert (Htw : total w = Z.of_nat (length (mjoin w))) by done.
      assert (Hlw : length (mjoin w') = (length (mjoin w) - Z.to_nat got)%nat) by (rewrite H2, drop_length; done).
      destruct (IH (S k) w' (tot + got) (out ++ slice (mjoin w) 0 got)) as (lf & n & E & I1 & I2 & I3 & I4).
      { rewrite Hlw. lia. }
      exists lf, (got + n). rewrite E. unfold total in I1. rewrite Hlw in I1. rewrite slice0, H2 in *. split_and!; try lia.
      + rewrite Z2Nat.inj_add by lia. rewrite <- app_assoc, take_take_drop. f_equal. lia.
      + rewrite I2, drop_drop. f_equal. lia.
      + apply suffix_length in Hu. lia.
      + auto. }
  destruct (G (S (length (mjoin v0))) 0%nat v0 0 []) as (lf & n & E & H1 & H2 & H3 & H4); [lia|]. exists lf, n. rewrite E. split_and!; try done; try lia.
  - intros ->. apply (f_equal length) in H2. rewrite drop_length in H2. cbn in H2. unfold total in *. lia.
  - intros -> Hl. specialize (H4 Hl). destruct lf as [|b lf] using rev_ind; [done|]. exfalso. unfold total in H2. rewrite Nat2Z.id, drop_all in H2.
    apply (H4 b); [by rewrite last_snoc|]. clear -H2. assert (G : forall l, mjoin (l ++ [b]) = [] -> b = []).
    { induction l as [|c l IH]; cbn; [by rewrite app_nil_r|]. intros [_ H]%app_eq_nil. by apply IH. } by apply (G lf).
Qed.
(** false in general: an array ending in an empty iovec, everything sent, and yet *bc is 1 *)
Theorem C40_trailing_empty_refuted : exists env, env_ok env /\
  writev_full 2 env 0 [[1; 2]; []] 0 [] = WDone [[]] 2 [1; 2].
Proof. exists (λ _ n, n). split; [intros k n; lia|]. reflexivity. Qed.

(** ** C41 *)
(** any result of the TLS layer: never more than asked for *)
Lemma slice_take (b : list Z) n m : 0 <= n <= m -> take (Z.to_nat n) (slice b 0 m) = slice b 0 n.
Proof. intros. rewrite !slice0, take_take. f_equal. lia. Qed.
Lemma ssl_write1_ok bio early env : env_ok env -> forall fuel k b got out, (length b < fuel)%nat -> 0 <= got ->
  exists r k' out', ssl_write1 fuel bio early env k b got out = Some (r, k', out') /\
    exists n, 0 <= n <= Z.of_nat (length b) /\ out' = out ++ take (Z.to_nat n) b /\
    match r with
    | inr g => g = got + n /\ (n = Z.of_nat (length b) \/ (bio = true /\ g >= 65536))
    | inl g => (0 < got + n -> g = got + n) /\ (got + n = 0 -> g <= 0)
    end.
Proof.
  intros He. induction fuel as [|fuel IH]; intros k b got out Hf Hg; [lia|]. cbn [ssl_write1]. set (len := Z.of_nat (length b)). assert (Hlen : len = Z.of_nat (length b)) by done.
  case_decide as Hl.
  2: { eexists _, _, _. split; [done|]. exists 0. cbn. rewrite app_nil_r. split_and!; try done; try lia. }
  destruct (bio && bool_decide (65536 - got <= 0)) eqn:Eb.
  { eexists _, _, _. split; [done|]. exists 0. cbn. rewrite app_nil_r. split_and!; try done; try lia. }
  set (ln := if bio then Z.min (65536 - got) len else len).
  assert (Hln : 0 < ln <= len /\ (ln = len \/ (bio = true /\ got + ln = 65536))).
  { unfold ln. destruct bio; [|lia]. cbn in Eb. apply bool_decide_eq_false in Eb. destruct (Z.min_spec (65536 - got) len) as [[? ->]|[? ->]]; lia. }
  pose proof (He k ln) as Hk. set (n := env k ln) in *.
  destruct early.
  - destruct (decide (n > 0)) as [Hn|Hn].
    + destruct (IH (S k) (drop (Z.to_nat n) (slice b 0 ln)) (got + n) (out ++ slice b 0 n)) as (r & k' & out' & E & m & H1 & H2 & H3).
      { rewrite drop_length, slice_len by lia. lia. } { lia. }
      rewrite drop_length, slice_len in H1 by lia.
      exists r, k', out'. split; [done|]. exists (n + m). split_and!; [lia|lia| |].
      * rewrite H2, <- app_assoc. f_equal. rewrite Z2Nat.inj_add by lia. rewrite <- take_take_drop, slice0. f_equal.
        rewrite slice0. apply list_eq. intros i. destruct (decide (i < Z.to_nat m)%nat).
        -- rewrite !lookup_take by lia. rewrite !lookup_drop, lookup_take by lia. done.
        -- rewrite !lookup_take_ge by lia. done.
      * destruct r as [g|g].
        -- destruct H3 as [H3 H4]. split; intros; [rewrite H3; lia|lia].
        -- destruct H3 as [-> H3]. split; [lia|]. rewrite drop_length, slice_len in H3 by lia. destruct H3 as [H3|H3]; [|right; destruct H3 as [H3 H4]; split; [done|lia]].
           destruct Hln as [Hln1 [Hln2|[Hln2 Hln3]]]; [left; lia|right; split; [done|lia]].
    + eexists _, _, _. split; [done|]. exists 0. cbn. rewrite app_nil_r. split_and!; try done; try lia; unfold fin; intros; destruct (decide (got > 0)); lia.
  - destruct (decide (n = ln)) as [Hn|Hn]; [|destruct (decide (n > 0)) as [Hn2|Hn2]].
    + eexists _, _, _. split; [done|]. exists n. rewrite slice0. split_and!; try done; try lia.
      destruct Hln as [? [?|[? ?]]]; [left; lia|right; split; [done|lia]].
    + eexists _, _, _. split; [done|]. exists n. rewrite slice0. split_and!; try done; try lia.
    + eexists _, _, _. split; [done|]. exists 0. cbn. rewrite app_nil_r. split_and!; try done; try lia; unfold fin; intros; destruct (decide (got > 0)); lia.
Qed.
Lemma ssl_writev_full env early k v got out : got >= 65536 -> ssl_writev true early env k v got out = Some (got, k, out).
Proof.
  intros Hg. induction v as [|b v IH]; cbn [ssl_writev]; [done|]. cbn [ssl_write1]. case_decide; [|done].
  rewrite bool_decide_eq_true_2 by lia. done.
Qed.
Lemma ssl_writev_ok bio early env : env_ok env -> forall v k got out, 0 <= got ->
  exists r k' out', ssl_writev bio early env k v got out = Some (r, k', out') /\
    exists n, 0 <= n <= total v /\ out' = out ++ take (Z.to_nat n) (mjoin v) /\ (0 < got + n -> r = got + n) /\ (got + n = 0 -> r <= 0).
Proof.
  intros He. induction v as [|b v IH]; intros k got out Hg; cbn [ssl_writev].
  - eexists _, _, _. split; [done|]. exists 0. cbn. rewrite app_nil_r. unfold total. cbn. split_and!; try done; lia.
  - destruct (ssl_write1_ok bio early env He (S (length b)) k b got out ltac:(lia) Hg) as (r & k' & out' & -> & n & H1 & H2 & H3).
    rewrite total_cons. assert (0 <= total v) by (unfold total; lia). destruct r as [g|g].
    + destruct H3 as [H3 H4]. eexists _, _, _. split; [done|]. exists n. rewrite join_cons, take_app_le by lia. split_and!; try done; lia.
    + destruct H3 as [-> H3]. destruct H3 as [->|[-> H3]].
      * destruct (IH k' (got + Z.of_nat (length b)) out' ltac:(lia)) as (r & k2 & out2 & E & m & I1 & I2 & I3 & I4).
        exists r, k2, out2. split; [done|]. exists (Z.of_nat (length b) + m). split_and!; try lia.
        rewrite I2, H2, <- app_assoc. f_equal. rewrite Nat2Z.id, firstn_all, join_cons. rewrite take_app_ge by lia. do 2 f_equal. lia.
      * rewrite ssl_writev_full by lia. eexists _, _, _. split; [done|]. exists n. rewrite join_cons, take_app_le by lia. split_and!; try done; lia.
Qed.
(** kgl_ssl_writev: what is handed to the TLS layer is a prefix of the concatenated buffers; the result is its
    length, or - only if nothing was handed over - zero or an error *)
Theorem C41_writev : forall bio early env v, env_ok env ->
  exists r k out, ssl_writev bio early env 0 v 0 [] = Some (r, k, out) /\
    exists n, 0 <= n <= total v /\ out = take (Z.to_nat n) (mjoin v) /\ (0 < n -> r = n) /\ (n = 0 -> r <= 0).
Proof.
  intros bio early env v He. destruct (ssl_writev_ok bio early env He v 0%nat 0 [] ltac:(lia)) as (r & k & out & E & n & H1 & H2 & H3 & H4).
  exists r, k, out. split; [done|]. exists n. done.
Qed.
(** if every TLS call succeeds completely and the 64 KB limit of the memory BIO does not apply, all is written *)
Theorem C41_writev_all : forall v, exists k, ssl_writev false false (λ (_ : nat) (n : Z), n) 0 v 0 [] = Some (total v, k, mjoin v).
Proof.
  intros v. assert (G : forall k got out, exists k', ssl_writev false false (λ (_ : nat) (n : Z), n) k v got out = Some (got + total v, k', out ++ mjoin v)); [|by apply G].
  induction v as [|b v IH]; intros k got out; cbn [ssl_writev].
  - exists k. unfold total. cbn. by rewrite Z.add_0_r, app_nil_r.
  - cbn [ssl_write1]. rewrite total_cons. case_decide.
    + cbn [andb]. rewrite decide_True by done. destruct (IH (S k) (got + Z.of_nat (length b)) (out ++ slice b 0 (Z.of_nat (length b)))) as [k' E]. exists k'. rewrite E.
      rewrite slice0, Nat2Z.id, firstn_all, join_cons, <- app_assoc. eqz.
    + destruct b; [|cbn in *; lia]. destruct (IH k got out) as [k' E]. exists k'. rewrite E. cbn. done.
Qed.

Definition renv_ok (env : nat -> bool -> Z -> Z) : Prop := forall k e n, env k e n <= n.
Lemma ssl_read1_ok env inp : renv_ok env -> forall fuel k pre (early : bool) len got buf pos, (Z.to_nat len + (if early then 1 else 0) < fuel)%nat -> 0 <= got ->
  exists r k' pre' early' buf' pos', ssl_read1 fuel env k pre early len got buf inp pos = Some (r, k', pre', early', buf', pos') /\
    exists n, 0 <= n <= Z.max 0 len /\ buf' = buf ++ fread inp pos n /\ pos' = pos + n /\
    match r with
    | inr g => g = got + n /\ n = Z.max 0 len
    | inl g => (0 < got + n -> g = got + n) /\ (got + n = 0 -> g <= 0)
    end.
Proof.
  intros He. induction fuel as [|fuel IH]; intros k pre early len got buf pos Hf Hg; [lia|]. cbn [ssl_read1].
  destruct (decide (len > 0)) as [Hl|Hl].
  2: { eexists _, _, _, _, _, _. split; [done|]. exists 0. rewrite fread_0, app_nil_r by lia. split_and!; try done; lia. }
  destruct pre.
  { destruct (IH k false early (len - 1) (got + 1) (buf ++ fread inp pos 1) (pos + 1)) as (r & k' & p' & e' & b' & pos' & E & n & H1 & H2 & H3 & H4); [destruct early; lia|lia|].
    rewrite E. eexists _, _, _, _, _, _. split; [done|]. exists (1 + n). rewrite fread_app by lia. rewrite app_assoc, H2, H3. split_and!; try done; try lia.
    destruct r; destruct H4; split; lia. }
  pose proof (He k early len) as Hk. set (n := env k early len) in *. destruct early.
  - destruct (decide (n = 0)) as [Hn|Hn]; [|destruct (decide (n < 0)) as [Hn2|Hn2]].
    + apply IH; lia.
    + eexists _, _, _, _, _, _. split; [done|]. exists 0. rewrite fread_0, app_nil_r by lia. split_and!; try done; lia.
    + destruct (IH (S k) false true (len - n) (got + n) (buf ++ fread inp pos n) (pos + n)) as (r & k' & p' & e' & b' & pos' & E & m & H1 & H2 & H3 & H4); [lia|lia|].
      rewrite E. eexists _, _, _, _, _, _. split; [done|]. exists (n + m). rewrite fread_app by lia. rewrite app_assoc, H2, H3. split_and!; try done; try lia.
      destruct r; destruct H4; split; lia.
  - destruct (decide (n = len)) as [Hn|Hn]; [|destruct (decide (n > 0)) as [Hn2|Hn2]].
    + eexists _, _, _, _, _, _. split; [done|]. exists n. split_and!; try done; lia.
    + eexists _, _, _, _, _, _. split; [done|]. exists n. split_and!; try done; lia.
    + eexists _, _, _, _, _, _. split; [done|]. exists 0. rewrite fread_0, app_nil_r by lia. unfold fin. destruct (decide (got > 0)); split_and!; try done; lia.
Qed.
(** the buffers fill in order: all before the last one used are full *)
Fixpoint filled (v : list Z) (acc : list (list Z)) : Prop :=
  match acc, v with
  | [], _ => True
  | b :: acc, c :: v => Z.of_nat (length b) <= Z.max 0 c /\ (acc <> [] -> Z.of_nat (length b) = Z.max 0 c) /\ filled v acc
  | _, [] => False
  end.
Lemma ssl_readv_ok env inp : renv_ok env -> forall v k pre early got pos acc0, 0 <= got ->
  exists r acc pos', ssl_readv env k pre early v got inp pos acc0 = Some (r, acc0 ++ acc, pos') /\
    exists n, 0 <= n /\ mjoin acc = fread inp pos n /\ filled v acc /\ pos' = pos + n /\ (0 < got + n -> r = got + n) /\ (got + n = 0 -> r <= 0).
Proof.
  intros He. induction v as [|c v IH]; intros k pre early got pos acc0 Hg; cbn [ssl_readv].
  - exists got, [], pos. rewrite app_nil_r. split; [done|]. exists 0. rewrite fread_0 by lia. split_and!; try done; lia.
  - destruct (ssl_read1_ok env inp He (S (S (Z.to_nat c))) k pre early c got [] pos) as (r & k' & p' & e' & b' & pos' & -> & n & H1 & H2 & H3 & H4); [destruct early; lia|lia|].
    cbn in H2. subst b' pos'. assert (Hb : Z.of_nat (length (fread inp pos n)) = n) by (rewrite fread_len; lia). destruct r as [g|g].
    + exists g, [fread inp pos n], (pos + n). split; [done|]. exists n. destruct H4. rewrite join_cons, app_nil_r. cbn [filled]. split_and!; try done; try lia. by destruct v.
    + destruct H4 as [-> H4]. destruct (IH k' p' e' (got + n) (pos + n) (acc0 ++ [fread inp pos n]) ltac:(lia)) as (r & acc & pos2 & E & m & I1 & I2 & I3 & I4 & I5 & I6).
      exists r, (fread inp pos n :: acc), pos2. rewrite E, <- app_assoc. split; [done|]. exists (n + m). rewrite join_cons, I2, fread_app by lia. cbn [filled].
      split_and!; try done; try lia.
Qed.
(** kgl_ssl_readv: the buffers receive, in order and without gap, the next n bytes of the plaintext stream (the byte
    read ahead first), n is the result, and a result <= 0 means that nothing was taken from the stream *)
Theorem C41_readv : forall env v pre early inp pos, renv_ok env ->
  exists r acc, ssl_readv env 0 pre early v 0 inp pos [] = Some (r, acc, pos + Z.max 0 r) /\
    mjoin acc = fread inp pos r /\ filled v acc.
Proof.
  intros env v pre early inp pos He. destruct (ssl_readv_ok env inp He v 0%nat pre early 0 pos [] ltac:(lia)) as (r & acc & pos' & E & n & H1 & H2 & H3 & H4 & H5 & H6).
  exists r, acc. rewrite E. cbn. destruct (decide (n = 0)) as [->|].
  - specialize (H6 eq_refl). rewrite H2, (fread_0 _ _ 0), (fread_0 _ _ r) by lia. split_and!; try done. eqz.
  - rewrite H5 in * by lia. cbn. replace (0 + n) with n by lia. rewrite H2. split_and!; try done. eqz.
Qed.
(** limit: in early-data mode a failed read with nothing transferred is reported as 0, the value of an orderly end *)
Theorem C41_early_error_refuted : forall env inp pos, (forall k n, env k true n = -1) -> ssl_readv env 0 false true [10] 0 inp pos [] = Some (0, [[]], pos).
Proof. intros env inp pos He. cbn. rewrite He. done. Qed.
Example demo_ssl : ssl_writev false false demo_env 0 [[1;2];[];[3;4;5;6]] 0 [] = Some (5, 2%nat, [1;2;3;4;5]).
Proof. reflexivity. Qed.

(** ** C42 *)
Lemma pow2_ones k : 0 <= k -> 2 ^ k - 1 = Z.ones k. Proof. intros. rewrite Z.ones_equiv. lia. Qed.
Lemma align_floor_eq d k : 0 <= k -> align_floor d (2 ^ k) = 2 ^ k * (d / 2 ^ k).
Proof. intros Hk. unfold align_floor. rewrite pow2_ones by done. rewrite <- Z.ldiff_land, Z.ldiff_ones_r by done. rewrite Z.shiftl_mul_pow2, Z.shiftr_div_pow2 by done. lia. Qed.
Lemma align_up_eq d k : 0 <= k -> align_up d (2 ^ k) = 2 ^ k * ((d + 2 ^ k - 1) / 2 ^ k).
Proof. intros Hk. pose proof (align_floor_eq (d + 2 ^ k - 1) k Hk) as H. unfold align_up. unfold align_floor in H. rewrite <- H. do 2 f_equal. lia. Qed.
(** the window for alignment 2^k <= 32768: it is aligned, starts at or before the offset, by less than one block *)
Lemma window_ok k off len : 0 <= k <= 15 -> 0 <= off -> 1 <= len ->
  exists d n pos, direct_window (2 ^ k) off len = (d, n, pos) /\ 0 <= d < 2 ^ k /\ pos = off - d /\ pos mod 2 ^ k = 0 /\ n mod 2 ^ k = 0 /\ len <= n < len + 2 ^ k /\ 0 <= pos /\ 2 ^ k <= n.
Proof.
  intros Hk Ho Hl. unfold direct_window. rewrite align_floor_eq, align_up_eq by lia. set (a := 2 ^ k).
  assert (Ha : 0 < a <= 32768). { unfold a. split; [apply Z.pow_pos_nonneg; lia|]. change 32768 with (2 ^ 15). apply Z.pow_le_mono_r; lia. }
  pose proof (Z.div_mod off a ltac:(lia)) as D1. pose proof (Z.mod_pos_bound off a ltac:(lia)) as M1.
  pose proof (Z.div_mod (len + a - 1) a ltac:(lia)) as D2. pose proof (Z.mod_pos_bound (len + a - 1) a ltac:(lia)) as M2.
  rewrite decide_False by lia.
  assert (Hd : off - a * (off / a) = off mod a) by lia. rewrite Hd.
  assert (Hu : u16 (off mod a) = off mod a) by (unfold u16; apply Z.mod_small; lia). rewrite Hu.
  assert (Hi : i16 (off mod a) = off mod a) by (unfold i16; rewrite !Z.mod_small by lia; rewrite decide_True by lia; done). rewrite Hi.
  eexists _, _, _. split; [done|]. split_and!; try lia.
  - replace (off - off mod a) with ((off / a) * a) by lia. apply Z.mod_mul. lia.
  - rewrite Z.mul_comm. apply Z.mod_mul. lia.
  - pose proof (Z.div_pos off a). nia.
  - assert (1 <= (len + a - 1) / a) by (apply Z.div_le_lower_bound; lia). nia.
Qed.
(** every read for which the kernel delivers at least one byte at or behind the offset *)
Theorem C42_direct_read_partial : forall k size f off len got buf, 0 <= k <= 15 -> 0 <= off -> 1 <= len ->
  exists d n pos, direct_window (2 ^ k) off len = (d, n, pos) /\ pos mod 2 ^ k = 0 /\ n mod 2 ^ k = 0 /\
  (kernel_read_ok size pos n got -> Z.of_nat (length buf) = n -> off < pos + got ->
   exists r rest, direct_read (2 ^ k) f off len got buf = Some (r, fread f off r ++ rest, off + r) /\ 1 <= r <= len /\ off + r <= size /\
     (got = n -> r = Z.min len (n - d))).
Proof.
  intros k size f off len got buf Hk Ho Hl. destruct (window_ok k off len Hk Ho Hl) as (d & n & pos & E & H1 & H2 & H3 & H4 & H5 & H6 & H7).
  exists d, n, pos. split_and!; try done. intros [->|[K1 K2]] Hb Hg; [lia|]. unfold direct_read. rewrite E. unfold adjust_result.
  rewrite (decide_True (P := got > d)) by lia. rewrite (decide_True (P := 0 < got)) by lia. set (r := Z.min (got - d) len). assert (Hr : 1 <= r <= len /\ r <= got - d) by lia.
  rewrite (decide_True (P := r > 0)) by lia. eexists r, _. split_and!; try lia.
  unfold patch. change (Z.to_nat 0) with 0%nat. rewrite take_0. rewrite app_nil_l. f_equal. f_equal. f_equal.
  replace got with (d + (r + (got - d - r))) at 1 by lia. rewrite fread_app by lia. rewrite <- !app_assoc.
  assert (Hdl : length (fread f pos d) = Z.to_nat d) by (rewrite fread_len; lia).
  rewrite drop_app_ge by lia. rewrite Hdl, Nat.sub_diag, drop_0.
  replace (pos + d) with off by lia. rewrite fread_app by lia. by rewrite <- app_assoc.
Qed.
(** at or behind the end of the file every outcome of the kernel (also a plain error) fails the assertion *)
Theorem C42_eof_refuted : forall k size f off len got buf d n pos, 0 <= k <= 15 -> 0 <= size <= off -> 1 <= len ->
  direct_window (2 ^ k) off len = (d, n, pos) -> kernel_read_ok size pos n got -> direct_read (2 ^ k) f off len got buf = None.
Proof.
  intros k size f off len got buf d n pos Hk Ho Hl E HK. destruct (window_ok k off len Hk ltac:(lia) Hl) as (d' & n' & pos' & E' & H1 & H2 & H3 & H4 & H5 & H6 & H7).
  rewrite E in E'. injection E' as <- <- <-. unfold direct_read. rewrite E. unfold adjust_result. rewrite decide_False; [done|]. destruct HK; lia.
Qed.
(** compiled without assertions the result is then 0 or -1, and the offset stays *)
Theorem C42_eof_ndebug : forall k size off len got d n pos, 0 <= k <= 15 -> 0 <= size <= off -> 1 <= len ->
  direct_window (2 ^ k) off len = (d, n, pos) -> kernel_read_ok size pos n got -> adjust_result_nd d len got = 0 \/ adjust_result_nd d len got = -1.
Proof.
  intros k size off len got d n pos Hk Ho Hl E HK. destruct (window_ok k off len Hk ltac:(lia) Hl) as (d' & n' & pos' & E' & H1 & H2 & H3 & H4 & H5 & H6 & H7).
  rewrite E in E'. injection E' as <- <- <-. unfold adjust_result_nd. case_decide; [by right|left]. destruct HK; lia.
Qed.
Example demo_direct : direct_read 512 (λ x, x) 700 100 512 (replicate 512 0) = Some (100, (λ i : nat, 700 + Z.of_nat i) <$> seq 0 324, 800).
Proof. vm_compute. reflexivity. Qed.
