(** Properties C06-C10: buffers.  Model: KbufModel.v; callers' programs and the byte-queue
    specification: KbufSpec.v. *)
From Verif Require Import KbufModel KbufSpec KbufProof KbufRun KsProof.

(** C06.  Every program of writes and reads on a fresh krw_buffer runs without undefined behaviour or
    failed assertion (None), its results and the total_len seen after each call are those of a byte
    queue, and the unread bytes q can be seen through krw_get_read_buffers. *)
Theorem C06_krw_fifo {B} (n : nat) (id : positive) (os : list (wop B)) : 1 <= n ->
  exists s rs q, wexec_all (krw_init n id) os = Some (s, rs) /\ fifo [] os rs q
    /\ exists m l, krw_get_read_buffers s m = Some l /\ concat l = q.
Proof.
  intros Hn. destruct (wexec_all_ok os (krw_init n id) [] [] (R_init n id Hn)) as (s & rs & q & bss & E & HR & Hf & _).
  exists s, rs, q. split_and!; try done.
  destruct (peek_ok s q bss (length bss) HR) as (l & El & _ & _ & Hfull & _). exists (S (length bss)), l. split; [done|].
  apply Hfull. revert El. unfold krw_get_read_buffers. destruct HR as (_ & _ & _ & HF & _).
  apply Forall2_length in HF. rewrite <- HF.
  destruct (rh s); [|intros; simplify_eq; cbn; lia].
  destruct (head_off s) as [[c off]|] eqn:Eh; cbn; [|done]. destruct (load c off _); cbn; [|done].
  destruct (mapM _ _) eqn:Em; cbn; [|done]. intros; simplify_eq. cbn. apply mapM_length in Em. rewrite <- Em, take_length.
  destruct (ch s) eqn:Ec; [unfold head_off in Eh; rewrite Ec in Eh; done|]. cbn [tail length]. lia.
Qed.
Print Assumptions C06_krw_fifo.

(** C06, read off the specification: for programs that only read with krw_read, the bytes read followed by the
    bytes left are the bytes written. *)
Theorem C06_krw_in_out {B} (n : nat) (id : positive) (os : list (wop B)) : 1 <= n -> Forall not_consume os ->
  exists s rs q, wexec_all (krw_init n id) os = Some (s, rs) /\ fifo [] os rs q
    /\ concat (bytes_in <$> zip os rs) = concat (bytes_out <$> zip os rs) ++ q.
Proof.
  intros Hn Hc. destruct (wexec_all_ok os (krw_init n id) [] [] (R_init n id Hn)) as (s & rs & q & bss & E & HR & Hf & _).
  exists s, rs, q. split_and!; try done. by rewrite <- (fifo_bytes os [] rs q).
Qed.
Print Assumptions C06_krw_in_out.

Definition kdemo : list (wop nat) :=
  [WriteStr [1;2;3;4;5]; Fill [6;7;8;9]; Append [10;11]; Peek 3; Read 4; Fill []; Consume 3; WriteStr [12]; Read 100; Consume 1].
Example C06_demo : exists s, wexec_all (krw_init 4 1) kdemo = Some (s,
  [(ODone, 5%Z); (OFill 3, 8%Z); (ODone, 10%Z); (OPeek [[1;2;3;4]; [5;6;7;8]; [10;11]], 10%Z);
   (ORead [1;2;3;4], 6%Z); (OFill 0, 6%Z); (OConsume 3 true, 3%Z); (ODone, 4%Z); (ORead [8;10;11;12], 0%Z); (OSkip, 0%Z)]).
Proof. eexists. vm_compute. reflexivity. Qed.

(** C07 is false of the code: an empty chunk in front of data makes krw_read return 0 although bytes are
    unread (krw_get_write_buffer without a write, then krw_append). *)
Theorem C07_krw_read_refuted :
  exists (os : list (wop nat)) s rs, wexec_all (krw_init 4 1) os = Some (s, rs)
    /\ last rs = Some (ORead [], 3%Z) /\ last os = Some (Read 10).
Proof. exists [Fill []; Append [1;2;3]; Read 10]. eexists _, _. split; [vm_compute; reflexivity|]. split; reflexivity. Qed.
Print Assumptions C07_krw_read_refuted.

(** C07, true part: for every program without an empty kbuf and without an unused write window in front of a
    krw_append, every krw_read returns exactly the first min(len, unread) unread bytes.  (That krw_read
    always returns and removes exactly a prefix is C06.) *)
Theorem C07_krw_read_exact_partial {B} (n : nat) (id : positive) (os : list (wop B)) : 1 <= n -> tidy false os = true ->
  exists s rs q, wexec_all (krw_init n id) os = Some (s, rs) /\ fifo [] os rs q /\ exact_reads [] os rs.
Proof.
  intros Hn Ht. destruct (wexec_all_ok os (krw_init n id) [] [] (R_init n id Hn)) as (s & rs & q & bss & E & HR & Hf & Htd).
  exists s, rs, q. split_and!; try done. apply (Htd false); [|done]. apply tidy_st_all. set_solver.
Qed.
Print Assumptions C07_krw_read_exact_partial.
Example C07_tidy_demo : tidy false (Fill [] :: WriteStr [1] :: kdemo) = true.
Proof. reflexivity. Qed.

(** The comment of krw_read_success ("return true if still have data to read", kbuf.h:159) is not met either:
    it returns true with nothing left. *)
Theorem C07_read_success_flag_refuted :
  exists (os : list (wop nat)) s rs, wexec_all (krw_init 4 1) os = Some (s, rs)
    /\ last rs = Some (OConsume 1 true, 0%Z).
Proof. exists [Append [1]; Fill []; Consume 1]. eexists _, _. split; [vm_compute; reflexivity|]. reflexivity. Qed.
Print Assumptions C07_read_success_flag_refuted.

(** C08 is false of the code: after a partial read, krw_insert makes already read bytes readable again, and
    total_len is not the number of readable bytes. *)
Theorem C08_krw_insert_refuted :
  exists (os : list (wop nat)) s rs s' l, wexec_all (krw_init 4 1) os = Some (s, rs) /\ fifo [] os rs [3]
    /\ krw_insert s [9] = Some s' /\ krw_get_read_buffers s' 10 = Some l
    /\ concat l = [9; 1; 2; 3] /\ total s' = 2%Z.
Proof.
  exists [WriteStr [1;2;3]; Read 2]. eexists _, _, _, _. split; [vm_compute; reflexivity|]. split.
  { exists [1;2;3]. split; [done|]. split; [done|]. exists [3]. split; [split; [done|cbn; lia]|]. split; done. }
  split; [vm_compute; reflexivity|]. split; [vm_compute; reflexivity|]. split; reflexivity.
Qed.
Print Assumptions C08_krw_insert_refuted.

(** C08, true part: on any reachable buffer whose first chunk is not partially read (read_hot at its
    beginning), krw_insert puts its bytes in front of the unread ones and total_len is exact; and the
    buffer goes on behaving as a queue. *)
Theorem C08_krw_insert_partial {B} (n : nat) (id : positive) (os os' : list (wop B)) (bs : list B) : 1 <= n ->
  exists s rs q, wexec_all (krw_init n id) os = Some (s, rs) /\ fifo [] os rs q
    /\ ((forall p off, rh s = Some (p, off) -> off = 0) ->
        exists s' s2 rs' q', krw_insert s bs = Some s' /\ total s' = Z.of_nat (length (bs ++ q))
          /\ wexec_all s' os' = Some (s2, rs') /\ fifo (bs ++ q) os' rs' q').
Proof.
  intros Hn. destruct (wexec_all_ok os (krw_init n id) [] [] (R_init n id Hn)) as (s & rs & q & bss & E & HR & Hf & _).
  exists s, rs, q. split_and!; try done. intros Hoff.
  destruct (insert_ok s q bss bs HR Hoff) as (s' & bss' & Ei & HR').
  destruct (wexec_all_ok os' s' _ _ HR') as (s2 & rs' & q' & bss2 & E2 & _ & Hf2 & _).
  exists s', s2, rs', q'. split_and!; try done. apply HR'.
Qed.
Print Assumptions C08_krw_insert_partial.
Example C08_demo : exists s rs s', wexec_all (krw_init 4 1) [WriteStr [1;2;3;4;5;6]; Read 4] = Some (s, rs)
  /\ (forall p off, rh s = Some (p, off) -> off = 0) /\ krw_insert s [7;8] = Some s'
  /\ krw_get_read_buffers s' 10 = Some [[7;8];[5;6]].
Proof.
  eexists _, _, _. split; [vm_compute; reflexivity|]. split; [intros p off H; vm_compute in H; congruence|].
  split; vm_compute; reflexivity.
Qed.

(** C09.  Every program of writes, window fills and save points on a fresh ks_buffer (size >= 1), followed by
    ks_buffer_switch_read and any reads: no out-of-bounds access or failed assertion, the content is exactly
    the specified byte string, used is its length and never above buf_size, windows are never empty (see
    [kstep]: KFill stores at least one byte), reads yield the content in order. *)
Theorem C09_ks_buffer {B} (n : nat) (os : list (kop B)) (ns : list nat) : 1 <= n ->
  exists s rs q, kexec_all (ks_init n) os = Some (s, rs) /\ kspec [] os rs q
    /\ kread (ks_switch_read s) ns = Some (kread_spec q ns).
Proof. exact (ks_all_ok n os ns). Qed.
Print Assumptions C09_ks_buffer.
Example C09_demo : exists s, kexec_all (ks_init 4) [KWrite [1;2;3]; KFill [4;5;6]; KSave 0; KFill [5;6;7;8]; KSave 2] =
    Some (s, [(0, 3, 4%Z); (1, 4, 4%Z); (0, 4, 8%Z); (4, 8, 8%Z); (0, 6, 8%Z)])
  /\ kread (ks_switch_read s) [4; 1; 5] = Some [([3;4;5;6;7;8], true); ([7;8], true); ([8], false)].
Proof. eexists. split; vm_compute; reflexivity. Qed.

(** C10.  Seeking by at most the total length: never past the end, and the result denotes the rest; it
    introduces no empty piece (a piece used up exactly is skipped). *)
Theorem C10_kbuf_seek {B} (head : list (list B)) (offset : nat) : offset <= length (concat head) ->
  exists l, kbuf_seek head offset = Some l /\ concat l = drop offset (concat head)
    /\ (Forall (fun c => c <> []) head -> Forall (fun c => c <> []) l).
Proof.
  intros H. destruct (kbuf_seek_ok head offset H) as (l & E & Hl). exists l. split_and!; [done|done|].
  clear H Hl. revert offset E. induction head as [|c t IH]; intros [|o] E; cbn [kbuf_seek] in E; simplify_eq; try done.
  intros [Hc Ht]%Forall_cons. destruct (decide _) as [Hd|Hd]; simplify_eq.
  - apply Forall_cons. split; [|done]. intros Hn. apply (f_equal length) in Hn. rewrite drop_length in Hn. cbn in Hn. lia.
  - by eapply IH.
Qed.
Print Assumptions C10_kbuf_seek.
Theorem C10_iovec_seek {B} (buf : list (list B)) (offset : nat) : offset <= length (concat buf) ->
  exists l, kgl_iovec_seek buf (Z.of_nat (length buf)) offset = Some (l, Z.of_nat (length l))
    /\ concat l = drop offset (concat buf)
    /\ (Forall (fun c => c <> []) buf -> Forall (fun c => c <> []) l).
Proof.
  intros H. destruct (iovec_seek_ok buf (Z.of_nat (length buf)) offset H) as (l & E & Hl). exists l. split_and!; [|done|].
  { rewrite E. do 2 f_equal. lia. }
  clear H Hl. revert E. generalize (Z.of_nat (length buf)) at 1. generalize (Z.of_nat (length buf) - Z.of_nat (length buf) + Z.of_nat (length l))%Z.
  revert offset. induction buf as [|c t IH]; intros [|o] z1 z E; cbn [kgl_iovec_seek] in E; simplify_eq; try done.
  intros [Hc Ht]%Forall_cons. destruct (decide _) as [Hd|Hd]; simplify_eq.
  - apply Forall_cons. split; [|done]. intros Hn. apply (f_equal length) in Hn. rewrite drop_length in Hn. cbn in Hn. lia.
  - by eapply IH.
Qed.
Print Assumptions C10_iovec_seek.
(** ... and the hypothesis is needed: one byte more runs off the end *)
Theorem C10_seek_past_end {B} (head : list (list B)) (offset : nat) :
  length (concat head) < offset -> kbuf_seek head offset = None /\ kgl_iovec_seek head (Z.of_nat (length head)) offset = None.
Proof.
  split.
  - revert offset H. induction head as [|c l IH]; intros [|o] H; try (cbn in H; lia); [done|].
    cbn [kbuf_seek]. cbn [concat] in H. rewrite app_length in H. rewrite decide_False by lia. apply IH. lia.
  - generalize (Z.of_nat (length head)). revert offset H. induction head as [|c l IH]; intros [|o] H z; try (cbn in H; lia); [done|].
    cbn [kgl_iovec_seek]. cbn [concat] in H. rewrite app_length in H. rewrite decide_False by lia. apply IH. lia.
Qed.
Print Assumptions C10_seek_past_end.
Example C10_demo : kgl_iovec_seek [[1;2;3];[];[4;5]] 3 4 = Some ([[5]], 1%Z) /\ kbuf_seek [[1;2;3];[];[4;5]] 3 = Some [[]; [4;5]].
Proof. split; reflexivity. Qed.
