(** C88: integers written into a buffer.

    Property.  krw_write_int / krw_write_int64 / ks_write_int / ks_write_int64 append exactly
    the decimal text of the number (minus sign, digits, no leading zero), for every value of
    the type, and never read outside their local buffer. *)
From stdpp Require Import prelude.
From Coq Require Import ZArith Lia.
From Verif Require Import KbufModel KbufSpec KbufProof KbufRun KsProof KintModel.
Local Open Scope Z_scope.

(** ** Specification *)
(** the number a string of digit codes denotes *)
Definition value (ds : list Z) : Z := foldl (fun a c => 10 * a + (c - 48)) 0 ds.
(** [txt] is the usual decimal text of [v] *)
Definition decimal (v : Z) (txt : list Z) : Prop :=
  exists ds, txt = (if decide (v < 0) then [45] else []) ++ ds
    /\ ds <> [] /\ Forall (fun c => 48 <= c <= 57) ds /\ value ds = Z.abs v
    /\ (head ds = Some 48 -> ds = [48]).

(** ** Proofs *)
Lemma value_snoc ds c : value (ds ++ [c]) = 10 * value ds + (c - 48).
Proof. unfold value. by rewrite foldl_app. Qed.
Lemma digits_ok fuel n : 0 <= n < 10 ^ Z.of_nat (S fuel) ->
  digits fuel n <> [] /\ Forall (fun c => 48 <= c <= 57) (digits fuel n) /\ value (digits fuel n) = n
  /\ (head (digits fuel n) = Some 48 -> n = 0).
Proof.
  revert n. induction fuel as [|fuel IH]; intros n Hn.
  - change (10 ^ Z.of_nat 1) with 10 in Hn. cbn [digits]. destruct (Z.ltb_spec n 10); [|lia]. repeat split; [done|constructor; [lia|constructor]|unfold value; cbn [foldl]; lia|cbn [head]; intros HH; injection HH; lia].
  - cbn [digits]. destruct (Z.ltb_spec n 10) as [H|H].
    + repeat split; [done|constructor; [lia|constructor]|unfold value; cbn [foldl]; lia|cbn [head]; intros HH; injection HH; lia].
    + assert (Hd : 0 <= n / 10 < 10 ^ Z.of_nat (S fuel)).
      { split; [apply Z.div_pos; lia|]. apply Z.div_lt_upper_bound; [lia|].
        rewrite <- Z.pow_succ_r by lia. replace (Z.succ (Z.of_nat (S fuel))) with (Z.of_nat (S (S fuel))) by lia. lia. }
      pose proof (Z.mod_pos_bound n 10 ltac:(lia)). pose proof (Z.div_mod n 10 ltac:(lia)).
      destruct (IH _ Hd) as (N1 & N2 & N3 & N4). split_and!.
      * by destruct (digits fuel (n / 10)).
      * apply Forall_app. split; [done|]. constructor; [lia|done].
      * rewrite value_snoc, N3. lia.
      * intros HH. exfalso. assert (n / 10 = 0); [|lia]. apply N4. by destruct (digits fuel (n / 10)).
Qed.
Lemma digits_length fuel n k : 0 <= n < 10 ^ Z.of_nat (S k) -> (length (digits fuel n) <= S k)%nat.
Proof.
  revert n k. induction fuel as [|fuel IH]; intros n k Hn; cbn [digits].
  - destruct (n <? 10); cbn; lia.
  - destruct (Z.ltb_spec n 10) as [H|H]; [cbn; lia|]. destruct k as [|k]; [change (10 ^ Z.of_nat 1) with 10 in Hn; lia|].
    rewrite app_length. cbn. assert (Hd : 0 <= n / 10 < 10 ^ Z.of_nat (S k)).
    { split; [apply Z.div_pos; lia|]. apply Z.div_lt_upper_bound; [lia|].
      rewrite <- Z.pow_succ_r by lia. replace (Z.succ (Z.of_nat (S k))) with (Z.of_nat (S (S k))) by lia. lia. }
    specialize (IH _ _ Hd). lia.
Qed.
Lemma dtext_decimal v : Z.abs v < 10 ^ 20 -> decimal v (dtext v).
Proof.
  intros Hv. unfold dtext, decimal. destruct (Z.ltb_spec v 0) as [H|H].
  - destruct (digits_ok 20 (- v)) as (N1 & N2 & N3 & N4); [change (Z.of_nat 21) with 21; lia|].
    exists (digits 20 (- v)). rewrite decide_True by done. split_and!; [done|done|done|rewrite N3; lia|].
    intros HH. apply N4 in HH. lia.
  - destruct (digits_ok 20 v) as (N1 & N2 & N3 & N4); [change (Z.of_nat 21) with 21; lia|].
    exists (digits 20 v). rewrite decide_False by lia. split_and!; [done|done|done|rewrite N3; lia|].
    intros HH. by rewrite (N4 HH).
Qed.
Lemma snprintf_take size v : (length (dtext v) < size)%nat ->
  let '(buf, len) := snprintf_d size v in (len <= length buf)%nat /\ take len buf = dtext v.
Proof.
  intros H. unfold snprintf_d. rewrite (take_ge (dtext v)) by lia. rewrite app_length. split; [lia|]. by rewrite take_app.
Qed.
Lemma dtext_int v : - 2 ^ 31 <= v < 2 ^ 31 -> (length (dtext v) < 16)%nat /\ decimal v (dtext v).
Proof.
  intros H. split; [|apply dtext_decimal; lia]. unfold dtext. destruct (v <? 0) eqn:E.
  - pose proof (digits_length 20 (- v) 9 ltac:(change (Z.of_nat 10) with 10; lia)). cbn [length]. lia.
  - pose proof (digits_length 20 v 9 ltac:(change (Z.of_nat 10) with 10; lia)). lia.
Qed.
Lemma dtext_int64 v : - 2 ^ 63 <= v < 2 ^ 63 -> (length (dtext v) < 32)%nat /\ decimal v (dtext v).
Proof.
  intros H. split; [|apply dtext_decimal; lia]. unfold dtext. destruct (v <? 0) eqn:E.
  - pose proof (digits_length 20 (- v) 18 ltac:(change (Z.of_nat 19) with 19; lia)). cbn [length]. lia.
  - pose proof (digits_length 20 v 18 ltac:(change (Z.of_nat 19) with 19; lia)). lia.
Qed.
Lemma krw_num size s v : (length (dtext v) < size)%nat ->
  krw_write_num size s v = krw_write_str (length (dtext v)) s (dtext v).
Proof.
  intros H. pose proof (snprintf_take size v H) as HS. unfold krw_write_num. destruct (snprintf_d size v) as [buf len] eqn:E.
  destruct HS as [H1 H2]. rewrite decide_True by done. rewrite H2. f_equal. unfold snprintf_d in E. by injection E.
Qed.
Lemma ks_num size s v : (length (dtext v) < size)%nat -> ks_write_num size s v = ks_write_str s (dtext v).
Proof.
  intros H. pose proof (snprintf_take size v H) as HS. unfold ks_write_num. destruct (snprintf_d size v) as [buf len] eqn:E.
  destruct HS as [H1 H2]. rewrite decide_True by done. by rewrite H2.
Qed.

Definition is_int (v : Z) : Prop := - 2 ^ 31 <= v < 2 ^ 31.
Definition is_int64 (v : Z) : Prop := - 2 ^ 63 <= v < 2 ^ 63.

(** C88, krw_buffer: after any program of reads and writes the text is put behind the unread
    bytes, and the buffer goes on behaving as a queue (see C06) *)
Lemma krw_any size (n : nat) (id : positive) (os os' : list (wop Z)) (v : Z) : (1 <= n)%nat ->
  (length (dtext v) < size)%nat -> decimal v (dtext v) ->
  exists s rs q txt s1 s2 rs' q', wexec_all (krw_init n id) os = Some (s, rs) /\ fifo [] os rs q
    /\ decimal v txt /\ krw_write_num size s v = Some s1
    /\ wexec_all s1 os' = Some (s2, rs') /\ fifo (q ++ txt) os' rs' q'.
Proof.
  intros Hn HL HD. destruct (wexec_all_ok os (krw_init n id) [] [] (R_init n id Hn)) as (s & rs & q & bss & E & HR & Hf & _).
  destruct (write_str_ok (length (dtext v)) s q bss (dtext v) ltac:(lia) HR) as (s1 & bss1 & E1 & HR1 & _).
  destruct (wexec_all_ok os' s1 _ _ HR1) as (s2 & rs' & q' & bss2 & E2 & _ & Hf2 & _).
  exists s, rs, q, (dtext v), s1, s2, rs', q'. split_and!; try done. by rewrite krw_num.
Qed.
Theorem C88_krw_int (n : nat) (id : positive) (os os' : list (wop Z)) (v : Z) : (1 <= n)%nat -> is_int v ->
  exists s rs q txt s1 s2 rs' q', wexec_all (krw_init n id) os = Some (s, rs) /\ fifo [] os rs q
    /\ decimal v txt /\ krw_write_int s v = Some s1
    /\ wexec_all s1 os' = Some (s2, rs') /\ fifo (q ++ txt) os' rs' q'.
Proof. intros Hn [HL HD]%dtext_int. by apply krw_any. Qed.
Theorem C88_krw_int64 (n : nat) (id : positive) (os os' : list (wop Z)) (v : Z) : (1 <= n)%nat -> is_int64 v ->
  exists s rs q txt s1 s2 rs' q', wexec_all (krw_init n id) os = Some (s, rs) /\ fifo [] os rs q
    /\ decimal v txt /\ krw_write_int64 s v = Some s1
    /\ wexec_all s1 os' = Some (s2, rs') /\ fifo (q ++ txt) os' rs' q'.
Proof. intros Hn [HL HD]%dtext_int64. by apply krw_any. Qed.
Print Assumptions C88_krw_int.
Print Assumptions C88_krw_int64.

(** C88, ks_buffer: writing the number is ks_write_str of its text (see C09), in any state *)
Theorem C88_ks_int (s : @ks Z) (v : Z) : is_int v ->
  exists txt, decimal v txt /\ ks_write_int s v = ks_write_str s txt.
Proof. intros [HL HD]%dtext_int. exists (dtext v). split; [done|]. by apply ks_num. Qed.
Theorem C88_ks_int64 (s : @ks Z) (v : Z) : is_int64 v ->
  exists txt, decimal v txt /\ ks_write_int64 s v = ks_write_str s txt.
Proof. intros [HL HD]%dtext_int64. exists (dtext v). split; [done|]. by apply ks_num. Qed.
Print Assumptions C88_ks_int.
Print Assumptions C88_ks_int64.

(** the text of a number is unique: two numbers never get the same text *)
Theorem C88_unique v w txt : decimal v txt -> decimal w txt -> v = w.
Proof.
  intros (d1 & E1 & N1 & F1 & V1 & _) (d2 & E2 & N2 & F2 & V2 & _). rewrite E1 in E2.
  destruct (decide (v < 0)), (decide (w < 0)); cbn in E2.
  - injection E2 as ->. lia.
  - destruct d2 as [|c d2]; [done|]. injection E2 as <- _. apply Forall_cons in F2 as [? _]. lia.
  - destruct d1 as [|c d1]; [done|]. injection E2 as -> _. apply Forall_cons in F1 as [? _]. lia.
  - subst. lia.
Qed.
Print Assumptions C88_unique.

(** a buffer of chunks of 4 bytes: -2147483648 (11 characters) between two strings *)
Theorem C88_example : exists s s1 s2 rs rs',
  wexec_all (krw_init 4 1) [WriteStr [120; 61]] = Some (s, rs)
  /\ krw_write_int s (-2147483648) = Some s1
  /\ wexec_all s1 [WriteStr [59]; Read 100] = Some (s2, rs')
  /\ last rs' = Some (ORead [120; 61; 45; 50; 49; 52; 55; 52; 56; 51; 54; 52; 56; 59], 0)
  /\ is_int (-2147483648).
Proof.
  eexists _, _, _, _, _. split; [vm_compute; reflexivity|]. split; [vm_compute; reflexivity|].
  split; [vm_compute; reflexivity|]. split; [reflexivity|]. unfold is_int. lia.
Qed.
Print Assumptions C88_example.
(** with a buffer of 11 bytes the last digit of that number would be lost and a 0 sent instead *)
Theorem C88_size_matters : forall s, krw_write_num 11 s (-2147483648)
  = krw_write_str 11 s [45; 50; 49; 52; 55; 52; 56; 51; 54; 52; 0].
Proof. intros s. reflexivity. Qed.
Print Assumptions C88_size_matters.
