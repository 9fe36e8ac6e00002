(** C56: a blocking call of a fiber returns exactly once, with the result of its own operation and its own buffer.

    The specification talks about the schedule [es] and what the fibers saw [os] only.  Calls are numbered in the order
    in which they are made; [calls es] says what call k asked for. *)
From Verif Require Import FnetModel.
Local Open Scope Z_scope.

(** the calls made in schedule [es]: what was asked for and with which buffer *)
Definition add_call (l : list (key * nat)) (e : ev) : list (key * nat) :=
  match e with
  | Read c b _ => l ++ [(Rd c, b)]
  | Write c b _ => l ++ [(Wr c, b)]
  | Wait b _ => l ++ [(One (length l), b)]
  | _ => l
  end.
Definition calls (es : list ev) : list (key * nat) := foldl add_call [] es.
(** the calls that have returned *)
Definition rets (os : list (list obs)) : list nat := (fun o => match o with Ret k _ _ _ => k end) <$> concat os.
(** a call for [x] has been made and has not returned *)
Definition outstanding (es : list ev) (os : list (list obs)) (x : key) : Prop :=
  exists k b, calls es !! k = Some (x, b) /\ k ∉ rets os.

(** What the program owes: it does not read (write) a connection on which a read (write) is outstanding, nor close one
    with an outstanding call; and when a read returned because of the read timeout, the next thing its fiber does is to
    repeat the read with the same buffer.  (Everything else is the scheduler's and the kernel's choice.) *)
Definition permitted (es : list ev) (os : list (list obs)) (e : ev) : Prop :=
  match last es with
  | Some (ReadTimeout c) =>
      exists k v b o sync, last os = Some [Ret k v b o] /\ calls es !! k = Some (Rd c, b) /\ e = Read c b sync
  | _ =>
      match e with
      | Read c _ _ => ~ outstanding es os (Rd c)
      | Write c _ _ => ~ outstanding es os (Wr c)
      | Close c => ~ outstanding es os (Rd c) /\ ~ outstanding es os (Wr c)
      | _ => True
      end
  end.
Definition obeys (s0 : st) (es : list ev) : Prop :=
  forall es1 e es2 s os, es = es1 ++ e :: es2 -> run step s0 es1 = Ok s os -> permitted es1 os e.

(** where the value of a returning call may come from: the call's own synchronous result, the completion of what that
    call asked for, or the read timeout of the connection it reads *)
Definition returned_by (e : ev) (x : key) (b : nat) (v : Z) : Prop :=
  match e, x with
  | Read c b' (Some v'), Rd c' => c' = c /\ b' = b /\ v' = v
  | Write c b' (Some v'), Wr c' => c' = c /\ b' = b /\ v' = v
  | Wait b' (Some v'), One _ => b' = b /\ v' = v
  | Complete x' v', _ => x' = x /\ v' = v
  | ReadTimeout c, Rd c' => c' = c /\ v = -2
  | _, _ => False
  end.

(** ** invariant *)
Record J (es : list ev) (os : list (list obs)) (s : st) : Prop := mkJ {
  j_next : next s = length (calls es);
  j_len : length os = length es;
  j_pend : forall x r, pend s !! x = Some r ->
     (exists k, fs s !! r_fiber r = Some (FWait k) /\ calls es !! k = Some (x, r_buf r) /\ k ∉ rets os)
     \/ (exists c k v, last es = Some (ReadTimeout c) /\ x = Rd c /\ c ∈ tmo s /\ cur s = Some (r_fiber r)
          /\ last os = Some [Ret k v (r_buf r) (r_call r)] /\ calls es !! k = Some (x, r_buf r));
  j_call : forall x r, pend s !! x = Some r -> (r_call r < next s)%nat;
  j_own : forall x r, pend s !! x = Some r -> calls es !! r_call r = Some (x, r_buf r);
  j_wait : forall f k, fs s !! f = Some (FWait k) ->
     exists x r, pend s !! x = Some r /\ r_fiber r = f /\ calls es !! k = Some (x, r_buf r) /\ k ∉ rets os;
  j_uniq : forall x x' r r', pend s !! x = Some r -> pend s !! x' = Some r' -> r_fiber r = r_fiber r' -> x = x';
  j_out : forall k y, calls es !! k = Some y -> k ∉ rets os -> exists f, fs s !! f = Some (FWait k);
  j_cur : forall f, cur s = Some f <-> fs s !! f = Some FRun;
  j_rets : NoDup (rets os) /\ forall k, k ∈ rets os -> (k < next s)%nat;
  j_one : forall k, (next s <= k)%nat -> pend s !! One k = None;
  j_late : forall c, last es = Some (ReadTimeout c) -> exists r, pend s !! Rd c = Some r /\ cur s = Some (r_fiber r)
}.

Lemma calls_snoc es e : calls (es ++ [e]) = add_call (calls es) e.
Proof. unfold calls. by rewrite foldl_snoc. Qed.
Lemma rets_snoc os o : rets (os ++ [o]) = rets os ++ ((fun o => match o with Ret k _ _ _ => k end) <$> o).
Proof. unfold rets. rewrite concat_app, fmap_app. cbn. by rewrite app_nil_r. Qed.
Lemma rets_nil os : rets (os ++ [[]]) = rets os.
Proof. rewrite rets_snoc. cbn. by rewrite app_nil_r. Qed.
Lemma lookup_add l e k y : l !! k = Some y -> add_call l e !! k = Some y.
Proof. intros H. destruct e; cbn; try done; by apply lookup_app_l_Some. Qed.
Lemma J_init n cs t : J [] [] (init n cs t).
Proof.
  assert (forall f x, fs (init n cs t) !! f = Some x -> x = FReady) as Hf.
  { intros f x H. cbn in H. apply elem_of_list_to_map_2 in H. apply elem_of_list_fmap in H as (i & [= _ ->] & _). done. }
  split; try done.
  - intros f k H. by apply Hf in H.
  - intros f. split; [done|]. intros H. by apply Hf in H.
  - split; [constructor|]. intros k H. by apply elem_of_nil in H.
Qed.

(** the request is registered and the fiber suspended *)
Lemma J_susp es os s f x b e :
  J es os s -> cur s = Some f -> pend s !! x = None -> (forall c, last es <> Some (ReadTimeout c)) ->
  calls (es ++ [e]) = calls es ++ [(x, b)] -> (forall c, e <> ReadTimeout c) -> (forall k, x = One k -> k = next s) ->
  J (es ++ [e]) (os ++ [[]]) (suspend (set_pend s (<[x := Reg f b (next s)]> (pend s))) f).
Proof.
  intros [Hn Hlen Hp Hc Ho Hw Hu Hout Hcur [Hnd Hr] Hone Hlate] Hf Hx Hnl Hcs He Hxk.
  assert (fs s !! f = Some FRun) as Hrun by by apply Hcur.
  assert (forall y r, pend s !! y = Some r -> r_fiber r <> f) as Hfree.
  { intros y r Hy Hrf. destruct (Hp y r Hy) as [(k & Hk & _)|(c & k & v & Hl & _)]; [congruence|by destruct (Hnl c)]. }
  assert (next s ∉ rets os) as Hnr by (intros Hin; apply Hr in Hin; lia).
  assert (calls (es ++ [e]) !! next s = Some (x, b)) as Hnew.
  { rewrite Hcs, Hn. rewrite lookup_app_r by lia. by rewrite Nat.sub_diag. }
  assert (forall k y, calls es !! k = Some y -> calls (es ++ [e]) !! k = Some y) as Hold.
  { intros k y Hk. rewrite Hcs. by apply lookup_app_l_Some. }
  split; cbn.
  - rewrite Hcs, app_length. cbn. lia.
  - rewrite !app_length. cbn. lia.
  - intros y r Hy. left. rewrite rets_nil. apply lookup_insert_Some in Hy as [[<- <-]|[Hne Hy]]; cbn.
    + exists (next s). by rewrite lookup_insert.
    + rewrite lookup_insert_ne by (intros Heq; by destruct (Hfree y r Hy)).
      destruct (Hp y r Hy) as [(k & Hk & Hk2 & Hk3)|(c & k & v & Hl & _)]; [|by destruct (Hnl c)].
      exists k. split_and!; try done. by apply Hold.
  - intros y r Hy. apply lookup_insert_Some in Hy as [[<- <-]|[Hne Hy]]; cbn; [lia|]. apply Hc in Hy. lia.
  - intros y r Hy. apply lookup_insert_Some in Hy as [[<- <-]|[Hne Hy]]; cbn; [done|]. by apply Hold, Ho.
  - intros g k Hg. rewrite rets_nil. apply lookup_insert_Some in Hg as [[<- [= <-]]|[Hne Hg]].
    + exists x, (Reg f b (next s)). rewrite lookup_insert. done.
    + destruct (Hw g k Hg) as (y & r & Hy & Hrf & Hk & Hk2). exists y, r.
      rewrite lookup_insert_ne by congruence. split_and!; try done. by apply Hold.
  - intros y y' r r' Hy Hy' Heq.
    apply lookup_insert_Some in Hy as [[<- <-]|[Hne Hy]]; apply lookup_insert_Some in Hy' as [[<- <-]|[Hne' Hy']];
      cbn in *; try done.
    + by destruct (Hfree y' r' Hy').
    + by destruct (Hfree y r Hy).
    + by eapply Hu.
  - intros k y Hk Hkr. rewrite rets_nil in Hkr. rewrite Hcs in Hk.
    apply lookup_app_Some in Hk as [Hk|[Hge Hk]].
    + destruct (Hout k y Hk Hkr) as [g Hg]. exists g. rewrite lookup_insert_ne; [done|]. congruence.
    + apply list_lookup_singleton_Some in Hk as [Hk <-]. exists f. rewrite lookup_insert. do 2 f_equal. lia.
  - intros g. split; [done|]. intros Hg. apply lookup_insert_Some in Hg as [[_ ?]|[Hne Hg]]; [done|].
    apply Hcur in Hg. congruence.
  - rewrite rets_nil. split; [done|]. intros k Hk. apply Hr in Hk. lia.
  - intros k Hk. rewrite lookup_insert_ne; [apply Hone; lia|]. intros ->. specialize (Hxk k eq_refl). lia.
  - intros c Hl. rewrite last_snoc in Hl. injection Hl as Hl. by destruct (He c).
Qed.

(** the call completes inside *)
Lemma J_sync es os s f x b e v :
  J es os s -> cur s = Some f -> (forall c, last es <> Some (ReadTimeout c)) ->
  calls (es ++ [e]) = calls es ++ [(x, b)] -> (forall c, e <> ReadTimeout c) ->
  J (es ++ [e]) (os ++ [[Ret (next s) v b (next s)]]) (set_next s (S (next s))).
Proof.
  intros [Hn Hlen Hp Hc Ho Hw Hu Hout Hcur [Hnd Hr] Hone Hlate] Hf Hnl Hcs He.
  assert (forall k y, calls es !! k = Some y -> calls (es ++ [e]) !! k = Some y) as Hold.
  { intros k y Hk. rewrite Hcs. by apply lookup_app_l_Some. }
  assert (forall k y, calls es !! k = Some y -> k ∉ rets os -> k ∉ rets os ++ [next s]) as Hnr.
  { intros k y Hk Hkr [Hin|Hin]%elem_of_app; [done|]. apply elem_of_list_singleton in Hin as ->.
    apply lookup_lt_Some in Hk. lia. }
  split; cbn; rewrite ?rets_snoc; cbn.
  - rewrite Hcs, app_length. cbn. lia.
  - rewrite !app_length. cbn. lia.
  - intros y r Hy. left. 
    destruct (Hp y r Hy) as [(k & Hk & Hk2 & Hk3)|(c & k & v' & Hl & _)]; [|by destruct (Hnl c)].
    exists k. split_and!; try done; [by apply Hold|by eapply Hnr].
  - intros y r Hy. apply Hc in Hy. lia.
  - intros y r Hy. by apply Hold, Ho.
  - intros g k Hg. destruct (Hw g k Hg) as (y & r & Hy & Hrf & Hk & Hk2). exists y, r.
    split_and!; try done; [by apply Hold|by eapply Hnr].
  - done.
  - intros k y Hk Hkr. rewrite Hcs in Hk.
    assert (k <> next s) by (intros ->; apply Hkr, elem_of_app; right; by apply elem_of_list_singleton).
    apply lookup_app_Some in Hk as [Hk|[Hge Hk]].
    + apply (Hout k y Hk). intros Hin. apply Hkr, elem_of_app. by left.
    + apply list_lookup_singleton_Some in Hk as [Hk _]. lia.
  - done.
  - split.
    + apply NoDup_app. split_and!; [done| |apply NoDup_singleton]. intros k Hk Hk2.
      apply elem_of_list_singleton in Hk2 as ->. apply Hr in Hk. lia.
    + intros k [Hk|Hk]%elem_of_app; [apply Hr in Hk; lia|]. apply elem_of_list_singleton in Hk as ->. lia.
  - intros k Hk. apply Hone. lia.
  - intros c Hl. rewrite last_snoc in Hl. injection Hl as Hl. by destruct (He c).
Qed.

(** the read is repeated after a timeout *)
Lemma J_retry es os s f c k v b o sync r :
  J es os s -> cur s = Some f -> last es = Some (ReadTimeout c) -> last os = Some [Ret k v b o] ->
  calls es !! k = Some (Rd c, b) -> pend s !! Rd c = Some r ->
  r_buf r = b /\ r_fiber r = f /\ c ∈ tmo s /\ J (es ++ [Read c b sync]) (os ++ [[]]) (suspend s f).
Proof.
  intros HJ Hf Hl Hlo Hk Hr0. destruct HJ as [Hn Hlen Hp Hc Ho Hw Hu Hout Hcur [Hnd Hr] Hone Hlate].
  assert (fs s !! f = Some FRun) as Hrun by by apply Hcur.
  destruct (Hlate c Hl) as (r' & Hr' & Hcf). assert (r' = r) as -> by congruence.
  assert (r_fiber r = f) as Hrf by congruence.
  destruct (Hp _ _ Hr0) as [(k' & Hk' & _)|(c' & k' & v' & Hl' & Hc' & Ht & _ & Hlo' & Hk')]; [congruence|].
  injection Hc' as <-. rewrite Hlo in Hlo'. injection Hlo' as <- <- Hb Ho'.
  split_and!; try done.
  assert (next s ∉ rets os) as Hnr by (intros Hin; apply Hr in Hin; lia).
  assert (forall k y, calls es !! k = Some y -> calls (es ++ [Read c b sync]) !! k = Some y) as Hold.
  { intros j y Hj. rewrite calls_snoc. by apply lookup_add. }
  assert (calls (es ++ [Read c b sync]) !! next s = Some (Rd c, b)) as Hnew.
  { rewrite calls_snoc. cbn. rewrite Hn. rewrite lookup_app_r by lia. by rewrite Nat.sub_diag. }
  assert (forall y q, pend s !! y = Some q -> r_fiber q = f -> y = Rd c) as Hfree.
  { intros y q Hy Hq. eapply Hu; [done..|]. congruence. }
  split; cbn; rewrite ?rets_nil.
  - rewrite calls_snoc. cbn. rewrite app_length. cbn. lia.
  - rewrite !app_length. cbn. lia.
  - intros y q Hy. left. destruct (decide (r_fiber q = f)) as [Hq|Hq].
    + assert (y = Rd c) as -> by by eapply Hfree. assert (q = r) as -> by congruence.
      exists (next s). rewrite Hq, lookup_insert. rewrite <- Hb. done.
    + rewrite lookup_insert_ne by done.
      destruct (Hp y q Hy) as [(j & Hj & Hj2 & Hj3)|(c1 & k1 & v1 & Hl1 & _ & _ & Hc1 & _)]; [|congruence].
      exists j. split_and!; try done. by apply Hold.
  - intros y q Hy. apply Hc in Hy. lia.
  - intros y q Hy. by apply Hold, Ho.
  - intros g j Hg. apply lookup_insert_Some in Hg as [[<- [= <-]]|[Hne Hg]].
    + exists (Rd c), r. rewrite <- Hb. done.
    + destruct (Hw g j Hg) as (y & q & Hy & Hq & Hj & Hj2). exists y, q. split_and!; try done. by apply Hold.
  - done.
  - intros j y Hj Hjr. rewrite calls_snoc in Hj. cbn in Hj. apply lookup_app_Some in Hj as [Hj|[Hge Hj]].
    + destruct (Hout j y Hj Hjr) as [g Hg]. exists g. rewrite lookup_insert_ne; [done|]. congruence.
    + apply list_lookup_singleton_Some in Hj as [Hj <-]. exists f. rewrite lookup_insert. do 2 f_equal. lia.
  - intros g. split; [done|]. intros Hg. apply lookup_insert_Some in Hg as [[_ ?]|[Hne Hg]]; [done|].
    apply Hcur in Hg. congruence.
  - split; [done|]. intros j Hj. apply Hr in Hj. lia.
  - intros j Hj. apply Hone. lia.
  - intros c1 Hl1. by rewrite last_snoc in Hl1.
Qed.

(** wakeups from the selector loop, with ([del]) or without removing the registration *)
Lemma J_wake es os s x r e v (del : bool) :
  J es os s -> cur s = None -> pend s !! x = Some r -> calls (es ++ [e]) = calls es ->
  (if del then forall c, e <> ReadTimeout c else exists c, e = ReadTimeout c /\ x = Rd c /\ c ∈ tmo s) ->
  exists k, fs s !! r_fiber r = Some (FWait k) /\ calls es !! k = Some (x, r_buf r) /\ k ∉ rets os
    /\ J (es ++ [e]) (os ++ [[Ret k v (r_buf r) (r_call r)]])
         (set_cur (set_fs (if del then set_pend s (delete x (pend s)) else s) (<[r_fiber r := FRun]> (fs s)))
                  (Some (r_fiber r))).
Proof.
  intros [Hn Hlen Hp Hc Ho Hw Hu Hout Hcur [Hnd Hr] Hone Hlate] Hcn Hx Hcs Hd.
  destruct (Hp x r Hx) as [(k & Hk & Hk2 & Hk3)|(c' & k' & v' & _ & _ & _ & Hc' & _)]; [|congruence].
  exists k. split_and!; try done.
  set (s' := if del then set_pend s (delete x (pend s)) else s).
  assert (next s' = next s) as Hn' by by destruct del.
  assert (tmo s' = tmo s) as Ht' by by destruct del.
  assert (forall y q, pend s' !! y = Some q -> pend s !! y = Some q) as Hsub.
  { subst s'. destruct del; [|done]. cbn. intros y q Hy. by apply lookup_delete_Some in Hy as [_ Hy]. }
  assert (forall j, j ∉ rets os -> j <> k -> j ∉ rets os ++ [k]) as Hnr.
  { intros j Hj Hne [Hin|Hin]%elem_of_app; [done|]. by apply elem_of_list_singleton in Hin as ->. }
  assert (forall g, fs s !! g = Some (FWait k) -> g = r_fiber r) as Hinj.
  { intros g Hg. destruct (Hw g k Hg) as (y & q & Hy & Hq & Hyk & _). rewrite Hk2 in Hyk. injection Hyk as <- _. congruence. }
  split; cbn; rewrite ?rets_snoc, ?Hcs, ?Hn', ?Ht'; cbn.
  - lia.
  - rewrite !app_length. cbn. lia.
  - intros y q Hy. destruct (decide (r_fiber q = r_fiber r)) as [Hq|Hq].
    + assert (y = x) as -> by (eapply Hu; [by apply Hsub|done|done]).
      destruct del; [by cbn in Hy; rewrite lookup_delete in Hy|]. destruct Hd as (c & -> & -> & Ht).
      assert (q = r) as -> by (apply Hsub in Hy; congruence).
      right. exists c, k, v. rewrite !last_snoc. done.
    + left. rewrite lookup_insert_ne by done. apply Hsub in Hy.
      destruct (Hp y q Hy) as [(j & Hj & Hj2 & Hj3)|(c1 & k1 & v1 & _ & _ & _ & Hc1 & _)]; [|congruence].
      exists j. split_and!; try done. apply Hnr; [done|]. intros ->. by apply Hq, Hinj.
  - intros y q Hy. by eapply Hc, Hsub.
  - intros y q Hy. by apply Ho, Hsub.
  - intros g j Hg. apply lookup_insert_Some in Hg as [[_ ?]|[Hne Hg]]; [done|].
    destruct (Hw g j Hg) as (y & q & Hy & Hq & Hj & Hj2). exists y, q.
    assert (y <> x) by (intros ->; assert (q = r) by congruence; congruence).
    split_and!; try done.
    + subst s'. destruct del; [|done]. cbn. by rewrite lookup_delete_ne.
    + apply Hnr; [done|]. intros ->. by apply Hne, eq_sym, Hinj.
  - intros y y' q q' Hy Hy'. apply Hu; by apply Hsub.
  - intros j y Hj Hjr.
    assert (j ∉ rets os) as Hjr' by (intros Hin; apply Hjr, elem_of_app; by left).
    assert (j <> k) by (intros ->; apply Hjr, elem_of_app; right; by apply elem_of_list_singleton).
    destruct (Hout j y Hj Hjr') as [g Hg]. exists g. rewrite lookup_insert_ne; [done|]. congruence.
  - intros g. destruct (decide (g = r_fiber r)) as [->|Hne]; [by rewrite lookup_insert|].
    rewrite lookup_insert_ne by done. split; [congruence|]. intros Hg. apply Hcur in Hg. congruence.
  - split.
    + apply NoDup_app. split_and!; [done| |apply NoDup_singleton]. intros j Hj Hj2.
      by apply elem_of_list_singleton in Hj2 as ->.
    + intros j [Hj|Hj]%elem_of_app; [apply Hr in Hj; lia|]. apply elem_of_list_singleton in Hj as ->.
      apply lookup_lt_Some in Hk2. lia.
  - intros j Hj. destruct (pend s' !! One j) as [q|] eqn:Hq; [|done]. apply Hsub in Hq. rewrite Hone in Hq; [done|lia].
  - intros c Hl. rewrite last_snoc in Hl. injection Hl as ->. destruct del; [by destruct (Hd c)|].
    destruct Hd as (c' & [= <-] & -> & Ht). by exists r.
Qed.

(** Sched, Close, Exit *)
Lemma J_other es os s s' e :
  J es os s -> (forall c, last es <> Some (ReadTimeout c)) -> (forall c, e <> ReadTimeout c) -> calls (es ++ [e]) = calls es ->
  next s' = next s -> pend s' = pend s -> tmo s' = tmo s ->
  (forall f k, fs s' !! f = Some (FWait k) <-> fs s !! f = Some (FWait k)) ->
  (forall f, cur s' = Some f <-> fs s' !! f = Some FRun) ->
  J (es ++ [e]) (os ++ [[]]) s'.
Proof.
  intros [Hn Hlen Hp Hc Ho Hw Hu Hout Hcur [Hnd Hr] Hone Hlate] Hnl He Hcs En Ep Et Hfs Hcur'.
  split; rewrite ?rets_nil, ?Hcs, ?En, ?Ep; try done.
  - rewrite !app_length. cbn. lia.
  - intros x r Hx. left. destruct (Hp x r Hx) as [(k & Hk & Hk2)|(c & k & v & Hl & _)]; [|by destruct (Hnl c)].
    exists k. by rewrite Hfs.
  - intros f k Hf. by apply Hw, Hfs.
  - intros k y Hk Hkr. destruct (Hout k y Hk Hkr) as [f Hf]. exists f. by apply Hfs.
  - intros c Hl. rewrite last_snoc in Hl. injection Hl as Hl. by destruct (He c).
Qed.

Definition good (es : list ev) (os : list (list obs)) (e : ev) (q : res st (list obs)) : Prop :=
  match q with
  | Crash => False
  | Disabled => True
  | Ok s' o => J (es ++ [e]) (os ++ [o]) s'
      /\ forall k v b w, Ret k v b w ∈ o ->
           k ∉ rets os /\ exists x, calls (es ++ [e]) !! k = Some (x, b) /\ calls (es ++ [e]) !! w = Some (x, b) /\ returned_by e x b v
  end.

Lemma good_request es os s f x b sync e :
  J es os s -> cur s = Some f -> pend s !! x = None -> (forall c, last es <> Some (ReadTimeout c)) ->
  calls (es ++ [e]) = calls es ++ [(x, b)] -> (forall c, e <> ReadTimeout c) -> (forall k, x = One k -> k = next s) ->
  (forall v, sync = Some v -> returned_by e x b v) ->
  good es os e (request s f x b sync).
Proof.
  intros HJ Hf Hx Hl Hcs He Hk Hby. unfold request. destruct sync as [v|]; cbn.
  - split; [by eapply J_sync|]. intros k v' b' w Hin. apply elem_of_list_singleton in Hin. injection Hin as -> -> -> ->.
    destruct HJ as [Hn _ _ _ _ _ _ _ _ [_ Hr] _ _].
    assert (calls (es ++ [e]) !! next s = Some (x, b)) as Hnew.
    { rewrite Hcs, Hn. rewrite lookup_app_r by lia. by rewrite Nat.sub_diag. }
    split; [intros Hin; apply Hr in Hin; lia|]. exists x. split_and!; try done. by apply Hby.
  - split; [by eapply J_susp|]. intros k v' b' w Hin. by apply elem_of_nil in Hin.
Qed.

Lemma last_dec es : (exists c, last es = Some (ReadTimeout c)) \/ (forall c, last es <> Some (ReadTimeout c)).
Proof. destruct (last es) as [[]|]; try (right; congruence). by left; eexists. Qed.

Lemma not_out es os s x r : J es os s -> pend s !! x = Some r -> (forall c, last es <> Some (ReadTimeout c)) -> outstanding es os x.
Proof.
  intros HJ Hx Hl. destruct (j_pend _ _ _ HJ x r Hx) as [(k & _ & Hk & Hk2)|(c & k & v & Hl' & _)]; [|by destruct (Hl c)].
  by exists k, (r_buf r).
Qed.

Lemma good_step es os s e : J es os s -> permitted es os e -> good es os e (step s e).
Proof.
  intros HJ Hp. unfold permitted in Hp.
  assert (forall f, cur s = Some f -> fs s !! f = Some FRun) as Hrun by (intros f; by apply (j_cur _ _ _ HJ)).
  destruct (last_dec es) as [[c Hl]|Hl].
  { rewrite Hl in Hp. destruct Hp as (k & v & b & o & sync & Hlo & Hk & ->).
    destruct (j_late _ _ _ HJ c Hl) as (r & Hr & Hf).
    destruct (J_retry es os s _ c k v b o sync r HJ Hf Hl Hlo Hk Hr) as (Hb & _ & Ht & HJ').
    cbn [step]. rewrite Hf. destruct (decide (c ∈ alive s)); [|done]. rewrite Hr, decide_True by done.
    cbn. split; [done|]. intros k1 v1 b1 w1 Hin. by apply elem_of_nil in Hin. }
  assert (match e with
      | Read c _ _ => ~ outstanding es os (Rd c)
      | Write c _ _ => ~ outstanding es os (Wr c)
      | Close c => ~ outstanding es os (Rd c) /\ ~ outstanding es os (Wr c)
      | _ => True
      end) as Hp'.
  { destruct (last es) as [[]|]; try exact Hp. by destruct (Hl c). }
  clear Hp. rename Hp' into Hp.
  assert (forall x, ~ outstanding es os x -> pend s !! x = None) as Hno.
  { intros x Hx. destruct (pend s !! x) as [r|] eqn:Hr; [|done]. destruct Hx. by eapply not_out. }
  destruct e as [f|c b sync|c b sync|b sync|c| |x v|c]; cbn [step].
  - destruct (cur s) as [g|] eqn:Hc; [done|]. destruct (fs s !! f) as [[]|] eqn:Hf; try done.
    split; [|intros ???? Hin; by apply elem_of_nil in Hin].
    eapply J_other; [done|done|done|by rewrite calls_snoc|done|done|done| |].
    + intros g k. cbn. rewrite lookup_insert_Some. split; [intros [[_ ?]|[_ ?]]; done|]. intros Hg. right. split; [congruence|done].
    + intros g. cbn. rewrite lookup_insert_Some. split; [intros [= ->]; by left|]. intros [[-> _]|[_ Hg]]; [done|].
      apply (j_cur _ _ _ HJ) in Hg. congruence.
  - destruct (cur s) as [g|] eqn:Hc; [|done]. destruct (decide (c ∈ alive s)); [|done]. rewrite (Hno _ Hp).
    eapply good_request; try done; [by apply Hno|by rewrite calls_snoc|]. by intros v ->.
  - destruct (cur s) as [g|] eqn:Hc; [|done]. destruct (decide (c ∈ alive s)); [|done]. rewrite (Hno _ Hp).
    eapply good_request; try done; [by apply Hno|by rewrite calls_snoc|]. by intros v ->.
  - destruct (cur s) as [g|] eqn:Hc; [|done].
    eapply good_request; try done.
    + apply (j_one _ _ _ HJ). lia.
    + rewrite calls_snoc. cbn. by rewrite (j_next _ _ _ HJ).
    + by intros k [= <-].
    + by intros v ->.
  - destruct (cur s) as [g|] eqn:Hc; [|done]. destruct (decide (c ∈ alive s)); [|done].
    destruct Hp as [Hp1 Hp2]. rewrite (Hno _ Hp1), (Hno _ Hp2).
    split; [|intros ???? Hin; by apply elem_of_nil in Hin].
    eapply J_other; [done|done|done|by rewrite calls_snoc|done|done|done|done|]. cbn. intros f. rewrite <- (j_cur _ _ _ HJ). done.
  - destruct (cur s) as [g|] eqn:Hc; [|done]. specialize (Hrun g eq_refl).
    split; [|intros ???? Hin; by apply elem_of_nil in Hin].
    eapply J_other; [done|done|done|by rewrite calls_snoc|done|done|done| |].
    + intros f k. cbn. rewrite lookup_insert_Some. split; [intros [[_ ?]|[_ ?]]; done|]. intros Hg. right. split; [congruence|done].
    + intros f. cbn. split; [done|]. rewrite lookup_insert_Some. intros [[_ ?]|[Hne Hf]]; [done|].
      apply (j_cur _ _ _ HJ) in Hf. congruence.
  - destruct (cur s) as [g|] eqn:Hc; [done|]. destruct (pend s !! x) as [r|] eqn:Hx; [|done].
    destruct (J_wake es os s x r (Complete x v) v true) as (k & Hk & Hk2 & Hk3 & HJ'); [done|done|done|by rewrite calls_snoc|done|].
    unfold wakeup. cbn [set_pend fs]. rewrite Hk. split; [done|].
    intros k' v' b' w Hin. apply elem_of_list_singleton in Hin. injection Hin as -> -> -> ->. split; [done|].
    exists x. split_and!; try done; rewrite calls_snoc; try done. by apply (j_own _ _ _ HJ).
  - destruct (cur s) as [g|] eqn:Hc; [done|]. destruct (pend s !! Rd c) as [r|] eqn:Hx; [|done].
    destruct (decide (c ∈ tmo s)) as [Ht|]; [|done].
    destruct (J_wake es os s (Rd c) r (ReadTimeout c) (-2) false) as (k & Hk & Hk2 & Hk3 & HJ');
      [done|done|done|by rewrite calls_snoc|by exists c|].
    unfold wakeup. rewrite Hk. split; [done|].
    intros k' v' b' w Hin. apply elem_of_list_singleton in Hin. injection Hin as -> -> -> ->. split; [done|].
    exists (Rd c). split_and!; try done; rewrite calls_snoc; try done. by apply (j_own _ _ _ HJ).
Qed.

Lemma run_snoc s0 es e : run step s0 (es ++ [e]) =
  match run step s0 es with
  | Disabled => Disabled | Crash => Crash
  | Ok s os => match step s e with Disabled => Disabled | Crash => Crash | Ok s' o => Ok s' (os ++ [o]) end
  end.
Proof. rewrite run_app. destruct (run step s0 es) as [| |s os]; try done. cbn. by destruct (step s e). Qed.
Lemma obeys_snoc s0 es e : obeys s0 (es ++ [e]) -> obeys s0 es.
Proof.
  intros H es1 e1 es2 s os -> Hr. eapply (H es1 e1 (es2 ++ [e])); [|done]. by rewrite <- app_assoc.
Qed.

Lemma J_run n cs t es : obeys (init n cs t) es ->
  match run step (init n cs t) es with Crash => False | Disabled => True | Ok s os => J es os s end.
Proof.
  induction es as [|e es IH] using rev_ind; intros Hob; [apply J_init|]. rewrite run_snoc.
  pose proof (obeys_snoc _ _ _ Hob) as Hob'. specialize (IH Hob').
  destruct (run step (init n cs t) es) as [| |s os] eqn:Hr; try done.
  assert (permitted es os e) as Hp by (eapply (Hob es e []); done).
  pose proof (good_step es os s e IH Hp) as Hg. destruct (step s e) as [| |s' o]; try done. by destruct Hg.
Qed.

(** ** theorems *)
(** no assertion fails and no fiber is woken that is not suspended *)
Theorem C56_no_crash n cs t es : obeys (init n cs t) es -> run step (init n cs t) es <> Crash.
Proof. intros Hob Hr. pose proof (J_run n cs t es Hob) as H. by rewrite Hr in H. Qed.

(** a call returns at most once *)
Theorem C56_returns_once n cs t es s os : obeys (init n cs t) es -> run step (init n cs t) es = Ok s os -> NoDup (rets os).
Proof. intros Hob Hr. pose proof (J_run n cs t es Hob) as H. rewrite Hr in H. apply (j_rets _ _ _ H). Qed.

(** and when it does, it is by the completion of what it asked for (or by its read timeout), with that value and with the
    buffer the caller passed to this very call *)
Theorem C56_own_result n cs t es1 e es2 s os s1 os1 s2 o k v b w :
  obeys (init n cs t) (es1 ++ e :: es2) ->
  run step (init n cs t) (es1 ++ e :: es2) = Ok s os ->
  run step (init n cs t) es1 = Ok s1 os1 -> step s1 e = Ok s2 o ->
  Ret k v b w ∈ o ->
  k ∉ rets os1 /\ exists x, calls (es1 ++ [e]) !! k = Some (x, b) /\ returned_by e x b v.
Proof.
  intros Hob Hr H1 H2 Hin.
  assert (obeys (init n cs t) es1) as Hob1.
  { intros a a' a'' q qs -> Hq. eapply (Hob a a' (a'' ++ e :: es2)); [|done]. by rewrite <- app_assoc. }
  pose proof (J_run n cs t es1 Hob1) as HJ. rewrite H1 in HJ.
  assert (permitted es1 os1 e) as Hp by (eapply Hob; done).
  pose proof (good_step es1 os1 s1 e HJ Hp) as Hg. rewrite H2 in Hg. destruct Hg as [_ Hg].
  destruct (Hg k v b w Hin) as (Hk & x & Hx & _ & Hby). eauto.
Qed.

(** without read timeouts the completed registration is the one this call made *)
Definition no_timeout (e : ev) : Prop := match e with ReadTimeout _ => False | _ => True end.
Lemma own_inv n cs t es s os : run step (init n cs t) es = Ok s os -> Forall no_timeout es -> obeys (init n cs t) es ->
  (forall x r, pend s !! x = Some r -> fs s !! r_fiber r = Some (FWait (r_call r)))
  /\ (forall k v b w, Ret k v b w ∈ concat os -> w = k).
Proof.
  revert s os. induction es as [|e es IH] using rev_ind; intros s' os' Hr Hnt Hob.
  { injection Hr as <- <-. split; [done|]. intros ???? H. by apply elem_of_nil in H. }
  rewrite run_snoc in Hr. destruct (run step (init n cs t) es) as [| |s os] eqn:Hr0; try done.
  destruct (step s e) as [| |s'' o] eqn:Hs; try done. injection Hr as -> <-.
  apply Forall_app in Hnt as [Hnt He]. assert (no_timeout e) as He1 by (by inversion He). clear He.
  pose proof (obeys_snoc _ _ _ Hob) as Hob'. destruct (IH s os eq_refl Hnt Hob') as [Hp Hw].
  pose proof (J_run n cs t es Hob') as HJ. rewrite Hr0 in HJ.
  assert (permitted es os e) as Hpm by (eapply (Hob es e []); done).
  assert (forall c, last es <> Some (ReadTimeout c)) as Hl.
  { intros c Hl. apply last_Some_elem_of in Hl. rewrite Forall_forall in Hnt. apply Hnt in Hl. done. }
  assert (forall y r f, cur s = Some f -> pend s !! y = Some r -> r_fiber r <> f) as Hfree.
  { intros y r f Hf Hy <-. apply (j_cur _ _ _ HJ) in Hf. rewrite (Hp y r Hy) in Hf. done. }
  assert (forall f x b sync, cur s = Some f -> request s f x b sync = Ok s' o ->
     (forall x r, pend s' !! x = Some r -> fs s' !! r_fiber r = Some (FWait (r_call r)))
     /\ (forall k v b w, Ret k v b w ∈ o -> w = k)) as Hreq.
  { intros f x b [v|] Hf; cbn; intros [= <- <-]; split.
    - done.
    - intros ???? H. apply elem_of_list_singleton in H. congruence.
    - cbn. intros y r Hy. apply lookup_insert_Some in Hy as [[<- <-]|[Hne Hy]]; cbn; [by rewrite lookup_insert|].
      rewrite lookup_insert_ne by (intros Heq; by destruct (Hfree y r f Hf Hy)). by apply (Hp y).
    - intros ???? H. by apply elem_of_nil in H. }
  assert ((forall x r, pend s' !! x = Some r -> fs s' !! r_fiber r = Some (FWait (r_call r)))
     /\ (forall k v b w, Ret k v b w ∈ o -> w = k)) as [HA HB].
  2:{ split; [done|]. intros k v b w. rewrite concat_app. cbn. rewrite app_nil_r. intros [H|H]%elem_of_app; eauto. }
  pose proof Hs as Hs'.
  destruct e as [f|c b sync|c b sync|b sync|c| |x v|c]; cbn [step] in Hs.
  - destruct (cur s) as [g|] eqn:Hc; [done|]. destruct (fs s !! f) as [[]|] eqn:Hf; try done.
    injection Hs as <- <-. split; [|intros ???? H; by apply elem_of_nil in H].
    cbn. intros x r Hx. rewrite lookup_insert_ne; [by eapply Hp|]. intros Heq. specialize (Hp x r Hx). congruence.
  - destruct (cur s) as [g|] eqn:Hc; [|done]. destruct (decide (c ∈ alive s)); [|done].
    destruct (pend s !! Rd c) as [r|] eqn:Hr; [|by eapply Hreq].
    destruct (decide (c ∈ tmo s /\ r_fiber r = g)) as [[_ Hg]|]; [|done]. by destruct (Hfree _ _ _ eq_refl Hr).
  - destruct (cur s) as [g|] eqn:Hc; [|done]. destruct (decide (c ∈ alive s)); [|done].
    destruct (pend s !! Wr c) as [r|] eqn:Hr; [done|by eapply Hreq].
  - destruct (cur s) as [g|] eqn:Hc; [|done]. by eapply Hreq.
  - destruct (cur s) as [g|] eqn:Hc; [|done]. destruct (decide (c ∈ alive s)); [|done].
    destruct (pend s !! Rd c); [done|]. destruct (pend s !! Wr c); [done|].
    injection Hs as <- <-. split; [done|]. intros ???? H. by apply elem_of_nil in H.
  - destruct (cur s) as [g|] eqn:Hc; [|done]. injection Hs as <- <-. split; [|intros ???? H; by apply elem_of_nil in H].
    cbn. intros x r Hx. rewrite lookup_insert_ne; [by eapply Hp|]. intros Heq. by destruct (Hfree _ _ _ eq_refl Hx).
  - destruct (cur s) as [g|] eqn:Hc; [done|]. destruct (pend s !! x) as [r|] eqn:Hx; [|done].
    unfold wakeup in Hs. cbn in Hs. rewrite (Hp x r Hx) in Hs. injection Hs as <- <-. split.
    + cbn. intros y q Hy. apply lookup_delete_Some in Hy as [Hne Hy]. rewrite lookup_insert_ne; [by eapply Hp|].
      intros Heq. apply Hne. by eapply (j_uniq _ _ _ HJ).
    + intros ???? H. apply elem_of_list_singleton in H. congruence.
  - exact (False_ind _ He1).
Qed.
Theorem C56_own_registration n cs t es s os k v b w : obeys (init n cs t) es -> Forall no_timeout es ->
  run step (init n cs t) es = Ok s os -> Ret k v b w ∈ concat os -> w = k.
Proof. intros Hob Hnt Hr. by eapply own_inv. Qed.

(** no call is forgotten: as long as a call has not returned, the selector still holds a request for what it asked for,
    with its buffer, and completing that request resumes the caller with that value *)
Theorem C56_not_forgotten n cs t es s os k x b v : obeys (init n cs t) es -> run step (init n cs t) es = Ok s os ->
  calls es !! k = Some (x, b) -> k ∉ rets os -> cur s = None ->
  exists s' w, step s (Complete x v) = Ok s' [Ret k v b w].
Proof.
  intros Hob Hr Hk Hkr Hc. pose proof (J_run n cs t es Hob) as HJ. rewrite Hr in HJ.
  destruct (j_out _ _ _ HJ k (x, b) Hk Hkr) as [f Hf].
  destruct (j_wait _ _ _ HJ f k Hf) as (x' & r & Hx & Hrf & Hk' & _). rewrite Hk in Hk'. injection Hk' as <- Hb.
  cbn [step]. rewrite Hc, Hx. unfold wakeup. cbn [set_pend fs]. rewrite Hrf, Hf. rewrite Hb. eauto.
Qed.

(** ** the hypotheses are met, and what happens without them *)
(** fibers 0 and 1; 0 reads connection 5 (buffer 70) and 1 writes it (buffer 71); then 0 sleeps *)
Definition demo : list ev :=
  [Sched 0; Read 5 70 None; Sched 1; Write 5 71 None; Complete (Wr 5) 9%Z; Write 5 71 (Some 4%Z); Wait 0 None;
   Complete (Rd 5) 12%Z; Wait 0 None; Complete (One 4) 0%Z; Close 5; Exit; Complete (One 3) 0%Z; Exit]%nat.
Example demo_runs : match run step (init 2 {[5%nat]} ∅) demo with
  | Ok s os => concat os = [Ret 1 9 71 1; Ret 2 4 71 2; Ret 0 12 70 0; Ret 4 0 0 4; Ret 3 0 0 3] | _ => False end.
Proof. by vm_compute. Qed.
(** a decidable form of the program's duty, for the examples *)
Definition out_b (es : list ev) (os : list (list obs)) (x : key) : bool :=
  existsb (fun k => match calls es !! k with Some (y, _) => bool_decide (y = x) && negb (bool_decide (k ∈ rets os)) | None => false end)
    (seq 0 (length (calls es))).
Lemma out_b_false es os x : out_b es os x = false -> ~ outstanding es os x.
Proof.
  intros H (k & b & Hk & Hkr). assert (out_b es os x = true) as Ht; [|congruence].
  unfold out_b. apply existsb_exists. exists k. split.
  - apply in_seq. apply lookup_lt_Some in Hk. lia.
  - rewrite Hk. rewrite !bool_decide_eq_true_2 by done. rewrite bool_decide_eq_false_2 by done. done.
Qed.
Definition permitted_b (es : list ev) (os : list (list obs)) (e : ev) : bool :=
  match last es with
  | Some (ReadTimeout c) =>
      match last os, e with
      | Some [Ret k v b o], Read c' b' _ => bool_decide (calls es !! k = Some (Rd c, b)) && bool_decide (c' = c) && bool_decide (b' = b)
      | _, _ => false
      end
  | _ => match e with
      | Read c _ _ => negb (out_b es os (Rd c))
      | Write c _ _ => negb (out_b es os (Wr c))
      | Close c => negb (out_b es os (Rd c)) && negb (out_b es os (Wr c))
      | _ => true
      end
  end.
Lemma permitted_b_sound es os e : permitted_b es os e = true -> permitted es os e.
Proof.
  unfold permitted_b, permitted. intros H.
  assert (match e with
      | Read c _ _ => negb (out_b es os (Rd c))
      | Write c _ _ => negb (out_b es os (Wr c))
      | Close c => negb (out_b es os (Rd c)) && negb (out_b es os (Wr c))
      | _ => true
      end = true -> match e with
      | Read c _ _ => ~ outstanding es os (Rd c)
      | Write c _ _ => ~ outstanding es os (Wr c)
      | Close c => ~ outstanding es os (Rd c) /\ ~ outstanding es os (Wr c)
      | _ => True
      end) as Hx.
  { destruct e; try done; intros H0.
    - by apply out_b_false, negb_true_iff.
    - by apply out_b_false, negb_true_iff.
    - apply andb_true_iff in H0 as [H1 H2]. split; by apply out_b_false, negb_true_iff. }
  destruct (last es) as [e0|]; [|by apply Hx]. destruct e0; try (by apply Hx).
  destruct (last os) as [[|[k v b o] [|]]|]; try done. destruct e as [|c' b' sync| | | | | |]; try done.
  apply andb_true_iff in H as [H H3]. apply andb_true_iff in H as [H1 H2].
  apply bool_decide_eq_true_1 in H1, H2, H3. subst. eauto 10.
Qed.
Fixpoint obeys_b (s : st) (es : list ev) (os : list (list obs)) (rest : list ev) : bool :=
  match rest with
  | [] => true
  | e :: rest => permitted_b es os e && match step s e with Ok s' o => obeys_b s' (es ++ [e]) (os ++ [o]) rest | _ => true end
  end.
Lemma obeys_b_sound s0 rest : forall s es os, run step s0 es = Ok s os -> obeys_b s es os rest = true ->
  forall es1 e es2 s1 os1, rest = es1 ++ e :: es2 -> run step s0 (es ++ es1) = Ok s1 os1 -> permitted (es ++ es1) os1 e.
Proof.
  induction rest as [|e0 rest IH]; intros s es os Hr Hb es1 e es2 s1 os1 Heq H1; [by destruct es1|].
  cbn in Hb. apply andb_true_iff in Hb as [Hp Hb]. destruct es1 as [|e1 es1]; cbn in Heq; injection Heq as -> ->.
  - rewrite app_nil_r in *. rewrite Hr in H1. injection H1 as -> ->. by apply permitted_b_sound.
  - destruct (step s e1) as [| |s' o] eqn:Hs.
    + rewrite run_app, Hr in H1. cbn in H1. by rewrite Hs in H1.
    + rewrite run_app, Hr in H1. cbn in H1. by rewrite Hs in H1.
    + rewrite cons_middle, app_assoc in H1. rewrite cons_middle, app_assoc.
      eapply (IH s' (es ++ [e1]) (os ++ [o])); [|done|done|done].
      rewrite run_snoc, Hr, Hs. done.
Qed.
Lemma obeys_compute s0 es : obeys_b s0 [] [] es = true -> obeys s0 es.
Proof. intros H es1 e es2 s os Heq Hr. by eapply (obeys_b_sound s0 es s0 [] []). Qed.
Example demo_obeys : obeys (init 2 {[5%nat]} ∅) demo.
Proof. apply obeys_compute. by vm_compute. Qed.
(** a read that times out twice and is repeated each time *)
Definition demo_tmo : list ev :=
  [Sched 0; Read 5 70 None; ReadTimeout 5; Read 5 70 None; ReadTimeout 5; Read 5 70 None; Complete (Rd 5) 3%Z; Wait 1 None;
   Complete (One 3) 0%Z; Close 5; Exit]%nat.
Example demo_tmo_runs : match run step (init 1 {[5%nat]} {[5%nat]}) demo_tmo with
  | Ok s os => concat os = [Ret 0 (-2) 70 0; Ret 1 (-2) 70 0; Ret 2 3 70 0; Ret 3 0 1 3] | _ => False end.
Proof. by vm_compute. Qed.
Example demo_tmo_obeys : obeys (init 1 {[5%nat]} {[5%nat]}) demo_tmo.
Proof. apply obeys_compute. by vm_compute. Qed.

(** refuted: repeating the read with another buffer: call 1 asked for buffer 71, its 3 bytes are in buffer 70 *)
Theorem C56_retry_other_buffer_refuted : exists es, match run step (init 1 {[5%nat]} {[5%nat]}) es with
  | Ok s os => calls es !! 1%nat = Some (Rd 5, 71%nat) /\ Ret 1 3 70 0 ∈ concat os | _ => False end.
Proof.
  exists [Sched 0; Read 5 70 None; ReadTimeout 5; Read 5 71 None; Complete (Rd 5) 3%Z]%nat. vm_compute. split; [done|]. right. left.
Qed.
(** refuted: sleeping after a timed out read: the sleep (call 1) ends with the read's 3 bytes, and its own end is then
    delivered to a fiber that is not suspended *)
Theorem C56_sleep_after_timeout_refuted : exists es, match run step (init 1 {[5%nat]} {[5%nat]}) es with
  | Ok s os => (exists b, calls es !! 1%nat = Some (One 1, b)) /\ Ret 1 3 70 0 ∈ concat os
      /\ step s Exit <> Disabled
      /\ match step s Exit with Ok s' _ => step s' (Complete (One 1) 0%Z) = Crash | _ => False end
  | _ => False end.
Proof.
  exists [Sched 0; Read 5 70 None; ReadTimeout 5; Wait 0 None; Complete (Rd 5) 3%Z]%nat. vm_compute.
  split_and!; [by exists 0%nat|right; left|done|done].
Qed.
(** refuted: closing the connection, or ending, after a timed out read *)
Theorem C56_close_after_timeout_refuted : run step (init 1 {[5%nat]} {[5%nat]}) [Sched 0; Read 5 70 None; ReadTimeout 5; Close 5]%nat = Crash.
Proof. by vm_compute. Qed.
Theorem C56_exit_after_timeout_refuted :
  run step (init 1 {[5%nat]} {[5%nat]}) [Sched 0; Read 5 70 None; ReadTimeout 5; Exit; Complete (Rd 5) 1%Z]%nat = Crash.
Proof. by vm_compute. Qed.
(** refuted: two fibers reading the same connection *)
Theorem C56_two_readers_refuted :
  run step (init 2 {[5%nat]} ∅) [Sched 0; Read 5 70 None; Sched 1; Read 5 71 None]%nat = Crash.
Proof. by vm_compute. Qed.
