(** C47, the fate of a good address: a name that was resolved once keeps being answered with its last good address while
    refreshing it fails, up to nine times in a row. *)
From stdpp Require Import gmap.
From Verif Require Import Lts DnsModel.
Local Open Scope Z_scope.

Definition is_flush (e : ev) : bool := match e with Flush _ => true | _ => false end.
Definition good_refresh (k : nat) (e : ev) : bool := match e with Refresh k' (Some _) _ => bool_decide (k' = k) | _ => false end.
Definition bad_refresh (k : nat) (e : ev) : bool := match e with Refresh k' None _ => bool_decide (k' = k) | _ => false end.
Definition failures (k : nat) (es : list ev) : Z := Z.of_nat (length (List.filter (bad_refresh k) es)).

(** the cached entry of [k] still knows address [a] *)
Definition knows (s : st) (k a : nat) (err : Z) : Prop :=
  exists n, nodes s !! k = Some n /\ n_queue n = None /\ n_last n = Some a /\ (n_addr n = None \/ n_addr n = Some a) /\ n_err n = err.

Ltac brk H := repeat match type of H with context [match ?x with _ => _ end] => destruct x eqn:?; try discriminate H end.
Ltac sm := cbn [nodes lst cnt heap resolving refreshing inprog posted held asked answered born
    s_nodes s_lst s_cnt s_heap s_resolving s_refreshing s_inprog s_posted s_held s_asked s_answered s_born] in *.

Lemma knows_step s e s' o k a err : knows s k a err -> step s e = Ok s' o -> is_flush e = false -> good_refresh k e = false ->
  (bad_refresh k e = true -> err < 9) -> knows s' k a (err + if bad_refresh k e then 1 else 0).
Proof.
  intros (n & Hn & Hq & Hl & Ha & He) H Hf Hg Hb.
  assert (forall m, nodes s' !! k = Some m -> n_queue m = None -> n_last m = n_last n -> n_addr m = n_addr n -> n_err m = n_err n ->
     bad_refresh k e = false -> knows s' k a (err + if bad_refresh k e then 1 else 0)) as Hsame.
  { intros m Hm E1 E2 E3 E4 ->. exists m. rewrite E2, E3, E4. split_and!; try done. lia. }
  destruct e as [k1 r now ok|k1 now ok|i|k1 res|k1|i|i|k1 res now|now]; cbn [step] in H; try done.
  - destruct (decide (r ∈ (asked s).*1)); [done|]. sm. destruct (nodes s !! k1) as [m|] eqn:Hm.
    + destruct (n_queue m) as [q|] eqn:Hqm.
      * injection H as <- <-. sm. assert (k1 <> k) by congruence. eapply (Hsame n); try done. sm. by rewrite lookup_insert_ne.
      * unfold touch in H. sm. destruct (ref _ _); [|done]. injection H as <- <-. sm. destruct (decide (k1 = k)) as [->|Hne].
        -- assert (m = n) as -> by congruence. eapply Hsame; [sm; by rewrite lookup_insert|done..].
        -- eapply (Hsame n); try done. sm. by rewrite lookup_insert_ne.
    + injection H as <- <-. sm. assert (k1 <> k) by congruence. eapply (Hsame n); try done. sm. by rewrite lookup_insert_ne.
  - destruct (nodes s !! k1) as [m|] eqn:Hm; [|injection H as <- <-; by eapply (Hsame n)].
    destruct (n_queue m) as [q|] eqn:Hqm; [injection H as <- <-; by eapply (Hsame n)|].
    assert (nodes s' = <[k1 := Node None (n_addr m) (n_last m) now (if bool_decide (now - n_lv m > FRESH) then now else n_lv m) (n_err m)]> (nodes s)) as Hs'.
    { unfold touch in H. sm. destruct (n_addr m); [|by injection H as <- <-]. destruct (ref _ _); [|done]. by injection H as <- <-. }
    destruct (decide (k1 = k)) as [->|Hne].
    + assert (m = n) as -> by congruence. eapply Hsame; [rewrite Hs'; by rewrite lookup_insert|done..].
    + eapply (Hsame n); try done. rewrite Hs'. by rewrite lookup_insert_ne.
  - destruct (held s !! i); [|done]. destruct (unref _ _); [|done]. injection H as <- <-. by eapply (Hsame n).
  - destruct (decide (k1 ∈ resolving s)); [|done]. destruct (nodes s !! k1) as [m|] eqn:Hm; [|done].
    destruct (n_queue m) as [q|] eqn:Hqm; [|done]. destruct (n_addr m); [done|]. destruct (n_last m); [done|]. sm.
    assert (k1 <> k) by congruence.
    eapply (Hsame n); try done. destruct res; [destruct (decide _); [done|]|]; injection H as <- <-; sm; by rewrite lookup_insert_ne.
  - destruct (decide (k1 ∈ resolving s)); [|done]. destruct (nodes s !! k1) as [m|] eqn:Hm; [|done].
    destruct (n_queue m) as [q|] eqn:Hqm; [|done]. assert (k1 <> k) by congruence. destruct (unref _ _); [|done]. destruct (unref _ _); [|done].
    injection H as <- <-. eapply (Hsame n); try done. sm. by rewrite lookup_delete_ne.
  - destruct (inprog s !! i) as [[[|r q] b]|]; [|destruct (ref _ _); [|done]|done]; injection H as <- <-; by eapply (Hsame n).
  - destruct (posted s !! i) as [[r b]|]; [|done]. destruct (unref _ _); [|done]. injection H as <- <-. by eapply (Hsame n).
  - destruct (decide (k1 ∈ refreshing s)); [|done]. cbn [good_refresh bad_refresh] in *.
    destruct (decide (k1 = k)) as [->|Hne].
    + rewrite bool_decide_true in * by done. destruct res as [b|]; [done|]. sm. rewrite Hn in H. rewrite Hq in H.
      destruct (unref (heap s) (n_addr n)) as [h|]; [|done].
      assert (n_err n + 1 < MAXE) as Hlt by (unfold MAXE; specialize (Hb eq_refl); lia).
      rewrite decide_False in H by lia. injection H as <- <-. eexists. sm. rewrite lookup_insert. split_and!; try done; cbn; [by left|lia].
    + assert (forall x, nodes s' = <[k1 := x]> (nodes s) -> knows s' k a (err + 0)) as Hx.
      { intros x Hx. exists n. rewrite Hx, lookup_insert_ne by done. split_and!; try done. lia. }
      assert ((match res with Some _ => false | None => bool_decide (k1 = k) end) = false) as -> by (destruct res; [done|by rewrite bool_decide_false]).
      sm. destruct (match res with Some a0 => bool_decide (a0 ∈ dom (born s)) | None => false end); [done|].
      destruct (nodes s !! k1) as [m|] eqn:Hm.
      * destruct (n_queue m) as [q|]; [done|]. destruct (unref _ _) as [h|]; [|done]. destruct res as [b|].
        -- destruct (unref _ _) as [h2|]; [|done]. destruct (ref _ _) as [h3|]; [|done]. injection H as <- <-. by eapply Hx.
        -- destruct (decide (n_err m + 1 >= MAXE)); [destruct (unref _ _); [|done]|]; injection H as <- <-; by eapply Hx.
      * sm. cbn [n_queue n_addr n_last n_err] in H. cbn [unref] in H. destruct res as [b|].
        -- cbn [unref] in H. destruct (ref _ _) as [h3|]; [|done]. injection H as <- <-. by eapply Hx.
        -- destruct (decide _); injection H as <- <-; by eapply Hx.
Qed.

(** from any state in which [k] is cached with address [a] and no failure counted, along any schedule without a flush and
    without a successful refresh of [k] and with at most nine failed ones, a request for [k] is answered with [a] *)
Theorem C47_last_good : forall es s s' os k a n r now ok s2 o,
  nodes s !! k = Some n -> n_queue n = None -> n_addr n = Some a -> n_last n = Some a -> n_err n = 0 ->
  run step s es = Ok s' os -> Forall (fun e => is_flush e = false /\ good_refresh k e = false) es -> failures k es <= 9 ->
  step s' (Find k r now ok) = Ok s2 o -> posted s2 = posted s' ++ [(r, Some a)].
Proof.
  intros es s s' os k a n r now ok s2 o Hn Hq Ha Hl He HR HF Hc HS.
  assert (knows s k a 0) as HK by (exists n; split_and!; try done; by right).
  assert (forall es s s' os err, knows s k a err -> run step s es = Ok s' os ->
    Forall (fun e => is_flush e = false /\ good_refresh k e = false) es -> err + failures k es <= 9 -> exists err', knows s' k a err') as G.
  { clear. intros es. induction es as [|e es IH]; intros s s' os err HK; cbn [run]; [intros [= <- <-]; eauto|].
    destruct (step s e) as [| |s1 o] eqn:E; try done. destruct (run step s1 es) as [| |s3 os3] eqn:E2; try done. intros [= -> <-] HF Hc.
    apply Forall_cons in HF as [[F1 F2] HF]. unfold failures in Hc. cbn [List.filter] in Hc.
    assert (knows s1 k a (err + if bad_refresh k e then 1 else 0)) as HK1.
    { eapply knows_step; try done. intros Hb. rewrite Hb in Hc. cbn [length] in Hc. lia. }
    eapply IH; [done|done|done|]. unfold failures. destruct (bad_refresh k e); cbn [length] in Hc; lia. }
  destruct (G es s s' os 0 HK HR HF ltac:(lia)) as (err & m & Hm & Hmq & Hml & Hma & _).
  cbn [step] in HS. destruct (decide _); [done|]. sm. rewrite Hm, Hmq in HS. unfold touch in HS. sm.
  assert (match n_addr m with Some a0 => Some a0 | None => n_last m end = Some a) as E by (destruct Hma as [-> | ->]; done).
  rewrite E in HS. destruct (ref _ _); [|done]. by injection HS as <- <-.
Qed.
(** nine failed refreshes in a row, then a request *)
Example demo_last_good : let es := concat (replicate 9 [FindCache 0 0 true; Refresh 0 None 0]) in
  match run step init [Find 0 1 0 true; ResolveOk 0 (Some 7%nat); Answer 0; Answer 0; Deliver 0] with
  | Ok s _ => nodes s !! 0%nat = Some (Node None (Some 7%nat) (Some 7%nat) 0 0 0)
      /\ match run step s (concat ((fun i => [FindCache 0 (Z.of_nat i * 31 + 31) true; Refresh 0 None 0]) <$> seq 0 9)) with
         | Ok s' _ => match step s' (Find 0 2 0 true) with Ok s2 _ => posted s2 = [(2%nat, Some 7%nat)] | _ => False end
         | _ => False end
  | _ => False end.
Proof. vm_compute. by split_and!. Qed.
(** the tenth loses it *)
Example demo_last_lost :
  match run step init ([Find 0 1 0 true; ResolveOk 0 (Some 7%nat); Answer 0; Answer 0; Deliver 0] ++
      concat ((fun i => [FindCache 0 (Z.of_nat i * 31 + 31) true; Refresh 0 None 0]) <$> seq 0 10)) with
  | Ok s' _ => match step s' (Find 0 2 0 true) with Ok s2 _ => posted s2 = [(2%nat, None)] | _ => False end
  | _ => False end.
Proof. by vm_compute. Qed.
