(** C59: TLS over memory BIOs keeps both byte streams intact and reports every request once. *)
From Verif Require Export SslBioModel.
From Verif Require Import SslBioProof.
From Coq Require Import ZifyBool ZifyNat.
Local Open Scope Z_scope.

(** ** specification: about the history only *)
Definition flat (f : obs -> list Z) (h : list obs) : list Z := concat (f <$> h).
Definition gen := flat (λ o, match o with Gen bs => bs | _ => [] end).        (* ciphertext made by the engine *)
Definition sent := flat (λ o, match o with Sent bs => bs | _ => [] end).      (* bytes the kernel took *)
Definition recvd := flat (λ o, match o with Recv bs => bs | _ => [] end).     (* bytes the kernel delivered *)
Definition eaten := flat (λ o, match o with Eat _ bs => bs | _ => [] end).    (* ciphertext given to the engine *)
Definition ended (h : list obs) : Prop := exists v, RecvEnd v ∈ h.
Definition callw o := match o with CallW k => Some k | _ => None end.
Definition resw o := match o with ResW k _ => Some k | _ => None end.
Definition callr o := match o with CallR k => Some k | _ => None end.
Definition resr o := match o with ResR k _ => Some k | _ => None end.

(** what may happen after history h; n: the chunk size *)
Definition good (n : nat) (h : list obs) (o : obs) : Prop :=
  match o with
  | Sent bs => bs <> [] /\ exists rest, gen h = sent h ++ bs ++ rest
  | Recv bs => recvd h = eaten h /\ (1 <= length bs <= n)%nat
  | Eat m bs => bs <> [] /\ (length bs <= m)%nat /\ exists rest, recvd h = eaten h ++ bs ++ rest /\ (length bs = m \/ rest = [])
  | Retry m => m = 0%nat \/ recvd h = eaten h /\ ~ ended h
  | Eof m => ended h /\ (m = 0%nat \/ recvd h = eaten h)
  | ResW k v => k ∈ omap callw h /\ k ∉ omap resw h /\
      (v <= 0 /\ (exists h0, h = h0 ++ [SendFail v]) \/ exists ha hb, h = ha ++ Acc k v :: hb /\ gen ha `prefix_of` sent h)
  | ResR k v => k ∈ omap callr h /\ k ∉ omap resr h /\ exists h0, h = h0 ++ [Took k v]
  | TmoR k => k ∈ omap callr h /\ k ∉ omap resr h
  | _ => True
  end.
Definition hist_ok (n : nat) (h : list obs) : Prop := forall h1 o h2, h = h1 ++ o :: h2 -> good n h1 o.

(** ** proof *)
Lemma flat_app f h1 h2 : flat f (h1 ++ h2) = flat f h1 ++ flat f h2.
Proof. unfold flat. by rewrite fmap_app, concat_app. Qed.
Lemma flat_one f o : flat f [o] = f o.
Proof. unfold flat. cbn. by rewrite app_nil_r. Qed.
Lemma snoc_split {A} (h : list A) x h1 y h2 : h ++ [x] = h1 ++ y :: h2 -> (h2 = [] /\ h1 = h /\ y = x) \/ exists h3, h2 = h3 ++ [x] /\ h = h1 ++ y :: h3.
Proof.
  destruct h2 as [|z h2 _] using rev_ind.
  - intros E. apply app_inj_tail in E as [-> ->]. by left.
  - intros E. right. exists h2. rewrite app_comm_cons, app_assoc in E. apply app_inj_tail in E as [-> ->]. done.
Qed.
Lemma hist_snoc n h x : hist_ok n h -> good n h x -> hist_ok n (h ++ [x]).
Proof. intros H Hx h1 o h2 E. apply snoc_split in E as [(-> & -> & ->)|(h3 & -> & ->)]; [done|by eapply H]. Qed.
Lemma omap_snoc {B} (f : obs -> option B) (l : list obs) x : omap f (l ++ [x]) = omap f l ++ match f x with Some y => [y] | None => [] end.
Proof. rewrite omap_app. cbn. by destruct (f x). Qed.

(** at most one request of a direction is outstanding: [o] *)
Record Tok (call res : obs -> option nat) (o : option nat) (h : list obs) : Prop := {
  t_c : NoDup (omap call h); t_r : NoDup (omap res h); t_sub : forall k, k ∈ omap res h -> k ∈ omap call h;
  t_o : forall k, o = Some k <-> k ∈ omap call h /\ k ∉ omap res h }.
Lemma tok_other call res o h x : call x = None -> res x = None -> Tok call res o h -> Tok call res o (h ++ [x]).
Proof. intros Hc Hr [T1 T2 T3 T4]. split; rewrite !omap_snoc, ?Hc, ?Hr, ?app_nil_r; try done; intros k; rewrite ?omap_snoc, ?Hc, ?Hr, ?app_nil_r; auto. Qed.
Lemma tok_call call res h x k : call x = Some k -> res x = None -> k ∉ omap call h -> Tok call res None h -> Tok call res (Some k) (h ++ [x]).
Proof.
  intros Hc Hr Hk [T1 T2 T3 T4]. split.
  - rewrite omap_snoc, Hc. apply NoDup_app. split_and!; [done| |apply NoDup_singleton]. intros y Hy Hy'%elem_of_list_singleton. by subst.
  - by rewrite omap_snoc, Hr, app_nil_r.
  - intros j. rewrite !omap_snoc, Hc, Hr, app_nil_r. intros Hj. apply elem_of_app. left. by apply T3.
  - intros j. rewrite !omap_snoc, Hc, Hr, app_nil_r. split.
    + intros [= <-]. split; [apply elem_of_app; right; by apply elem_of_list_singleton|]. intros Hj. by apply Hk, T3.
    + intros [Hj Hn]. apply elem_of_app in Hj as [Hj|Hj%elem_of_list_singleton]; [|by subst]. assert (None = Some j) by (by apply T4). done.
Qed.
Lemma tok_res call res h x k : call x = None -> res x = Some k -> Tok call res (Some k) h -> Tok call res None (h ++ [x]).
Proof.
  intros Hc Hr [T1 T2 T3 T4]. destruct (T4 k) as [T5 _]. specialize (T5 eq_refl) as [Hk Hk']. split.
  - by rewrite omap_snoc, Hc, app_nil_r.
  - rewrite omap_snoc, Hr. apply NoDup_app. split_and!; [done| |apply NoDup_singleton]. intros y Hy Hy'%elem_of_list_singleton. by subst.
  - intros j. rewrite !omap_snoc, Hc, Hr, app_nil_r. intros [Hj|Hj%elem_of_list_singleton]%elem_of_app; [by apply T3|by subst].
  - intros j. rewrite !omap_snoc, Hc, Hr, app_nil_r. split; [done|]. intros [Hj Hn]. exfalso. apply Hn, elem_of_app.
    destruct (decide (j ∈ omap res h)) as [|Hj']; [by left|]. right. apply elem_of_list_singleton.
    assert (Some k = Some j) as [=->] by (by apply T4). done.
Qed.
Lemma tok_some call res k h : Tok call res (Some k) h -> k ∈ omap call h /\ k ∉ omap res h.
Proof. intros T. by apply (t_o _ _ _ _ T). Qed.

Section inv.
Context (n : nat).

Definition CR (b : buf) (h : list obs) : Prop := exists q bss, R b q bss /\ tidy_st true b bss /\ csize b = n /\ recvd h = eaten h ++ q.
Definition CW (b : buf) (h : list obs) : Prop := exists q bss, R b q bss /\ [] ∉ bss /\ csize b = n /\ gen h = sent h ++ q.
Definition RWin (r : rst) (b : buf) : Prop :=
  match r with
  | RSock w len => exists pre l preb x, R b [] (preb ++ [x]) /\ [] ∉ preb /\ ch b = pre ++ [l] /\ wh b = Some w /\ w = (cid l, cused l)
                   /\ length (cmem l) = csize b /\ len = (csize b - cused l)%nat /\ (1 <= len)%nat
  | _ => True
  end.
Definition WIov (w : wst) (b : buf) (h : list obs) : Prop :=
  match w with
  | WSock v => exists l rest, Forall2 (iov_ok b) v l /\ gen h = sent h ++ concat l ++ rest /\ concat l <> []
  | _ => True
  end.
Definition WAcc (w : wst) (got : Z) (k0 : nat) (h : list obs) : Prop :=
  match w with
  | WNone => True
  | WReady k b => exists ha hb, h = ha ++ Acc k got :: hb /\ gen ha `prefix_of` sent h /\ (b = false -> got = 0)
  | WSock _ => exists ha hb, h = ha ++ Acc k0 got :: hb
  end.
Definition ks_lt (m : nat) (h : list obs) : Prop := forall k, k ∈ omap callw h \/ k ∈ omap callr h -> (k < m)%nat.
Record Full (ro wo : option nat) (s : st) : Prop := {
  f_r : CR (rb s) (hist s); f_w : CW (wb s) (hist s); f_s : rshut s = true <-> ended (hist s); f_h : hist_ok n (hist s);
  f_rw : RWin (rd s) (rb s); f_wi : WIov (wr s) (wb s) (hist s); f_wa : WAcc (wr s) (wgot s) (wbio s) (hist s);
  f_tr : Tok callr resr ro (hist s); f_tw : Tok callw resw wo (hist s); f_k : ks_lt (next s) (hist s) }.

(** observations that move no bytes *)
Definition silent (x : obs) : Prop := match x with Gen _ | Eat _ _ | Sent _ | Recv _ | RecvEnd _ => False | _ => True end.
Lemma silent_flat x h : silent x -> gen (h ++ [x]) = gen h /\ sent (h ++ [x]) = sent h /\ recvd (h ++ [x]) = recvd h /\ eaten (h ++ [x]) = eaten h /\ (ended (h ++ [x]) <-> ended h).
Proof.
  intros Hx. unfold gen, sent, recvd, eaten. rewrite !flat_app, !flat_one.
  destruct x; cbn in Hx; try done; rewrite !app_nil_r; split_and!; try done; (split; intros [u Hu]; exists u; [apply elem_of_app in Hu as [Hu|Hu%elem_of_list_singleton]; done|apply elem_of_app; by left]).
Qed.
Definition neutral (x : obs) : Prop := callw x = None /\ resw x = None /\ callr x = None /\ resr x = None.
Lemma WAcc_log w got k h x : sent (h ++ [x]) = sent h \/ (exists t, sent (h ++ [x]) = sent h ++ t) -> WAcc w got k h -> WAcc w got k (h ++ [x]).
Proof.
  intros Hs. destruct w; cbn; [done| |].
  - intros (ha & hb & E & Hp & Hg). exists ha, (hb ++ [x]). split_and!; [by rewrite E, <- app_assoc| |done].
    destruct Hs as [->|[t ->]]; [done|]. by apply prefix_app_r.
  - intros (ha & hb & E). exists ha, (hb ++ [x]). by rewrite E, <- app_assoc.
Qed.
Lemma ks_log m h x : (forall k, callw x = Some k \/ callr x = Some k -> (k < m)%nat) -> ks_lt m h -> ks_lt m (h ++ [x]).
Proof.
  intros Hx H k. rewrite !omap_snoc. intros [Hk|Hk]; apply elem_of_app in Hk as [Hk|Hk]; [by apply H; left| |by apply H; right|].
  - apply Hx. destruct (callw x); [|set_solver]. apply elem_of_list_singleton in Hk as ->. by left.
  - apply Hx. destruct (callr x); [|set_solver]. apply elem_of_list_singleton in Hk as ->. by right.
Qed.
(** a silent observation; the tokens may change *)
Lemma full_log ro wo ro' wo' s x : silent x -> good n (hist s) x -> Full ro wo s ->
  Tok callr resr ro' (hist s ++ [x]) -> Tok callw resw wo' (hist s ++ [x]) ->
  (forall k, callw x = Some k \/ callr x = Some k -> (k < next s)%nat) -> Full ro' wo' (log s [x]).
Proof.
  intros Hs Hg [F1 F2 F3 F4 F5 F6 F7 F8 F9 F10] T1 T2 Hk. destruct (silent_flat x (hist s) Hs) as (E1 & E2 & E3 & E4 & E5).
  split; cbn; try done.
  - destruct F1 as (q & bss & ? & ? & ? & E). exists q, bss. by rewrite E3, E4.
  - destruct F2 as (q & bss & ? & ? & ? & E). exists q, bss. by rewrite E1, E2.
  - by rewrite E5.
  - by apply hist_snoc.
  - destruct (wr s); [done..|]. cbn in *. by rewrite E1, E2.
  - apply WAcc_log; [by left|done].
  - by apply ks_log.
Qed.
Lemma full_log0 ro wo s x : silent x -> neutral x -> good n (hist s) x -> Full ro wo s -> Full ro wo (log s [x]).
Proof.
  intros Hs (N1 & N2 & N3 & N4) Hg F. eapply full_log; try done.
  - apply tok_other; [done..|apply F].
  - apply tok_other; [done..|apply F].
  - intros k [?|?]; congruence.
Qed.
Lemma log_log s a b : log (log s a) b = log s (a ++ b).
Proof. unfold log. cbn. by rewrite app_assoc. Qed.

Lemma R_len (b : buf) q bss : R b q bss -> total b = Z.of_nat (length q).
Proof. by intros (_ & _ & _ & _ & H & _). Qed.
Lemma R_det (b : buf) q q' bss bss' : R b q bss -> R b q' bss' -> q' = [] -> q = [].
Proof. intros H1%R_len H2%R_len ->. cbn in H2. destruct q; [done|]. cbn in *. lia. Qed.

(** what an engine call leaves alone *)
Definition same (s s' : st) : Prop := rd s' = rd s /\ wr s' = wr s /\ rbio s' = rbio s /\ wbio s' = wbio s /\ wgot s' = wgot s /\ nbuf s' = nbuf s /\ stale s' = stale s /\ next s' = next s.
Lemma same_trans a b c : same a b -> same b c -> same a c.
Proof. unfold same. intros; destruct_and!. split_and!; congruence. Qed.

Lemma bio_write_ok ro wo s bs : Full ro wo s -> exists s', bio_write s bs = Some s' /\ Full ro wo s' /\ same s s' /\ (bs = [] -> total (wb s') = total (wb s)) /\ exists o, hist s' = hist s ++ o.
Proof.
  intros [F1 F2 F3 F4 F5 F6 F7 F8 F9 F10]. unfold bio_write. destruct F2 as (q & bss & HR & Hb & Hn & Hg).
  destruct (write_str_ok (length bs) (wb s) q bss bs ltac:(lia) HR) as (b' & bss' & E & HR' & Hc & H0 & H1). rewrite E. cbn.
  eexists. split; [reflexivity|]. cbn.
  assert (Hst : stable (wb s) b') by (eapply write_str_stable; [|exact HR|exact E]; lia).
  assert (Egen : forall h, gen (h ++ [Gen bs]) = gen h ++ bs) by (intros h; unfold gen; by rewrite flat_app, flat_one).
  assert (Esent : forall h, sent (h ++ [Gen bs]) = sent h) by (intros h; unfold sent; by rewrite flat_app, flat_one, app_nil_r).
  split_and!; [split; cbn; try done|by split_and!| |by eexists].
  - destruct F1 as (q1 & bss1 & ? & ? & ? & E1). exists q1, bss1. split_and!; try done.
    unfold recvd, eaten in *. by rewrite !flat_app, !flat_one, !app_nil_r.
  - exists (q ++ bs), bss'. split_and!; try done; [|congruence|by rewrite Egen, Esent, Hg, app_assoc].
    destruct bs as [|x bs]; [by destruct (H0 eq_refl) as [_ ->]|]. apply H1; [done|]. apply (tidy_st_all true). done.
  - rewrite F3. split; intros [u Hu]; exists u; [apply elem_of_app; by left|]. apply elem_of_app in Hu as [Hu|Hu%elem_of_list_singleton]; done.
  - apply hist_snoc; [done|]. done.
  - destruct (wr s); [done..|]. cbn in *. destruct F6 as (l & rest & HF & El & Hl). exists l, (rest ++ bs). split_and!; [|by rewrite Egen, Esent, El, <- !app_assoc|done].
    eapply Forall2_impl; [exact HF|]. intros. by eapply iov_stable.
  - apply WAcc_log; [left; apply Esent|done].
  - by apply tok_other.
  - by apply tok_other.
  - apply ks_log; [|done]. by intros k [?|?].
  - intros ->. destruct (H0 eq_refl) as [-> _]. done.
Qed.
Lemma bio_read_ok ro wo s m : Full ro wo s -> exists s', bio_read s m = Some s' /\ Full ro wo s' /\ same s s' /\ total (wb s') = total (wb s) /\ exists o, hist s' = hist s ++ o.
Proof.
  intros F. pose proof F as [F1 F2 F3 F4 F5 F6 F7 F8 F9 F10]. unfold bio_read. destruct F1 as (q & bss & HR & Hb & Hn & Hg).
  destruct (read_ok m (rb s) q bss m [] ltac:(lia) HR ltac:(done)) as (b' & bss' & bs & E & HR' & Hc & Hbs & Hl & (pb & Hpb) & Hw & Hex).
  assert (bs = take m q) as Hex' by (apply Hex; intros h t; apply Hb). clear Hex.
  assert (RWin (rd s) b') as Hrw.
  { destruct (rd s) as [| |w len]; [done..|]. destruct F5 as (pre & l & preb & x & HR0 & Hrest).
    rewrite (read_nil (rb s) (preb ++ [x]) m HR0) in E. cbn in E. injection E as <- <-. by exists pre, l, preb, x. }
  rewrite E. cbn [mbind option_bind app]. 
  eexists. split; [reflexivity|]. split; [|split; [by split_and!|split; [done|by eexists]]].
  assert (tidy_st true b' bss') as Ht.
  { eapply tidy_suffix; [|exact Hw]. rewrite <- Hpb. exact Hb. }
  destruct bs as [|b0 bs0] eqn:Ebs.
  - (* nothing to read *)
    set (x := if rshut s then Eof m else Retry m).
    assert (silent x /\ neutral x /\ good n (hist s) x) as (X1 & X2 & X3).
    { unfold x. assert (m = 0%nat \/ recvd (hist s) = eaten (hist s)) as Hm.
      { destruct m; [by left|]. right. destruct q; [by rewrite Hg, app_nil_r|done]. }
      destruct (rshut s) eqn:Es; split_and!; try done; cbn.
      - split; [by apply F3|done].
      - destruct Hm as [->|Hm]; [by left|right]. split; [done|]. intros He%F3. congruence. }
    apply full_log0; try done. split; cbn; try done. exists q, bss'. split_and!; try done; congruence.
  - cbn [rb wb rshut rd wr rbio wbio wgot nbuf stale next hist set_rb log]. set (bs1 := b0 :: bs0) in *. assert (bs1 <> []) as Hne1 by done. clearbody bs1. subst bs. rename bs1 into bs.
    assert (Hq : q = bs ++ drop (length bs) q) by (rewrite Hbs at 1; by rewrite take_drop).
    assert (Ee : eaten (hist s ++ [Eat m bs]) = eaten (hist s) ++ bs) by (unfold eaten; by rewrite flat_app, flat_one).
    assert (Er : recvd (hist s ++ [Eat m bs]) = recvd (hist s)) by (unfold recvd; by rewrite flat_app, flat_one, app_nil_r).
    assert (gen (hist s ++ [Eat m bs]) = gen (hist s) /\ sent (hist s ++ [Eat m bs]) = sent (hist s)) as [Eg Es] by (unfold gen, sent; by rewrite !flat_app, !flat_one, !app_nil_r).
    split; cbn; try done.
    + exists (drop (length bs) q), bss'. split_and!; try done; [congruence|]. rewrite Ee, Er, Hg. rewrite <- app_assoc. f_equal. done.
    + destruct F2 as (q2 & bss2 & ? & ? & ? & E2). exists q2, bss2. by rewrite Eg, Es.
    + rewrite F3. split; intros [u Hu]; exists u; [apply elem_of_app; by left|]. apply elem_of_app in Hu as [Hu|Hu%elem_of_list_singleton]; done.
    + apply hist_snoc; [done|]. cbn. split_and!; [done|exact Hl|]. exists (drop (length bs) q). split; [rewrite Hg; f_equal; done|].
      destruct (decide (length bs = m)) as [|Hne]; [by left|right]. assert (length q <= m)%nat as Hle.
      { apply (f_equal length) in Hex'. rewrite take_length in Hex'. lia. }
      rewrite take_ge in Hex' by done. rewrite Hex'. by rewrite drop_all.
    + destruct (wr s); [done..|]. cbn in *. by rewrite Eg, Es.
    + apply WAcc_log; [by left|done].
    + by apply tok_other.
    + by apply tok_other.
    + apply ks_log; [|done]. by intros k [?|?].
Qed.
Definition quiet (p : list bop) : bool := forallb (λ o, match o with BWr (_ :: _) => false | _ => true end) p.
Lemma engine_ok ro wo p : forall s, Full ro wo s -> exists s', engine s p = Some s' /\ Full ro wo s' /\ same s s' /\
  (quiet p = true -> total (wb s') = total (wb s)) /\ exists o, hist s' = hist s ++ o.
Proof.
  induction p as [|[m|bs] p IH]; intros s F; cbn [engine].
  - exists s. split_and!; try done. exists []. by rewrite app_nil_r.
  - destruct (bio_read_ok ro wo s m F) as (s1 & -> & F1 & S1 & Q1 & o1 & H1). cbn [mbind option_bind].
    destruct (IH s1 F1) as (s2 & E2 & F2 & S2 & Q2 & o2 & H2). exists s2. split_and!; try done; [by eapply same_trans| |].
    + cbn. intros Hq. by rewrite Q2, Q1.
    + exists (o1 ++ o2). by rewrite H2, H1, app_assoc.
  - destruct (bio_write_ok ro wo s bs F) as (s1 & -> & F1 & S1 & Q1 & o1 & H1). cbn [mbind option_bind].
    destruct (IH s1 F1) as (s2 & E2 & F2 & S2 & Q2 & o2 & H2). exists s2. split_and!; try done; [by eapply same_trans| |].
    + cbn. destruct bs; [|done]. cbn. intros Hq. by rewrite Q2, Q1.
    + exists (o1 ++ o2). by rewrite H2, H1, app_assoc.
Qed.

Definition rk (s : st) : option nat := match rd s with RNone => None | RReady k _ => Some k | RSock _ _ => Some (rbio s).1 end.
Definition wk (s : st) : option nat := match wr s with WNone => None | WReady k _ => Some k | WSock _ => Some (wbio s) end.
Definition rnum (s : st) : nat := match rd s with RSock _ _ => 1 | _ => 0 end.
Definition wnum (s : st) : nat := match wr s with WSock _ => 1 | _ => 0 end.
Record Inv (s : st) : Prop := { i_f : Full (rk s) (wk s) s; i_nb : nbuf s = (rnum s + wnum s)%nat }.

(** what the read functions leave alone *)
Definition wsame (s s' : st) : Prop := wr s' = wr s /\ wbio s' = wbio s /\ wgot s' = wgot s /\ stale s' = stale s /\ next s' = next s.
Lemma ssl_read_ok wo s k b : Full (Some k) wo s -> rd s = RNone -> exists s', ssl_read s k b = Some s' /\ Full (Some k) wo s' /\
  rk s' = Some k /\ wsame s s' /\ nbuf s' = (nbuf s + rnum s')%nat /\ wb s' = wb s /\ hist s' = hist s.
Proof.
  intros F Hrd. pose proof F as [F1 F2 F3 F4 F5 F6 F7 F8 F9 F10]. unfold ssl_read. cbn. destruct (decide _) as [Hp|Hp].
  - rewrite Hrd. cbn. eexists. split; [reflexivity|]. split_and!; done.
  - destruct F1 as (q & bss & HR & Ht & Hn & Hg). assert (q = []) as ->.
    { apply R_len in HR. unfold pending in Hp. destruct q; [done|]. cbn in *. lia. }
    destruct (gwb_ok (rb s) [] bss HR) as (b1 & l & pre & x & preb & Eg & Hu & Ecs & HR1 & Ec & Ewh & Hm & Hb & Hbb).
    rewrite Eg. cbn. eexists. split; [reflexivity|]. split_and!; try done; [|unfold rnum; cbn; lia].
    specialize (Hbb (proj1 Ht)). split; cbn; try done.
    + exists [], (preb ++ [x]). split_and!; try done; [|congruence]. split; [|done]. split; [|by rewrite Ewh].
      intros h t Eht Htn Hin. destruct (exists_last Htn) as (t' & y & ->). rewrite app_assoc in Eht. apply app_inj_tail in Eht as [-> _].
      apply Hbb, elem_of_app. by left.
    + exists pre, l, preb, x. rewrite Ecs. split_and!; try done; lia.
Qed.
Lemma event_read_ok wo s k b p v again : Full (Some k) wo s -> rd s = RNone -> exists s', event_read s k b p v again = Some s' /\
  Full (rk s') wo s' /\ wsame s s' /\ nbuf s' = (nbuf s + rnum s')%nat /\ (quiet p = true -> total (wb s') = total (wb s)).
Proof.
  assert (Res : forall s v, Full (Some k) wo s -> rd s = RNone -> Full None wo (log s [Took k v; ResR k v])).
  { intros s0 v0 F Hrd. change (log s0 [Took k v0; ResR k v0]) with (log s0 ([Took k v0] ++ [ResR k v0])). rewrite <- log_log.
    assert (Full (Some k) wo (log s0 [Took k v0])) as F1 by (by apply full_log0).
    eapply full_log; try done.
    - cbn. destruct (tok_some _ _ _ _ (f_tr _ _ _ F1)) as [T1 T2]. split_and!; try done. by eexists.
    - eapply tok_res; [done|done|apply F1].
    - apply tok_other; [done|done|apply F1].
    - by intros ? [?|?]. }
  intros F Hrd. unfold event_read. destruct b; cbn [negb]; cycle 1.
  { eexists. split; [reflexivity|]. assert (rk (log s [Took k 0; ResR k 0]) = None) as -> by (unfold rk; cbn; by rewrite Hrd).
    split_and!; [by apply Res|by split_and!|unfold rnum; cbn; rewrite Hrd; lia|done]. }
  destruct (engine_ok (Some k) wo p s F) as (s1 & -> & F1 & S1 & Q1 & o1 & H1). cbn [mbind option_bind]. cbv zeta.
  assert (rd s1 = RNone) as Hrd1 by (destruct S1 as [-> _]; done).
  assert (wsame s s1 /\ nbuf s1 = nbuf s) as [W1 N1] by (unfold same in S1; destruct_and!; by split_and!).
  assert (forall s2, s2 = log s1 [Took k v; ResR k v] -> Full (rk s2) wo s2 /\ wsame s s2 /\ nbuf s2 = (nbuf s + rnum s2)%nat /\ (quiet p = true -> total (wb s2) = total (wb s))) as G.
  { intros s2 ->. assert (rk (log s1 [Took k v; ResR k v]) = None) as -> by (unfold rk; cbn; by rewrite Hrd1).
    split_and!; [by apply Res|done|unfold rnum; cbn; rewrite Hrd1; lia|done]. }
  destruct (decide _) as [Hv|Hv]; [eexists; split; [rewrite log_log; reflexivity|by apply G]|].
  destruct again; [|eexists; split; [rewrite log_log; reflexivity|by apply G]].
  assert (Full (Some k) wo (log s1 [Took k v])) as F2 by (by apply full_log0).
  destruct (ssl_read_ok wo _ k true F2 Hrd1) as (s3 & -> & F3 & K3 & W3 & N3 & B3 & _). exists s3. rewrite K3. split_and!; try done.
  - unfold wsame in *. cbn in W3. destruct_and!. split_and!; congruence.
  - cbn in N3. lia.
  - cbn in B3. rewrite B3. done.
Qed.

Lemma tok_w_none o s : Full o None s -> forall k, k ∉ omap callw (hist s) \/ k ∈ omap resw (hist s).
Proof.
  intros F k. destruct (decide (k ∈ omap callw (hist s))) as [H|H]; [|by left]. right.
  destruct (decide (k ∈ omap resw (hist s))) as [|Hn]; [done|]. assert (None = Some k) by (by apply (t_o _ _ _ _ (f_tw _ _ _ F))). done.
Qed.
Lemma ssl_write_ok ro s k b p v : Full ro (Some k) s -> wr s = WNone -> nbuf s = rnum s -> exists s', ssl_write s k b p v = Some s' /\
  Full ro (Some k) s' /\ wk s' = Some k /\ rd s' = rd s /\ rbio s' = rbio s /\ nbuf s' = (rnum s' + wnum s')%nat /\ stale s' = stale s /\
  (forall j, wr s' = WReady j true -> pending (wb s') <= 0) /\ next s' = next s.
Proof.
  intros F Hwr Hnb. unfold ssl_write.
  assert (exists s1, (if b then s ← engine s p; Some (set_wgot s v) else Some (set_wgot s 0)) = Some s1 /\ Full ro (Some k) s1 /\ wr s1 = WNone /\
    rd s1 = rd s /\ rbio s1 = rbio s /\ nbuf s1 = nbuf s /\ stale s1 = stale s /\ next s1 = next s /\ (b = false -> wgot s1 = 0)) as (s1 & -> & F1 & W1 & D1 & B1 & N1 & St1 & K1 & G1).
  { destruct b.
    - destruct (engine_ok ro (Some k) p s F) as (s1 & -> & F1 & S1 & _). cbn. eexists. split; [reflexivity|]. unfold same in S1. destruct_and!.
      split_and!; cbn; try done; [|congruence]. destruct F1. split; cbn; try done. cbn in *. assert (wr s1 = WNone) as -> by congruence. done.
    - eexists. split; [reflexivity|]. split_and!; cbn; try done. destruct F. split; cbn; try done. by rewrite Hwr. }
  cbn [mbind option_bind]. cbv zeta. set (s2 := log s1 [Acc k (wgot s1)]).
  assert (Full ro (Some k) s2) as F2 by (by apply full_log0). assert (wr s2 = WNone) as W2 by done.
  assert (Ex: exists ha hb, hist s2 = ha ++ Acc k (wgot s2) :: hb /\ ha = hist s1) by (by eexists _, []).
  assert (Egen : gen (hist s2) = gen (hist s1)) by (unfold s2; cbn [hist log]; unfold gen; by rewrite flat_app, flat_one, app_nil_r).
  assert (rnum s2 = rnum s) as Rn by (unfold rnum, s2; cbn; by rewrite D1).
  pose proof F2 as [H1 H2 H3 H4 H5 H6 H7 H8 H9 H10].
  assert (forall s', Full ro (Some k) s' -> True) as _ by done.
  destruct (decide _) as [Hp|Hp].
  - eexists. split; [reflexivity|]. split_and!; try done; try (unfold rnum, wnum; cbn; rewrite ?D1, ?W1; fold (rnum s); lia).
    split; cbn; try done. destruct Ex as (ha & hb & Eh & ->). exists (hist s1), hb. split_and!; [done| |done].
    destruct H2 as (q & bss & HR & _ & _ & Hg). assert (q = []) as -> by (apply R_len in HR; unfold pending in Hp; destruct q; [done|]; cbn in *; lia).
    rewrite app_nil_r in Hg. change (gen (hist s1) `prefix_of` sent (hist s2)). rewrite <- Hg, Egen. done.
  - destruct H2 as (q & bss & HR & Hb & Hcs & Hg). assert (q <> []) as Hq by (intros ->; apply R_len in HR; unfold pending in Hp; cbn in *; lia).
    destruct (read_iovs_ok (wb s2) q bss 62 HR Hq Hb) as (iv & l & Ei & HF & [rest Hpre] & Hne).
    change (wb (set_wbio s2 k)) with (wb s2). unfold iov_count. rewrite Ei. cbn [mbind option_bind].
    eexists. split; [reflexivity|]. split_and!; try done; try (unfold rnum, wnum; cbn; rewrite ?D1, ?W1; fold (rnum s); lia).
    split; cbn; try done.
    + by exists q, bss.
    + exists l, rest. split_and!; try done. cbn in Hg. rewrite Hg, Hpre. done.
    + destruct Ex as (ha & hb & Eh & _). by exists ha, hb.
Qed.

(** no failed assertion is ahead *)
Definition Quiet (s : st) : Prop := stale s = false /\ forall k, wr s = WReady k true -> pending (wb s) <= 0.
(** the engine writes nothing while a write that produced no ciphertext is queued, and no error event comes then *)
Definition calm (s : st) (e : ev) : bool :=
  match wr s with
  | WReady _ b => match e with
                  | Eng p | SockR _ p _ _ | RunR p _ _ => negb b || quiet p
                  | RunWErr => false
                  | _ => true
                  end
  | _ => true
  end.
Lemma resw_good s k v : Full (rk s) (Some k) s -> (v <= 0 /\ (exists h0, hist s = h0 ++ [SendFail v]) \/ exists ha hb, hist s = ha ++ Acc k v :: hb /\ gen ha `prefix_of` sent (hist s)) ->
  good n (hist s) (ResW k v).
Proof. intros F H. destruct (tok_some _ _ _ _ (f_tw _ _ _ F)) as [T1 T2]. by split_and!. Qed.
Lemma full_res s k v : Full (rk s) (Some k) s -> wr s = WNone -> good n (hist s) (ResW k v) -> Full (rk (log s [ResW k v])) (wk (log s [ResW k v])) (log s [ResW k v]).
Proof.
  intros F Hwr Hg. change (rk (log s [ResW k v])) with (rk s). assert (wk (log s [ResW k v]) = None) as -> by (unfold wk; cbn; by rewrite Hwr).
  eapply full_log; try done.
  - apply tok_other; [done|done|apply F].
  - eapply tok_res; [done|done|apply F].
  - by intros ? [?|?].
Qed.
Lemma gen_pre ha (x : obs) hb : gen ha `prefix_of` gen (ha ++ x :: hb).
Proof. unfold gen. rewrite flat_app. by eexists. Qed.
Lemma full_setr ro wo s r : Full ro wo s -> RWin r (rb s) -> Full ro wo (set_rd s r).
Proof. intros [] ?. by split. Qed.
Lemma full_setw ro wo s : Full ro wo s -> Full ro wo (set_wr s WNone).
Proof. intros []. by split. Qed.
Lemma full_nbuf ro wo s x : Full ro wo s -> Full ro wo (set_nbuf s x).
Proof. intros []. by split. Qed.
Lemma full_stale ro wo s x : Full ro wo s -> Full ro wo (set_stale s x).
Proof. intros []. by split. Qed.

Definition may_crash (e : ev) : Prop := match e with UWrite _ _ _ | RunW => True | _ => False end.
Lemma step_all s e : Inv s -> match step s e with Ok s' _ => Inv s' /\ (Quiet s -> calm s e = true -> Quiet s') | Crash => ~ Quiet s /\ may_crash e | Disabled => True end.
Proof.
  intros [F Nb]. destruct e as [b pend|b p v|p|c p v again|c| |p v again| |]; cbn [step].
  - (* URead *)
    destruct (rd s) eqn:Hrd; [|done..]. assert (rk s = None) as Hrk by (unfold rk; by rewrite Hrd). rewrite Hrk in F.
    set (k := next s). set (s1 := log (set_nxt s (S k)) [CallR k]).
    assert (Full (Some k) (wk s) s1) as F1.
    { eapply (full_log _ (wk s) _ _ (set_nxt s (S k))); try done.
      - destruct F as [F1 F2 F3 F4 F5 F6 F7 F8 F9 F10]. split; cbn; try done. intros j Hj. specialize (F10 j Hj). unfold k. lia.
      - cbn. eapply tok_call; [done|done| |apply F]. intros Hk. assert (k < next s)%nat by (apply (f_k _ _ _ F); by right). unfold k in *. lia.
      - cbn. apply tok_other; [done|done|apply F].
      - cbn. intros j [[=]|[= <-]]. lia. }
    destruct pend.
    + split; [|done]. split; [|unfold rnum, wnum in *; cbn; rewrite Hrd in Nb; done].
      assert (rk (set_rd s1 (RReady k b)) = Some k) as -> by done. change (wk (set_rd s1 (RReady k b))) with (wk s). by apply full_setr.
    + destruct (ssl_read_ok (wk s) s1 k b F1 Hrd) as (s2 & -> & F2 & K2 & (W1 & W2 & W3 & W4 & W5) & N2 & B2 & H2). cbn [opt].
      cbn in W1, W2, W3, W4, W5, N2, B2. split.
      * split; [|unfold rnum, wnum in *; rewrite W1; rewrite Hrd in Nb; lia]. rewrite K2. unfold wk in *. by rewrite W1, W2.
      * intros [Q1 Q2] _. split; [congruence|]. intros j Hj. rewrite B2. apply (Q2 j). congruence.
  - (* UWrite *)
    destruct (wr s) eqn:Hwr; [|done..]. assert (wk s = None) as Hwk by (unfold wk; by rewrite Hwr). rewrite Hwk in F.
    destruct (stale s) eqn:Hst; [split; [|done]; intros [Q1 _]; congruence|].
    set (k := next s). set (s1 := log (set_nxt s (S k)) [CallW k]).
    assert (Full (rk s) (Some k) s1) as F1.
    { eapply (full_log (rk s) None _ _ (set_nxt s (S k))); try done.
      - destruct F as [F1 F2 F3 F4 F5 F6 F7 F8 F9 F10]. split; cbn; try done. intros j Hj. specialize (F10 j Hj). unfold k. lia.
      - cbn. apply tok_other; [done|done|apply F].
      - cbn. eapply tok_call; [done|done| |apply F]. intros Hk. assert (k < next s)%nat by (apply (f_k _ _ _ F); by left). unfold k in *. lia.
      - cbn. intros j [[= <-]|[=]]. lia. }
    destruct (ssl_write_ok (rk s) s1 k b p v F1 Hwr) as (s2 & -> & F2 & K2 & D2 & B2 & N2 & S2 & Q2 & _).
    { cbn. rewrite Nb. unfold rnum, wnum. cbn. rewrite Hwr. lia. }
    cbn [opt]. split.
    + split; [|done]. rewrite K2. unfold rk in *. by rewrite D2, B2.
    + intros [Q1 _] _. split; [rewrite S2; exact Hst|done].
  - (* Eng *)
    destruct (engine_ok _ _ p s F) as (s1 & -> & F1 & (S1 & S2 & S3 & S4 & S5 & S6 & S7 & S8) & Q1 & _). cbn [opt]. split.
    + split; [|unfold rnum, wnum in *; by rewrite S1, S2, S6]. unfold rk, wk in *. by rewrite S1, S2, S3, S4.
    + intros [Qa Qb] Hc. split; [congruence|]. intros j Hj. rewrite S2 in Hj. unfold calm in Hc. rewrite Hj in Hc. cbn in Hc.
      unfold pending. rewrite Q1 by done. by apply (Qb j).
  - (* SockR *)
    destruct (rd s) as [| |w len] eqn:Hrd; [done..|]. assert (rk s = Some (rbio s).1) as Hrk by (unfold rk; by rewrite Hrd). rewrite Hrk in F.
    cbv zeta. set (s0 := set_nbuf (set_rd s RNone) (pred (nbuf s))).
    assert (forall s1, Full (Some (rbio s).1) (wk s) s1 -> rd s1 = RNone -> wsame s s1 -> nbuf s1 = pred (nbuf s) -> total (wb s1) = total (wb s) -> 
      match opt (event_read s1 (rbio s).1 (rbio s).2 p v again) with Ok s' _ => Inv s' /\ (Quiet s -> calm s (SockR c p v again) = true -> Quiet s') | Crash => ~ Quiet s /\ may_crash (SockR c p v again) | Disabled => True end) as G.
    { intros s1 F1 H1 (W1 & W2 & W3 & W4 & W5) H3 H4. destruct (event_read_ok (wk s) s1 (rbio s).1 (rbio s).2 p v again F1 H1) as (s2 & -> & F2 & (V1 & V2 & V3 & V4 & V5) & N2 & Q2). cbn [opt]. split.
      - split; [|rewrite N2, H3, Nb; unfold rnum, wnum; rewrite V1, W1, Hrd; cbn; lia].
        assert (wk s2 = wk s) as -> by (unfold wk; by rewrite V1, V2, W1, W2). done.
      - intros [Qa Qb] Hc. split; [congruence|]. intros j Hj. assert (wr s = WReady j true) as Hj' by congruence. unfold calm in Hc. rewrite Hj' in Hc. cbn in Hc.
        unfold pending. rewrite Q2 by done. rewrite H4. by apply (Qb j). }
    destruct c as [bs|r]; (destruct (decide _) as [Hd|]; [|done]).
    + pose proof F as [F1 F2 F3 F4 F5 F6 F7 F8 F9 F10]. rewrite Hrd in F5. destruct F5 as (pre & l & preb & x & HR & Hpb & Ec & Ewh & -> & Hm & Hlen & Hl1).
      destruct (fill_ok (rb s) [] preb x pre l bs HR Ec Ewh Hm) as (b1 & b2 & Ep & Ew & HR2 & Ecs & Hw2); [lia|].
      change (rb s0) with (rb s). rewrite Ep. cbn [mbind option_bind]. rewrite Ew. cbn [mbind option_bind].
      destruct F1 as (q & bss & HR0 & Ht & Hn & Hg). assert (q = []) as -> by (by eapply R_det).
      rewrite app_nil_r in Hg. apply G; try done.
      assert (Er : recvd (hist s ++ [Recv bs]) = recvd (hist s) ++ bs) by (unfold recvd; by rewrite flat_app, flat_one).
      assert (Ee : eaten (hist s ++ [Recv bs]) = eaten (hist s)) by (unfold eaten; by rewrite flat_app, flat_one, app_nil_r).
      assert (gen (hist s ++ [Recv bs]) = gen (hist s) /\ sent (hist s ++ [Recv bs]) = sent (hist s)) as [Eg Es] by (unfold gen, sent; by rewrite !flat_app, !flat_one, !app_nil_r).
      split; cbn; try done.
      * exists bs, (preb ++ [x ++ bs]). split_and!; try done; [|congruence|by rewrite Er, Ee, Hg]. apply tidy_st_all.
        intros [Hin|Hin%elem_of_list_singleton]%elem_of_app; [done|]. symmetry in Hin. apply app_eq_nil in Hin as [_ ->]. cbn in Hd. lia.
      * destruct F2 as (q2 & bss2 & ? & ? & ? & E2). exists q2, bss2. by rewrite Eg, Es.
      * rewrite F3. split; intros [u Hu]; exists u; [apply elem_of_app; by left|]. apply elem_of_app in Hu as [Hu|Hu%elem_of_list_singleton]; done.
      * apply hist_snoc; [done|]. cbn. split; [done|]. rewrite <- Hn. lia.
      * destruct (wr s); [done..|]. cbn in *. by rewrite Eg, Es.
      * apply WAcc_log; [by left|done].
      * by apply tok_other.
      * by apply tok_other.
      * apply ks_log; [|done]. by intros ? [?|?].
    + apply G; try done. pose proof F as [F1 F2 F3 F4 F5 F6 F7 F8 F9 F10].
      assert (gen (hist s ++ [RecvEnd r]) = gen (hist s) /\ sent (hist s ++ [RecvEnd r]) = sent (hist s)) as [Eg Es] by (unfold gen, sent; by rewrite !flat_app, !flat_one, !app_nil_r).
      assert (recvd (hist s ++ [RecvEnd r]) = recvd (hist s) /\ eaten (hist s ++ [RecvEnd r]) = eaten (hist s)) as [Er Ee] by (unfold recvd, eaten; by rewrite !flat_app, !flat_one, !app_nil_r).
      split; cbn; try done.
      * destruct F1 as (q2 & bss2 & ? & ? & ? & E2). exists q2, bss2. by rewrite Er, Ee.
      * destruct F2 as (q2 & bss2 & ? & ? & ? & E2). exists q2, bss2. by rewrite Eg, Es.
      * split; [|done]. intros _. exists r. apply elem_of_app. right. by apply elem_of_list_singleton.
      * by apply hist_snoc.
      * destruct (wr s); [done..|]. cbn in *. by rewrite Eg, Es.
      * apply WAcc_log; [by left|done].
      * by apply tok_other.
      * by apply tok_other.
      * apply ks_log; [|done]. by intros ? [?|?].
  - (* SockW *)
    destruct (wr s) as [| |iv] eqn:Hwr; [done..|]. assert (wk s = Some (wbio s)) as Hwk by (unfold wk; by rewrite Hwr). rewrite Hwk in F.
    cbv zeta. pose proof F as [F1 F2 F3 F4 F5 F6 F7 F8 F9 F10]. rewrite Hwr in F6, F7. destruct F6 as (l & rest & HF & Hg & Hne). destruct F7 as (ha & hb & Eh).
    destruct c as [m|r].
    + change (wb (set_wr s WNone)) with (wb s). rewrite (iovs_mapM _ _ _ HF). destruct (decide _) as [Hd|]; [|done].
      destruct F2 as (q & bss & HR & Hb & Hn & Hq). rewrite Hg in Hq. apply app_inv_head in Hq.
      assert (ch (wb s) <> []) as Hch by (eapply R_nil_ch; [exact HR|]; rewrite <- Hq; intros E; apply app_eq_nil in E as [E _]; done).
      destruct (read_success_ok (wb s) q bss m HR Hch) as (b1 & more & bss1 & E1 & HR1 & Hc1 & Hmore & (pb & Hpb) & _).
      { rewrite <- Hq, app_length. lia. }
      rewrite E1. cbn [mbind option_bind]. cbv zeta.
      assert (Hdq : drop m q = drop m (concat l) ++ rest) by (rewrite <- Hq, drop_app_le by lia; done).
      set (sn := Sent (take m (concat l))).
      assert (Eg : gen (hist s ++ [sn]) = gen (hist s)) by (unfold gen; by rewrite flat_app, flat_one, app_nil_r).
      assert (Es : sent (hist s ++ [sn]) = sent (hist s) ++ take m (concat l)) by (unfold sent; by rewrite flat_app, flat_one).
      assert (recvd (hist s ++ [sn]) = recvd (hist s) /\ eaten (hist s ++ [sn]) = eaten (hist s)) as [Er Ee] by (unfold recvd, eaten; by rewrite !flat_app, !flat_one, !app_nil_r).
      assert (Hgs : gen (hist s ++ [sn]) = sent (hist s ++ [sn]) ++ drop m q).
      { rewrite Eg, Es, Hg, Hdq, <- app_assoc. f_equal. rewrite (assoc_L (++)), take_drop. done. }
      assert ([] ∉ bss1) as Hb1 by (intros Hin; apply Hb; rewrite Hpb; apply elem_of_app; by right).
      set (s1 := log (set_wb (set_wr s WNone) b1) [sn]).
      assert (Full (rk s) (Some (wbio s)) s1) as FS.
      { split; cbn; try done.
        - destruct F1 as (q2 & bss2 & ? & ? & ? & E2). exists q2, bss2. by rewrite Er, Ee.
        - exists (drop m q), bss1. split_and!; try done. congruence.
        - rewrite F3. split; intros [u Hu]; exists u; [apply elem_of_app; by left|]. apply elem_of_app in Hu as [Hu|Hu%elem_of_list_singleton]; done.
        - apply hist_snoc; [done|]. cbn. split.
          + intros E. apply (f_equal length) in E. rewrite take_length in E. cbn in E. lia.
          + exists (drop m (concat l) ++ rest). rewrite Hg. f_equal. rewrite (assoc_L (++)), take_drop. done.
        - by apply tok_other.
        - by apply tok_other.
        - apply ks_log; [|done]. by intros ? [?|?]. }
      destruct more.
      * assert (drop m q <> []) as Hdn.
        { assert (ch b1 <> []) as Hcb by (by apply Hmore). intros E. rewrite E in HR1. destruct HR1 as (_ & _ & _ & HF1 & _ & [(? & _)|(off & h & l' & pre & Hh & _ & _ & Hz & Ho & _)]); [done|].
          destruct bss1 as [|y bss1]; [by apply Forall2_nil_inv_r in HF1|]. apply Forall2_cons_inv_r in HF1 as (c0 & cs & Hck & _ & Hcc). rewrite Hcc in Hh. cbn in Hh. injection Hh as ->.
          apply (f_equal length) in Hz. rewrite drop_length in Hz. cbn in Hz. rewrite app_length in Hz. destruct Hck as [Hck _].
          assert (y <> []) as Hy by (intros ->; apply Hb1; left). destruct y; [done|]. cbn in *. lia. }
        destruct (read_iovs_ok b1 (drop m q) bss1 62 HR1 Hdn Hb1) as (iv2 & l2 & Ei & HF2 & [rest2 Hpre2] & Hne2).
        change (wb s1) with b1. unfold iov_count. rewrite Ei. cbn [mbind option_bind opt]. split.
        -- split; [|unfold rnum, wnum in *; cbn; rewrite Hwr in Nb; done].
           change (rk (set_wr s1 (WSock iv2))) with (rk s). change (wk (set_wr s1 (WSock iv2))) with (Some (wbio s)).
           destruct FS as [G1 G2 G3 G4 G5 G6 G7 G8 G9 G10]. split; cbn; try done.
           ++ exists l2, rest2. split; [done|]. split; [|done]. change (gen (hist s ++ [sn]) = sent (hist s ++ [sn]) ++ concat l2 ++ rest2). rewrite Hgs, Hpre2. done.
           ++ exists ha, (hb ++ [sn]). by rewrite Eh, <- app_assoc.
        -- intros [Q1 Q2] _. split; [done|]. by intros ? [=].
      * assert (drop m q = []) as Hdn.
        { assert (ch b1 = []) as Hcb by (destruct (ch b1) eqn:E; [done|]; exfalso; assert (false = true) by (by apply Hmore); done).
          destruct HR1 as (_ & _ & _ & _ & _ & [(_ & _ & _ & _ & ?)|(off & h & l' & pre & Hh & _)]); [done|]. by rewrite Hcb in Hh. }
        cbn [opt]. split.
        -- split; [|unfold rnum, wnum in *; cbn; rewrite Hwr in Nb; rewrite Nb; lia].
           apply (full_res (set_nbuf s1 (pred (nbuf s1)))); [by apply full_nbuf|done|]. apply resw_good; [by apply full_nbuf|]. right.
           exists ha, (hb ++ [sn]). cbn. split; [by rewrite Eh, <- app_assoc|]. change (gen ha `prefix_of` sent (hist s ++ [sn])). rewrite Hdn, app_nil_r in Hgs. rewrite <- Hgs, Eg, Eh. apply gen_pre.
        -- intros [Q1 Q2] _. split; [done|]. by intros ? [=].
    + destruct (decide _) as [Hd|]; [|done]. split.
      * split; [|unfold rnum, wnum in *; cbn; rewrite Hwr in Nb; rewrite Nb; lia].
        change [SendFail r; ResW (wbio (set_wr s WNone)) r] with ([SendFail r] ++ [ResW (wbio s) r]). rewrite <- log_log.
        assert (Full (rk s) (Some (wbio s)) (log (set_nbuf (set_wr s WNone) (pred (nbuf (set_wr s WNone)))) [SendFail r])) as FS.
        { apply full_log0; [done|done|done|]. by apply full_nbuf, full_setw. }
        apply (full_res (log (set_nbuf (set_wr s WNone) (pred (nbuf (set_wr s WNone)))) [SendFail r])); [done|done|]. apply resw_good; [done|]. left. split; [done|]. by eexists.
      * intros [Q1 Q2] _. split; [done|]. by intros ? [=].
  - (* Timeout *)
    destruct (rd s) as [| |w len] eqn:Hrd; [done..|]. assert (rk s = Some (rbio s).1) as Hrk by (unfold rk; by rewrite Hrd). split; [|done].
    split; [|done]. change (rk (log s [TmoR (rbio s).1])) with (rk s). change (wk (log s [TmoR (rbio s).1])) with (wk s).
    apply full_log0; try done. rewrite Hrk in F. apply (tok_some _ _ _ _ (f_tr _ _ _ F)).
  - (* RunR *)
    destruct (rd s) as [|k b|] eqn:Hrd; [done| |done]. assert (rk s = Some k) as Hrk by (unfold rk; by rewrite Hrd). rewrite Hrk in F.
    assert (Full (Some k) (wk s) (set_rd s RNone)) as F1 by (by apply full_setr).
    destruct (event_read_ok (wk s) (set_rd s RNone) k b p v again F1 eq_refl) as (s2 & -> & F2 & (V1 & V2 & V3 & V4 & V5) & N2 & Q2). cbn [opt].
    cbn in V1, V2, V3, V4, V5, N2. split.
    + split; [|rewrite N2, Nb; unfold rnum, wnum; rewrite V1, Hrd; cbn; lia]. assert (wk s2 = wk s) as -> by (unfold wk; by rewrite V1, V2). done.
    + intros [Qa Qb] Hc. split; [congruence|]. intros j Hj. assert (wr s = WReady j true) as Hj' by congruence. unfold calm in Hc. rewrite Hj' in Hc. cbn in Hc.
      unfold pending. rewrite Q2 by done. by apply (Qb j).
  - (* RunW *)
    destruct (wr s) as [|k b|] eqn:Hwr; [done| |done]. assert (wk s = Some k) as Hwk by (unfold wk; by rewrite Hwr). rewrite Hwk in F.
    cbv zeta. pose proof (f_wa _ _ _ F) as Ha. rewrite Hwr in Ha. destruct Ha as (ha & hb & Eh & Hpre & Hb0).
    assert (forall v, v = wgot s -> Inv (log (set_wr s WNone) [ResW k v]) /\ (Quiet s -> calm s RunW = true -> Quiet (log (set_wr s WNone) [ResW k v]))) as G.
    { intros v ->. split.
      - split; [|unfold rnum, wnum in *; cbn; rewrite Hwr in Nb; done].
        apply (full_res (set_wr s WNone)); [by apply full_setw|done|]. apply resw_good; [by apply full_setw|]. right. by exists ha, hb.
      - intros [Q1 Q2] _. split; [done|]. by intros ? [=]. }
    destruct b; [|apply G; symmetry; by apply Hb0]. destruct (decide _) as [Hd|Hd]; [by apply G|]. split; [|done]. intros [_ Q]. apply Hd. apply (Q k). done.
  - (* RunWErr *)
    destruct (wr s) as [|k b|] eqn:Hwr; [done| |done]. assert (wk s = Some k) as Hwk by (unfold wk; by rewrite Hwr). rewrite Hwk in F. split.
    + split; [|unfold rnum, wnum in *; cbn; rewrite Hwr in Nb; done].
      change [SendFail (-1); ResW k (-1)] with ([SendFail (-1)] ++ [ResW k (-1)]). rewrite <- log_log.
      assert (Full (rk s) (Some k) (log (set_stale (set_wr s WNone) true) [SendFail (-1)])) as FS.
      { apply full_log0; [done|done|done|]. by apply full_stale, full_setw. }
      apply (full_res (log (set_stale (set_wr s WNone) true) [SendFail (-1)])); [done|done|]. apply resw_good; [done|]. left. split; [lia|]. by eexists.
    + intros _ Hc. unfold calm in Hc. by rewrite Hwr in Hc.
Qed.
Lemma init_inv : (1 <= n)%nat -> Inv (init n) /\ Quiet (init n).
Proof.
  intros Hn. split; [|by split]. split; [|done]. split; cbn; try done.
  - exists [], []. split_and!; try done; [by apply R_init|]. apply tidy_st_all. set_solver.
  - exists [], []. split_and!; try done; [by apply R_init|]. set_solver.
  - split; [done|]. intros [v Hv]. set_solver.
  - intros h1 o h2 E. by destruct h1.
  - split; cbn; try constructor; try done; intros; set_solver.
  - split; cbn; try constructor; try done; intros; set_solver.
  - intros k [Hk|Hk]; cbn in Hk; set_solver.
Qed.
End inv.
