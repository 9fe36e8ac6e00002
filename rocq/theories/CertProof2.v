(** Property C73: loading certificates and keys. *)
From stdpp Require Import gmap.
From Verif Require Import Count CertModel CertSpec CertProof.
Local Open Scope Z_scope.

(** the certificates of a text up to the first undecodable block *)
Fixpoint upto (t : list pem) : list Z :=
  match t with [] => [] | PCert c :: r => c :: upto r | PBad _ _ :: _ => [] | PKey _ _ :: r => upto r end.
Definition stops (ossl : bool) (t : list pem) : Prop := match bad_in t with [] => True | e :: _ => end_of_text ossl e = true end.
Lemma next_cert_spec t : match next_cert t with
  | [] => upto t = [] /\ bad_in t = []
  | PCert c :: r => upto t = c :: upto r /\ bad_in t = bad_in r /\ (length r < length t)%nat
  | PBad l e :: r => upto t = [] /\ bad_in t = (l, e) :: bad_in r
  | PKey _ _ :: _ => False
  end.
Proof.
  induction t as [|[c|k pw|l e] t IH]; cbn; try done; [|].
  - split_and!; try done. lia.
  - destruct (next_cert t) as [|[c'|k' pw'|l' e'] r]; try done. destruct IH as (H1 & H2 & H3). split_and!; try done. cbn. lia.
Qed.
Lemma upto_clean t : bad_in t = [] -> upto t = certs_in t.
Proof. induction t as [|[c|k pw|l e] t IH]; cbn; try done; intros H; f_equal; by apply IH. Qed.

Section p.
Context (fail : nat -> bool) (tty : list Z) (files : Z -> option (list pem * nat)) (match_ : Z -> Z -> bool).
(** no call fails *)
Definition calm : Prop := forall n, fail n = false.
Lemma t_coin' {A} (k : bool -> M A) s Q : (~ calm -> holds (k true) (bump s) Q) -> holds (k false) (bump s) Q -> holds (bind (coin fail) k) s Q.
Proof. intros H1 H2. apply holds_bind. unfold holds, coin. destruct (fail (tick s)) eqn:E; [|done]. apply H1. intros HC. by rewrite HC in E. Qed.
Lemma t_coin {A} (k : bool -> M A) s Q : holds (k true) (bump s) Q -> holds (k false) (bump s) Q -> holds (bind (coin fail) k) s Q.
Proof. intros H1 H2. apply holds_bind. unfold holds, coin. by destruct (fail (tick s)). Qed.
Lemma t_get b t s (Q : tmp -> st -> Prop) : tmps s !! b = Some t -> Q t s -> holds (get_tmp b) s Q.
Proof. intros H HQ. unfold holds, get_tmp. by rewrite H. Qed.
Lemma t_put b t t' s (Q : unit -> st -> Prop) : tmps s !! b = Some t -> Q tt (set_tmps (<[b := t']> (tmps s)) s) -> holds (put_tmp b t') s Q.
Proof. intros H HQ. unfold holds, put_tmp. by rewrite H. Qed.

(** what loading a certificate leaves alone *)
Record fr (s s' : st) : Prop := { fr_ks : ks s' = ks s; fr_kc : kc s' = kc s; fr_cx : cx s' = cx s; fr_nid : (nid s <= nid s')%nat; fr_xc : forall i, (i < nid s)%nat -> xc s' i = xc s i }.
Lemma fr_refl s : fr s s. Proof. by split. Qed.
Lemma fr_trans s1 s2 s3 : fr s1 s2 -> fr s2 s3 -> fr s1 s3.
Proof. intros [] []. split; try congruence; [lia|]. intros i Hi. rewrite fr_xc1 by lia. auto. Qed.
Ltac frs := split; pj; done.

Lemma t_read b all rem s L S K T : inv s L S K T -> tmps s !! b = Some (TBio all rem) ->
  holds (PEM_read_X509 fail b) s (λ r s', fr s s' /\ sts s' = sts s /\ match r with
    | Some x => inv s' (x :: L) S K T /\ (exists c r, next_cert rem = PCert c :: r /\ xc s' x = c /\ tmps s' !! b = Some (TBio all r)) /\ (nid s <= x)%nat
    | None => inv s' L S K T /\ is_Some (tmps s' !! b) /\ (next_cert rem = [] \/ (exists l e r, next_cert rem = PBad l e :: r /\ lerr s' = (l, e)) \/ lerr s' = (0, 65)%nat) /\
        (calm -> (next_cert rem = [] /\ lerr s' = (LIB_PEM, NO_START_LINE)) \/ exists l e r, next_cert rem = PBad l e :: r)
    end).
Proof.
  intros HI Hb. unfold PEM_read_X509. apply holds_bind. eapply t_get; [done|]. cbv beta iota. pose proof (next_cert_spec rem) as HN. destruct (next_cert rem) as [|[c|k pw|l e] r] eqn:EN; [| |done|].
  - apply holds_bind. eapply t_put; [done|]. cbv beta iota. apply holds_bind. cbv [error]. apply holds_ret. split; [frs|]. split; [done|]. split; [apply inv_err, inv_put_tmp; by eauto|].
    pj. split; [rewrite lookup_insert; eauto|]. split; [by left|]. intros _. by left.
  - apply holds_bind. eapply t_put; [done|]. cbv beta iota. apply t_coin'.
    + intros Hnc. apply holds_bind. cbv [error]. apply holds_ret. split; [frs|]. split; [done|]. split; [apply inv_err, inv_bump, inv_put_tmp; by eauto|]. pj.
      split; [rewrite lookup_insert; eauto|]. split; [by right; right|done].
    + apply holds_bind. unfold new_x. unfold holds at 1. apply holds_ret. split; [|].
      { split; pj; try done; [lia|]. intros i Hi. rewrite decide_False by lia. done. }
      split; [done|]. split; [|split].
      * apply (inv_new_x (bump (set_tmps (<[b:=TBio all r]> (tmps s)) s)) c). apply inv_bump, inv_put_tmp; by eauto.
      * exists c, r. split; [done|]. pj. split; [by rewrite decide_True|by rewrite lookup_insert].
      * pj. lia.
  - apply holds_bind. eapply t_put; [done|]. cbv beta iota. apply holds_bind. cbv [error]. apply holds_ret. split; [frs|]. split; [done|]. split; [apply inv_err, inv_put_tmp; by eauto|].
    pj. split; [rewrite lookup_insert; eauto|]. split; [right; left; eauto 10|]. intros _. right. eauto.
Qed.
Lemma t_push c x l s L S K T : inv s (x :: L) S K T -> sts s !! c = Some l ->
  holds (push fail c x) s (λ ok s', fr s s' /\ xc s' = xc s /\ tmps s' = tmps s /\
    if ok then inv s' L S K T /\ sts s' = <[c := l ++ [x]]> (sts s) else inv s' (x :: L) S K T /\ sts s' = sts s /\ ~ calm).
Proof.
  intros HI Hc. unfold push. apply t_coin'.
  - intros Hnc. apply holds_ret. split; [frs|]. split; [done|]. split; [done|]. split; [by apply inv_bump|done].
  - unfold holds. pj. rewrite Hc. split; [frs|]. split; [done|]. split; [done|]. split; [|done]. apply (inv_push (bump s) c l x); [by apply inv_bump|done].
Qed.
Definition lost (ossl : bool) (L : list nat) : Prop := if ossl then L = [] else (length L <= 1)%nat.
(** the error exit of the loop *)
Lemma t_fail_exit ossl b x c s s0 L0 L S K T : inv s (x :: L0 ++ L) (c :: S) K (b :: T) -> fr s0 s -> lost ossl L0 ->
  holds (free_tmp b ;;; X509_free (Some x) ;;; pop_free (Some c) ;;; ret false) s
    (λ ok s', ok = false /\ exists L1, lost ossl L1 /\ inv s' (L1 ++ L) S K T /\ fr s0 s').
Proof.
  intros HI HF HL. apply holds_bind. eapply holds_mono; [by apply t_free_tmp|]. intros _ s1 [H1 E1]. apply holds_bind.
  eapply holds_mono; [eapply (t_free_x (Some x)); [done|intros i; apply occ_oz]|]. intros _ s2 [H2 [h E2]]. apply holds_bind.
  eapply holds_mono; [by eapply (t_pop_free (Some c))|]. intros _ s3 [H3 (h' & m & E3 & _)]. apply holds_ret. split; [done|]. exists L0. split; [done|]. split; [done|].
  eapply fr_trans; [done|]. rewrite E3, E2, E1. frs.
Qed.
Lemma t_chain ossl fuel : forall b x c all rem l s L S K T, inv s (x :: L) (c :: S) K (b :: T) -> tmps s !! b = Some (TBio all rem) -> sts s !! c = Some l -> (length rem < fuel)%nat ->
  holds (chain_loop fail ossl fuel b x c) s (λ ok s', if ok then
      exists l', inv s' (x :: L) (c :: S) K (b :: T) /\ fr s s' /\ sts s' = <[c := l ++ l']> (sts s) /\ (xc s' <$> l') = upto rem /\ stops ossl rem
    else (exists L0, lost ossl L0 /\ inv s' (L0 ++ L) S K T /\ fr s s') /\ (calm -> bad_in rem <> [])).
Proof.
  induction fuel as [|fuel IH]; intros b x c all rem l s L S K T HI Hb Hc Hf; [lia|]. cbn [chain_loop].
  apply holds_bind. eapply holds_mono; [eapply t_read; [done|done]|]. intros [t|] s1 (F1 & E1 & H1).
  - destruct H1 as (H1 & (c1 & r & EN & X1 & B1) & Hx). pose proof (next_cert_spec rem) as HN. rewrite EN in HN. destruct HN as (U1 & U2 & U3).
    apply holds_bind. eapply holds_mono; [eapply (t_push c t l); [done|by rewrite E1]|]. intros ok s2 (F2 & X2 & T2 & H2). destruct ok.
    + destruct H2 as [H2 E2]. eapply holds_mono; [eapply (IH b x c all r (l ++ [t])); [done|by rewrite T2|by rewrite E2, lookup_insert|lia]|].
      intros [|] s3.
      * intros (l' & H3 & F3 & E3 & X3 & St). exists (t :: l'). split_and!; [done|by eapply fr_trans; [eapply fr_trans|]| | |].
        -- rewrite E3, E2, E1, insert_insert, <- app_assoc. done.
        -- rewrite U1. change (xc s3 <$> t :: l') with (xc s3 t :: (xc s3 <$> l')). f_equal; [|done]. pose proof (fr_nid _ _ F1).
           destruct F3 as [_ _ _ _ F3]. rewrite F3, X2; [done|]. destruct (inv_stack _ c _ _ _ _ H2) as [? ?]; [by left|].
           assert (Hpos : 0 < hget (xs s2) t).
           { destruct H2 as [[O _ _ _ _ _] _]. rewrite O. rewrite E2 in *. pose proof (summ_in (occ t) (<[c:=l ++ [t]]> (sts s1)) c (l ++ [t]) (λ l, occ_nonneg t l)) as HS. rewrite lookup_insert in HS.
             specialize (HS eq_refl). rewrite occ_app, occ_oz, oz_same in HS. pose proof (occ_nonneg t l). pose proof (occ_nonneg t []). pose proof (occ_nonneg t (x :: L)). pose proof (held_nonneg c_cert s2 t). lia. }
           destruct (decide (t < nid s2)%nat) as [|Hn]; [done|]. destruct H2 as [_ HF]. destruct (HF t) as (G & _); [lia|]. rewrite (hget_none _ _ G) in Hpos. lia.
        -- unfold stops in *. by rewrite U2.
      * intros ((L0 & HL0 & H3 & F3) & HC). rewrite U2. split; [|done]. exists L0. split_and!; [done|done|]. by eapply fr_trans; [eapply fr_trans|].
    + destruct H2 as (H2 & E2 & Hnc). apply holds_bind. destruct ossl.
      * eapply holds_mono; [eapply (t_free_x (Some t) s2 _ (x :: L)); [done|intros i; apply occ_oz]|]. intros _ s3 [H3 [h E3]].
        eapply holds_mono; [eapply (t_fail_exit true b x c s3 s [] L S K T); [done| |done]|].
        { eapply fr_trans; [eapply fr_trans; done|]. rewrite E3. frs. }
        intros ok s4 [-> (L1 & HL1 & H4 & F4)]. split; [by exists L1|done].
      * apply holds_ret. eapply holds_mono; [eapply (t_fail_exit false b x c s2 s [t] L S K T); [|by eapply fr_trans|cbn; lia]|].
        { destruct H2 as [[O1 O2 O3 O4 O5 O6] O7]. split; [split; try done|done]. intros i. rewrite O1. cbn [app]. rewrite !occ_oz. lia. }
        intros ok s4 [-> (L1 & HL1 & H4 & F4)]. split; [by exists L1|done].
  - destruct H1 as (H1 & HB & HR & HCa). apply holds_bind. unfold holds at 1. destruct (end_of_text ossl (lerr s1)) eqn:Hd.
    + apply holds_ret. exists []. rewrite app_nil_r. pose proof (next_cert_spec rem) as HN. split_and!; [done|done| | |].
      * rewrite E1. by rewrite insert_id.
      * destruct HR as [EN|[(l1 & e1 & r & EN & EE)|EE]]; [rewrite EN in HN; by destruct HN as [-> _]|rewrite EN in HN; by destruct HN as [-> _]|rewrite EE in Hd; discriminate Hd].
      * destruct HR as [EN|[(l1 & e1 & r & EN & EE)|EE]]; [| |rewrite EE in Hd; discriminate Hd]; rewrite EN in HN; destruct HN as [_ HN]; unfold stops; rewrite HN; [done|by rewrite <- EE].
    + eapply holds_mono; [eapply (t_fail_exit ossl b x c s1 s [] L S K T); [done|done|by destruct ossl; cbn; try lia]|].
      intros ok s4 [-> (L1 & HL1 & H4 & F4)]. split; [by exists L1|]. intros Hcm. pose proof (next_cert_spec rem) as HN. destruct (HCa Hcm) as [[EN E']|(l1 & e & r & EN)]; [rewrite E' in Hd; by destruct ossl|]. rewrite EN in HN.
      destruct HN as [_ ->]. done.
Qed.
End p.
