(** Histories on krw_buffer: every program is a byte queue; krw_insert; ks_buffer; seeks. *)
From Verif Require Import KbufSpec KbufProof.
From Coq Require Import ZifyBool ZifyNat.

Section run.
Context {B : Type}.
Implicit Types (s : krw B) (q : list B) (bss : list (list B)).

Lemma R_init n i : 1 <= n -> R (krw_init n i : krw B) [] [].
Proof. intros H. split_and!; cbn; try done; try constructor. split_and!; done. Qed.

Lemma R_nil_ch s q bss : R s q bss -> q <> [] -> ch s <> [].
Proof.
  intros (_ & _ & _ & _ & _ & [(_ & _ & _ & _ & Eq)|(? & ? & ? & ? & Eh & _)]) Hq; [done|]. by destruct (ch s).
Qed.

Definition tidy_st (e : bool) s bss : Prop := tidyS s bss /\ (e = false -> [] ∉ bss).
Lemma tidy_st_all e s bss : [] ∉ bss -> tidy_st e s bss.
Proof.
  intros H. split; [|done]. split; [|done]. intros h t E Ht Hin. apply H. set_solver.
Qed.
Lemma tidy_suffix e s s' pb bss' : tidy_st e s (pb ++ bss') -> (bss' = [] \/ wh s' = wh s) -> tidy_st e s' bss'.
Proof.
  intros [[H1 H2] H3] Hw. split; [split|].
  - intros h t E Ht Hin. apply (H1 (pb ++ h) t); [by rewrite E, (assoc_L (++))|done|set_solver].
  - intros E Hin. destruct Hw as [->|Hw]; [set_solver|]. rewrite Hw in E. apply (H2 E). set_solver.
  - intros E Hin. apply (H3 E). set_solver.
Qed.

Definition tidy1 (e : bool) (o : wop B) : option bool :=
  match o with
  | WriteStr bs => Some (if is_nil bs then e else false)
  | Fill bs => Some (is_nil bs)
  | Append bs => if e || is_nil bs then None else Some false
  | _ => Some e
  end.

Lemma wexec_ok s q bss o : R s q bss ->
  exists s' r q' bss', wexec s o = Some (s', r) /\ R s' q' bss' /\ fifo_step q o r q'
    /\ (forall e e', tidy_st e s bss -> tidy1 e o = Some e' -> tidy_st e' s' bss' /\
          match o, r with Read n, ORead bs => bs = take n q | _, _ => True end).
Proof.
  intros HR. destruct o as [bs|bs|bs|n|n|n]; cbn [wexec].
  - destruct (write_str_ok (length bs) s q bss bs ltac:(lia) HR) as (s' & bss' & E & HR' & _ & Hor1 & Hor2).
    rewrite E. cbn. eexists _, _, _, bss'. split; [reflexivity|]. split_and!; try done.
    intros e e' Ht He. cbn in He. simplify_eq He; intros <-. split; [|done].
    destruct bs as [|b bs]; cbn; [by destruct (Hor1 eq_refl) as [-> ->]|].
    apply tidy_st_all. apply Hor2; [done|apply Ht].
  - destruct (gwb_ok s q bss HR) as (s1 & l & pre & b & preb & Eg & Hu & Ecs & HR1 & Ec & Ewh & Hm & Hb & Hbb).
    rewrite Eg. cbn [mbind option_bind]. cbv zeta.
    set (len := Z.to_nat (Z.of_nat (csize s) - Z.of_nat (cused l))). set (d := take len bs).
    assert (Hd: length d <= len) by (unfold d; rewrite take_length; lia).
    destruct (fill_ok s1 q preb b pre l d HR1 Ec Ewh) as (s2 & s3 & Ep & Ews & HR3 & Ecs3 & Hwh3).
    { congruence. } { lia. }
    rewrite Ep. cbn [mbind option_bind]. rewrite Ews. cbn [mbind option_bind].
    eexists _, _, _, _. split; [reflexivity|]. split; [exact HR3|].
    assert (Hdn: bs <> [] -> 0 < length d).
    { intros Hn. unfold d. rewrite take_length. destruct bs; [done|]. cbn. lia. }
    split.
    + cbn. split_and!; [unfold d; rewrite take_length; lia|done|]. f_equal. unfold d at 1.
      unfold d. rewrite take_length. destruct (decide (len <= length bs)); [f_equal; lia|]. rewrite !take_ge by lia. done.
    + intros e e' [Ht _] He. cbn in He. simplify_eq He; intros <-. split; [|done]. specialize (Hbb Ht).
      assert (Hall: is_nil bs = false -> [] ∉ preb ++ [b ++ d]).
      { intros Hn Hin. apply elem_of_app in Hin as [|Hin%elem_of_list_singleton]; [done|].
        symmetry in Hin. apply app_eq_nil in Hin as [_ Hin]. rewrite Hin in Hdn. cbn in Hdn.
        destruct bs; [done|]. specialize (Hdn ltac:(done)). lia. }
      split; [|done]. split; [|done]. intros h t Eht Htn Hin. destruct (exists_last Htn) as (t' & y & ->).
      rewrite (assoc_L (++)) in Eht. apply app_inj_tail in Eht as [-> _]. set_solver.
  - destruct (append_ok s q bss bs HR) as (s' & E & HR' & _). rewrite E. cbn.
    eexists _, _, _, _. split; [reflexivity|]. split_and!; try done.
    intros e e' Ht He. cbn in He. destruct e; [done|]. destruct bs as [|b bs]; [done|]. cbn in He. simplify_eq.
    split; [|done]. apply tidy_st_all. destruct Ht as [_ Ht]. specialize (Ht eq_refl). set_solver.
  - destruct (peek_ok s q bss n HR) as (l & El & Hl & Hpre & Hfull & _). rewrite El. cbn.
    eexists _, _, _, _. split; [reflexivity|]. split; [exact HR|]. split_and!; try done.
    intros e e' Ht He. cbn in He. simplify_eq. done.
  - pose proof HR as (_ & _ & _ & _ & Htot & _).
    destruct (decide (0 < total s)%Z) as [Hp|Hp]; cycle 1.
    { assert (q = []) as -> by (destruct q; [done|cbn in *; lia]).
      eexists _, _, _, _. split; [reflexivity|]. split; [exact HR|]. split_and!; try done.
      intros e e' Ht He. cbn in He. simplify_eq. done. }
    assert (Hq: q <> []) by (intros ->; cbn in *; lia).
    destruct (read_success_ok s q bss (min n (Z.to_nat (total s))) HR) as (s' & more & bss' & E & HR' & _ & Hmore & [pb Hpb] & Hwh).
    { by eapply R_nil_ch. } { lia. }
    cbv zeta. rewrite E. cbn. eexists _, _, _, _. split; [reflexivity|]. split; [exact HR'|]. split.
    + split_and!; try done; [lia|]. intros ->. destruct (ch s') eqn:Ech; [|exfalso; assert (false = true); [by apply Hmore|done]].
      destruct HR' as (_ & _ & _ & _ & _ & [(_ & _ & _ & _ & Eq)|(? & ? & ? & ? & Eh & _)]); [done|by rewrite Ech in Eh].
    + intros e e' Ht He. cbn in He. simplify_eq. split; [|done]. by eapply tidy_suffix.
  - destruct (read_ok n s q bss n [] ltac:(lia) HR ltac:(done)) as (s' & bss' & bs & E & HR' & _ & Hbs & Hlb & [pb Hpb] & Hwh & Hex).
    rewrite E. cbn. eexists _, _, _, _. split; [reflexivity|]. split; [exact HR'|]. split.
    + split; [|done]. rewrite Hbs at 1. by rewrite take_drop.
    + intros e e' Ht He. cbn in He. simplify_eq. split; [by eapply tidy_suffix|]. apply Hex. apply Ht.
Qed.

Lemma fifo_step_det q o r q1 q2 : fifo_step q o r q1 -> fifo_step q o r q2 -> q1 = q2.
Proof.
  destruct o, r; cbn; intros; destruct_and?; subst; try done.
  match goal with H : _ ++ _ = _ ++ _ |- _ => by apply app_inv_head in H end.
Qed.

Lemma wexec_all_ok os : forall s q bss, R s q bss ->
  exists s' rs q' bss', wexec_all s os = Some (s', rs) /\ R s' q' bss' /\ fifo q os rs q'
    /\ (forall e, tidy_st e s bss -> tidy e os = true -> exact_reads q os rs).
Proof.
  induction os as [|o os IH]; intros s q bss HR.
  { exists s, [], q, bss. split_and!; done. }
  destruct (wexec_ok s q bss o HR) as (s1 & r & q1 & bss1 & E & HR1 & Hst & Htd).
  destruct (IH s1 q1 bss1 HR1) as (s2 & rs & q2 & bss2 & E2 & HR2 & Hf & Htd2).
  cbn. rewrite E. cbn. rewrite E2. cbn. eexists _, _, q2, bss2. split; [reflexivity|]. split; [done|]. split.
  - exists q1. split_and!; try done. by destruct HR1 as (_ & _ & _ & _ & Ht & _).
  - intros e Ht Hti. assert (exists e', tidy1 e o = Some e' /\ tidy e' os = true) as (e' & He & Hti').
    { destruct o; cbn in *; eauto. destruct e; [done|]. destruct (is_nil bs); [done|]. eauto. }
    destruct (Htd e e' Ht He) as [Ht' Hm]. split; [done|]. intros q1' Hst'.
    rewrite (fifo_step_det _ _ _ _ _ Hst' Hst). by eapply Htd2.
Qed.

Lemma fifo_bytes os : forall q rs q', Forall not_consume os -> fifo q os rs q' ->
  q ++ concat (bytes_in <$> zip os rs) = concat (bytes_out <$> zip os rs) ++ q'.
Proof.
  induction os as [|o os IH]; intros q [|[r t] rs] q' Hn Hf; cbn in Hf; try done; [cbn; by rewrite app_nil_r|].
  destruct Hf as (q1 & Hst & _ & Hf). inversion Hn; subst. cbn. rewrite <- (assoc_L (++)), <- (IH q1 rs q') by done.
  destruct o, r; cbn in Hst |- *; destruct_and?; subst; try done; by rewrite ?(assoc_L (++)).
Qed.

(** ** krw_insert *)
Lemma insert_ok s q bss bs : R s q bss -> (forall p off, rh s = Some (p, off) -> off = 0) ->
  exists s' bss', krw_insert s bs = Some s' /\ R s' (bs ++ q) bss'.
Proof.
  intros HR Hoff. pose proof HR as (Hs & Hn & Hf & HF & Ht & Hc). unfold krw_insert.
  destruct Hc as [(Ec & Er & Ew & Ewh & Eq)|(off & h & l & pre & Eh & Ec & Er & Eq & Ho & Ew & Ewh)].
  - rewrite Ec, Ew. cbn. destruct (append_ok s q bss bs HR) as (s' & E & HR' & _). rewrite E. exists s', (bss ++ [bs]).
    split; [done|]. subst q. by rewrite app_nil_r.
  - assert (off = 0) as -> by (by eapply Hoff). destruct (ch s) as [|c cs] eqn:Ech; [done|].
    rewrite Ew. cbn. eexists _, (bs :: bss). split; [reflexivity|]. split_and!; cbn.
    + done.
    + constructor; [|done]. intros Hin. change (nid s ∈ cid <$> (c :: cs)) in Hin. apply elem_of_list_fmap in Hin as (x & Ex & Hx).
      rewrite Forall_forall in Hf. specialize (Hf x Hx). cbn in *. lia.
    + constructor; [cbn; lia|]. eapply Forall_impl; [exact Hf|]. cbn. lia.
    + constructor; [apply user_chunk_ok|done].
    + rewrite Ht, app_length. lia.
    + right. exists 0, (user_chunk (nid s) bs), l, (user_chunk (nid s) bs :: pre). rewrite drop_0.
      split_and!; try done; [by rewrite Ec|by subst|by left].
Qed.

(** ** seeks *)
Lemma kbuf_seek_ok (hd : list (list B)) : forall off, off <= length (concat hd) ->
  exists l, kbuf_seek hd off = Some l /\ concat l = drop off (concat hd).
Proof.
  induction hd as [|c hd IH]; intros off Hle.
  - cbn in Hle. destruct off; [|lia]. by exists [].
  - destruct off as [|o]; [by exists (c :: hd)|]. cbn [kbuf_seek]. cbn in Hle. rewrite app_length in Hle.
    destruct (decide _).
    + eexists. split; [reflexivity|]. cbn [concat]. by rewrite drop_app_le by lia.
    + destruct (IH (S o - length c) ltac:(lia)) as (l & -> & Hl). exists l. split; [done|].
      rewrite Hl. cbn [concat]. by rewrite drop_app_ge by lia.
Qed.
Lemma iovec_seek_ok (buf : list (list B)) : forall bc off, off <= length (concat buf) ->
  exists l, kgl_iovec_seek buf bc off = Some (l, (bc - Z.of_nat (length buf) + Z.of_nat (length l))%Z)
    /\ concat l = drop off (concat buf).
Proof.
  induction buf as [|c buf IH]; intros bc off Hle.
  - cbn in Hle. destruct off; [|lia]. exists []. split; [|done]. cbn. do 2 f_equal. lia.
  - destruct off as [|o]; [exists (c :: buf); split; [|done]; cbn [kgl_iovec_seek]; do 2 f_equal; lia|].
    cbn [kgl_iovec_seek]. cbn [concat] in Hle. rewrite app_length in Hle.
    destruct (decide _).
    + eexists. split; [do 2 f_equal; cbn [length]; lia|]. cbn [concat]. by rewrite drop_app_le by lia.
    + destruct (IH (bc - 1)%Z (S o - length c) ltac:(lia)) as (l & -> & Hl). exists l.
      split; [do 2 f_equal; cbn [length]; lia|]. rewrite Hl. cbn [concat]. by rewrite drop_app_ge by lia.
Qed.
End run.
