From Verif Require Import KbufSpec.
From Coq Require Import ZifyBool ZifyNat.

Ltac bd0 := match goal with |- context [@bool_decide (?x = 0%Z) ?d] => rewrite (@bool_decide_eq_false_2 _ d) by (cbn; lia) end.
Ltac bdpos := match goal with |- context [@bool_decide (0 < ?x)%Z ?d] => rewrite (@bool_decide_eq_true_2 _ d) by (cbn; lia) end.
Section proof.
Context {B : Type}.
Implicit Types (s : krw B) (c l : chunk B) (pre : list (chunk B)) (q b : list B) (bss : list (list B)).

Definition chunk_ok c b : Prop := length b = cused c /\ take (cused c) (cmem c) = Some <$> b.

Definition R s q bss : Prop :=
  1 <= csize s /\ NoDup (cid <$> ch s) /\ Forall (λ c, (cid c < nid s)%positive) (ch s)
  /\ Forall2 chunk_ok (ch s) bss /\ total s = Z.of_nat (length q)
  /\ ((ch s = [] /\ rh s = None /\ whb s = None /\ wh s = None /\ q = [])
      \/ exists off h l pre, head (ch s) = Some h /\ ch s = pre ++ [l] /\ rh s = Some (cid h, off)
         /\ q = drop off (concat bss) /\ (off = 0 \/ off < cused h) /\ whb s = Some (cid l)
         /\ (wh s = None \/ (wh s = Some (cid l, cused l) /\ length (cmem l) = csize s))).

(** only the last chunk may be empty, and only while it is the write chunk *)
Definition tidyS s bss : Prop :=
  (forall h t, bss = h ++ t -> t <> [] -> [] ∉ h) /\ (wh s = None -> [] ∉ bss).

Lemma chunk_ok_le c b : chunk_ok c b -> cused c <= length (cmem c).
Proof.
  intros [H1 H2]. apply (f_equal length) in H2. rewrite take_length, fmap_length, H1 in H2. lia.
Qed.
Lemma mapM_Some (b : list B) : mapM id (Some <$> b) = Some b.
Proof. induction b; cbn; [done|]. cbn in IHb. by rewrite IHb. Qed.
Lemma load_ok c b off len : chunk_ok c b -> off + len <= cused c -> load c off len = Some (take len (drop off b)).
Proof.
  intros Hc Hle. pose proof (chunk_ok_le _ _ Hc). destruct Hc as [H1 H2].
  unfold load. rewrite bool_decide_true by lia. cbn.
  replace (take len (drop off (cmem c))) with (take len (drop off (take (cused c) (cmem c)))).
  - rewrite H2, <- fmap_drop, <- fmap_take. apply mapM_Some.
  - rewrite skipn_firstn_comm, take_take. f_equal. lia.
Qed.

Lemma new_chunk_ok id n : chunk_ok (new_chunk id n) [].
Proof. split; done. Qed.
Lemma F2_new id n : Forall2 chunk_ok [new_chunk id n] [[]].
Proof. constructor; [apply new_chunk_ok|constructor]. Qed.
Lemma user_chunk_ok id bs : chunk_ok (user_chunk id bs) bs.
Proof. split; [done|]. cbn. by rewrite take_ge by (rewrite fmap_length; lia). Qed.

Lemma set_next_last pre l c : NoDup (cid <$> pre ++ [l]) -> set_next (cid l) c (pre ++ [l]) = Some (pre ++ [l; c]).
Proof.
  induction pre as [|x pre IH]; cbn; intros Hn; [by rewrite decide_True|].
  apply NoDup_cons in Hn as [Hx Hn]. rewrite decide_False; [by rewrite IH|].
  intros E. apply Hx. rewrite E, fmap_app. set_solver.
Qed.
Lemma get_chunk_last pre l : NoDup (cid <$> pre ++ [l]) -> get_chunk (cid l) (pre ++ [l]) = Some l.
Proof.
  induction pre as [|x pre IH]; cbn; intros Hn; [by rewrite decide_True|].
  apply NoDup_cons in Hn as [Hx Hn]. rewrite decide_False; [by rewrite IH|].
  intros E. apply Hx. rewrite E, fmap_app. set_solver.
Qed.
Lemma set_chunk_last pre l l' f : NoDup (cid <$> pre ++ [l]) -> f l = Some l' ->
  set_chunk (cid l) f (pre ++ [l]) = Some (pre ++ [l']).
Proof.
  intros Hn Hf. induction pre as [|x pre IH]; cbn in *; [by rewrite decide_True, Hf|].
  apply NoDup_cons in Hn as [Hx Hn]. rewrite decide_False; [by rewrite IH|].
  intros E. apply Hx. rewrite E, fmap_app. set_solver.
Qed.

Lemma fresh_nodup (l : list (chunk B)) n i : NoDup (cid <$> l) -> Forall (λ c, (cid c < n)%positive) l ->
  cid i = n -> NoDup (cid <$> (l ++ [i])).
Proof.
  intros H1 H2 E. rewrite fmap_app. apply NoDup_app. split_and!; [done| |apply NoDup_singleton].
  intros x Hx Hx'. cbn in Hx'. apply elem_of_list_singleton in Hx'. apply elem_of_list_fmap in Hx as (c & -> & Hc).
  rewrite Forall_forall in H2. specialize (H2 c Hc). cbn in H2. lia.
Qed.
Lemma fresh_forall (l : list (chunk B)) n i : Forall (λ c, (cid c < n)%positive) l -> cid i = n ->
  Forall (λ c, (cid c < Pos.succ n)%positive) (l ++ [i]).
Proof.
  intros H E. apply Forall_app. split; [|apply Forall_singleton; lia]. eapply Forall_impl; [exact H|]. cbn. lia.
Qed.

Lemma concat_snoc {A} (l : list (list A)) x : concat (l ++ [x]) = concat l ++ x.
Proof. rewrite concat_app. cbn. by rewrite app_nil_r. Qed.

Lemma head_app_some {A} (l k : list A) h : head l = Some h -> head (l ++ k) = Some h.
Proof. by destruct l. Qed.
Lemma off_le s bss off h : Forall2 chunk_ok (ch s) bss -> head (ch s) = Some h -> (off = 0 \/ off < cused h) ->
  off <= length (concat bss).
Proof.
  intros HF Hh Ho. destruct (ch s) as [|c cs]; [done|]. cbn in Hh. simplify_eq.
  inversion HF as [|? b ? bs Hb]; subst. cbn. rewrite app_length. destruct Hb. lia.
Qed.

Lemma append_ok s q bss bs : R s q bss -> exists s', krw_append s bs = Some s' /\ R s' (q ++ bs) (bss ++ [bs])
  /\ csize s' = csize s.
Proof.
  intros (Hs & Hn & Hf & HF & Ht & Hc). unfold krw_append.
  destruct Hc as [(Ec & Er & Ew & Ewh & Eq)|(off & h & l & pre & Eh & Ec & Er & Eq & Ho & Ew & Ewh)].
  - rewrite Ew, Ec, Er. cbn. rewrite Ec in HF. inversion HF; subst. eexists. split; [reflexivity|]. split; [|done].
    split_and!; cbn; try done.
    + apply NoDup_singleton.
    + apply Forall_singleton. cbn. lia.
    + constructor; [apply user_chunk_ok|constructor].
    + rewrite Ht. cbn. lia.
    + right. exists 0, (user_chunk (nid s) bs), (user_chunk (nid s) bs), [].
      split_and!; try done; [by rewrite app_nil_r|by left|by left].
  - rewrite Ew, Er, Eh, Ec, set_next_last by (by rewrite <- Ec). cbn. eexists. split; [reflexivity|]. split; [|done].
    replace (pre ++ [l; user_chunk (nid s) bs]) with (ch s ++ [user_chunk (nid s) bs]) by (by rewrite Ec, <- app_assoc).
    split_and!; cbn; try done.
    + eapply fresh_nodup; done.
    + eapply fresh_forall; done.
    + apply Forall2_app; [done|]. constructor; [apply user_chunk_ok|constructor].
    + rewrite Ht, app_length. lia.
    + right. exists off, h, (user_chunk (nid s) bs), (ch s). split_and!; try done.
      * by apply head_app_some.
      * rewrite concat_snoc, drop_app_le; [by subst|]. by eapply off_le.
      * by left.
Qed.

Lemma tidy_all (b : list B) preb : (forall h t, preb ++ [b] = h ++ t -> t <> [] -> [] ∉ h) -> b <> [] -> [] ∉ preb ++ [b].
Proof.
  intros H Hb Hin. apply elem_of_app in Hin as [Hin|Hin%elem_of_list_singleton]; [|done].
  by apply (H preb [b]) in Hin.
Qed.
Lemma gwb_ok s q bss : R s q bss -> exists s' l pre b preb,
  krw_get_write_buffer s = Some (s', (cid l, cused l), (Z.of_nat (csize s) - Z.of_nat (cused l))%Z)
  /\ cused l < csize s /\ csize s' = csize s
  /\ R s' q (preb ++ [b]) /\ ch s' = pre ++ [l] /\ wh s' = Some (cid l, cused l) /\ length (cmem l) = csize s
  /\ chunk_ok l b
  /\ (tidyS s bss -> [] ∉ preb).
Proof.
  intros (Hs & Hn & Hf & HF & Ht & Hc). unfold krw_get_write_buffer.
  destruct Hc as [(Ec & Er & Ew & Ewh & Eq)|(off & h & l & pre & Eh & Ec & Er & Eq & Ho & Ew & Ewh)].
  - rewrite Ew, Ec. cbn. match goal with |- context [@decide (?a = ?a) ?d] => destruct (@decide (a = a) d) end; [|done]. cbn [mbind option_bind]. cbn.
    bd0. cbn. bdpos. cbn.
    rewrite Ec in HF. inversion HF; subst.
    eexists _, (new_chunk (nid s) (csize s)), [], [], []. split; [cbn; reflexivity|]. cbn.
    split_and!; try done.
    + split_and!; cbn; try done.
      * apply NoDup_singleton.
      * apply Forall_singleton. cbn. lia.
      * constructor; [apply new_chunk_ok|constructor].
      * right. exists 0, (new_chunk (nid s) (csize s)), (new_chunk (nid s) (csize s)), []. cbn.
        split_and!; try done; [by left|]. right. split; [done|]. by rewrite replicate_length.
    + by rewrite replicate_length.
    + set_solver.
  - rewrite Ew. cbn. rewrite Ew. cbn. rewrite Ec, get_chunk_last by (by rewrite <- Ec). cbn.
    destruct Ewh as [Ewh|[Ewh El]].
    all: rewrite Ec in HF; apply Forall2_app_inv_l in HF as (preb & lb & HFp & HFl & ->);
      inversion HFl as [|? b ? lb' Hb Hnil]; subst; inversion Hnil; subst.
    1: rewrite orb_comm, bool_decide_true by done; cbn; set (bb := true).
    2: destruct (bool_decide (Z.of_nat (csize s) - Z.of_nat (cused l) = 0)%Z || bool_decide (wh s = None)) eqn:Eb.
    1: assert (Htd: tidyS s (preb ++ [b]) -> [] ∉ preb ++ [b]) by (intros [_ Ht2]; by apply Ht2).
    2: assert (Htd: tidyS s (preb ++ [b]) -> [] ∉ preb ++ [b]).
    2: { intros [Ht1 Ht2]. apply tidy_all; [exact Ht1|]. apply orb_true_iff in Eb as [Eb|Eb]; apply bool_decide_eq_true in Eb; [|congruence].
         destruct Hb as [Hb _]. intros ->. cbn in Hb. lia. }
    1,2: rewrite last_snoc; cbn; rewrite bool_decide_true by done; cbn; rewrite set_next_last by (by rewrite <- Ec); cbn;
      bdpos; cbn.
    1,2: eexists _, (new_chunk (nid s) (csize s)), (ch s), [], (preb ++ [b]);
      (split; [cbn; do 2 f_equal; lia|]); cbn; (split_and!; [lia|done| |by rewrite Ec, <- app_assoc|done|by rewrite replicate_length|apply new_chunk_ok|]); [|exact Htd];
      replace (pre ++ [l; new_chunk (nid s) (csize s)]) with (ch s ++ [new_chunk (nid s) (csize s)]) by (by rewrite Ec, <- app_assoc);
      (split_and!; cbn; [done|eapply fresh_nodup; done|eapply fresh_forall; done| |done|]);
      [rewrite Ec; apply Forall2_app; [apply Forall2_app; [done|exact HFl]|apply F2_new] |];
      right; exists off, h, (new_chunk (nid s) (csize s)), (ch s); split_and!; try done;
      [by apply head_app_some|by rewrite (concat_snoc (preb ++ [b])), app_nil_r|right; split; [done|apply replicate_length]].
    apply orb_false_iff in Eb as [Eb _]. apply bool_decide_eq_false in Eb.
    pose proof (chunk_ok_le _ _ Hb). cbn. bdpos. cbn. rewrite Ewh. cbn.
    exists s, l, pre, b, preb. split_and!; try done; [lia|split_and!; try done|].
    + rewrite Ec. by apply Forall2_app.
    + right. exists off, h, l, pre. split_and!; try done. by right.
    + intros [Ht1 _]. by apply (Ht1 preb [b]).
Qed.

Lemma store_ok l b bs : chunk_ok l b -> cused l + length bs <= length (cmem l) ->
  exists l', store (cused l) bs l = Some l' /\ cid l' = cid l /\ cused l' = cused l /\ length (cmem l') = length (cmem l)
    /\ chunk_ok (mkc (cid l') (cmem l') (cused l' + length bs)) (b ++ bs).
Proof.
  intros [H1 H2] Hle. unfold store. rewrite bool_decide_eq_true_2 by done. cbn. eexists. split; [reflexivity|]. cbn.
  split_and!; try done.
  - rewrite !app_length, take_length, drop_length, fmap_length. lia.
  - split; cbn; [by rewrite app_length, H1|]. rewrite H2, fmap_app.
    rewrite (assoc_L (++)). rewrite take_app_alt; [done|]. rewrite app_length, !fmap_length. lia.
Qed.

Lemma F2_snoc {X Y} (P : X -> Y -> Prop) (l : list X) x (k : list Y) y : Forall2 P (l ++ [x]) (k ++ [y]) <-> Forall2 P l k /\ P x y.
Proof.
  split.
  - intros H. apply Forall2_app_inv in H as [H1 H2].
    + split; [done|]. by inversion H2.
    + apply Forall2_length in H. rewrite !app_length in H. cbn in H. lia.
  - intros [H1 H2]. apply Forall2_app; [done|]. by constructor.
Qed.
Lemma NoDup_same (pre : list (chunk B)) l l' : cid l' = cid l -> NoDup (cid <$> pre ++ [l]) -> NoDup (cid <$> pre ++ [l']).
Proof. rewrite !fmap_app. cbn. by intros ->. Qed.
Lemma Forall_same (pre : list (chunk B)) l l' n : cid l' = cid l -> Forall (λ c, (cid c < n)%positive) (pre ++ [l]) ->
  Forall (λ c, (cid c < n)%positive) (pre ++ [l']).
Proof. intros E [H1 H2]%Forall_app. apply Forall_app. split; [done|]. inversion H2; subst. by repeat constructor; rewrite E. Qed.

(** copy bs through the window and report it *)
Lemma fill_ok s q preb b pre l bs : R s q (preb ++ [b]) -> ch s = pre ++ [l] -> wh s = Some (cid l, cused l) ->
  length (cmem l) = csize s -> cused l + length bs <= csize s ->
  exists s1 s2, poke s (cid l, cused l) bs = Some s1 /\ krw_write_success s1 (length bs) = Some s2
    /\ R s2 (q ++ bs) (preb ++ [b ++ bs]) /\ csize s2 = csize s /\ wh s2 <> None.
Proof.
  intros (Hs & Hn & Hf & HF & Ht & Hc) Ec Ewh Hm Hle.
  destruct Hc as [(Ec' & _)|(off & h & l0 & pre0 & Eh & Ec' & Er & Eq & Ho & Ew & Ewh')].
  { rewrite Ec in Ec'. by destruct pre. }
  rewrite Ec' in Ec. apply app_inj_tail in Ec as [-> ->]. clear Ewh'.
  rewrite Ec' in HF. apply F2_snoc in HF as [HFp Hb].
  destruct (store_ok l b bs Hb ltac:(lia)) as (l' & Est & Ei & Eu & El & Hok).
  unfold poke. cbn. rewrite Ec', (set_chunk_last _ _ l') by (done || by rewrite <- Ec'). cbn.
  eexists. eexists. split; [reflexivity|]. unfold krw_write_success. cbn. rewrite Ew. cbn.
  rewrite <- Ei. rewrite (set_chunk_last _ _ (mkc (cid l') (cmem l') (cused l' + length bs))); cycle 1.
  { eapply NoDup_same; [|by rewrite <- Ec']. done. }
  { done. }
  cbn. rewrite Ewh. cbn. split; [reflexivity|]. split; [|split; done].
  assert (Hoff: off <= length (concat (preb ++ [b]))).
  { eapply off_le; [|exact Eh|done]. rewrite Ec'. by apply F2_snoc. }
  assert (exists h', head (pre ++ [mkc (cid l') (cmem l') (cused l' + length bs)]) = Some h' /\ cid h' = cid h /\ cused h <= cused h') as (h' & Eh' & Eih & Euh).
  { rewrite Ec' in Eh. destruct pre as [|x pre]; cbn in *; simplify_eq; eexists; (split; [reflexivity|]); cbn; [|done]. rewrite Ei, Eu. split; [done|lia]. }
  split_and!; cbn.
  - done.
  - eapply (NoDup_same _ l); [done|]. by rewrite <- Ec'.
  - eapply (Forall_same _ l); [done|]. by rewrite <- Ec'.
  - apply F2_snoc. done.
  - rewrite Ht, app_length. lia.
  - right. exists off, h', (mkc (cid l') (cmem l') (cused l' + length bs)), pre. split_and!; try done.
    + by rewrite Eih.
    + rewrite concat_snoc, (assoc_L (++)), drop_app_le; rewrite <- concat_snoc; [by subst|done].
    + destruct Ho; [by left|right; lia].
    + right. cbn. rewrite Ei, Eu. split; [done|]. by rewrite El.
Qed.

Lemma write_str_ok n : forall s q bss bs, length bs <= n -> R s q bss ->
  exists s' bss', krw_write_str n s bs = Some s' /\ R s' (q ++ bs) bss' /\ csize s' = csize s
    /\ (bs = [] -> s' = s /\ bss' = bss) /\ (bs <> [] -> tidyS s bss -> [] ∉ bss').
Proof.
  induction n as [|n IH]; intros s q bss bs Hle HR.
  { destruct bs; [|cbn in Hle; lia]. exists s, bss. rewrite app_nil_r. split_and!; try done. }
  destruct bs as [|x bs]; [exists s, bss; rewrite app_nil_r; split_and!; done|].
  remember (x :: bs) as xs eqn:Exs.
  destruct (gwb_ok s q bss HR) as (s1 & l & pre & b & preb & Eg & Hu & Ecs & HR1 & Ec & Ewh & Hm & Hb & Hbb).
  assert (Ek: krw_write_str (S n) s xs = ('(s, w, len) ← krw_get_write_buffer s;
      let wlen := min (length xs) (Z.to_nat len) in
      s ← poke s w (take wlen xs); s ← krw_write_success s wlen; krw_write_str n s (drop wlen xs))) by (by subst xs).
  rewrite Ek, Eg. cbn [mbind option_bind]. cbv zeta.
  set (wlen := min (length xs) (Z.to_nat (Z.of_nat (csize s) - Z.of_nat (cused l)))).
  assert (Hx1: 1 <= length xs) by (subst xs; cbn; lia).
  assert (Hw: 1 <= wlen <= length xs) by (unfold wlen; lia).
  assert (Hlt: length (take wlen xs) = wlen) by (rewrite take_length; lia).
  destruct (fill_ok s1 q preb b pre l (take wlen xs) HR1 Ec Ewh) as (s2 & s3 & Ep & Ews & HR3 & Ecs3 & _).
  { congruence. } { lia. }
  rewrite Ep. cbn [mbind option_bind]. rewrite Hlt in Ews. rewrite Ews. cbn [mbind option_bind].
  destruct (IH s3 _ _ (drop wlen xs) ltac:(rewrite drop_length; lia) HR3) as (s4 & bss4 & E4 & HR4 & Ecs4 & Hor1 & Hor2).
  exists s4, bss4. split; [done|]. rewrite <- (assoc_L (++)), take_drop in HR4. split; [done|].
  split; [congruence|]. split; [intros ->; done|]. intros _ Htd.
  assert (Hne: b ++ take wlen xs <> []).
  { intros En. apply app_eq_nil in En as [_ En]. apply (f_equal length) in En. rewrite Hlt in En. cbn in En. lia. }
  assert (Hall: [] ∉ preb ++ [b ++ take wlen xs]) by (specialize (Hbb Htd); set_solver).
  destruct (decide (drop wlen xs = [])) as [E|E]; [by destruct (Hor1 E) as [_ ->]|].
  apply (Hor2 E). split; [|done]. intros h t Eht Ht Hin. apply Hall. rewrite Eht. set_solver.
Qed.

Lemma F2_suffix {X Y} (P : X -> Y -> Prop) (l : list X) k : Forall2 P l k -> length l = length k.
Proof. apply Forall2_length. Qed.

Lemma consume_ok (l : list (chunk B)) : forall bss got off, Forall2 chunk_ok l bss ->
  (forall h, head l = Some h -> off = 0 \/ off < cused h) -> off + got <= length (concat bss) ->
  exists (l' : list (chunk B)) off' bss', consume got l off = Some (l', off', got)
    /\ (exists p, l = p ++ l') /\ (exists pb, bss = pb ++ bss') /\ Forall2 chunk_ok l' bss'
    /\ drop off' (concat bss') = drop (off + got) (concat bss)
    /\ (l' = [] -> off + got = length (concat bss))
    /\ (forall h, head l' = Some h -> off' = 0 \/ off' < cused h).
Proof.
  induction l as [|c l IH]; intros bss got off HF Hoff Hle.
  - inversion HF; subst. cbn in Hle. destruct got; [|lia]. exists [], off, []. cbn. split_and!; try done; try (by exists []); try lia; by rewrite !drop_nil.
  - inversion HF as [|? b ? bs Hb HF']; subst. destruct got as [|g].
    { exists (c :: l), off, (b :: bs). cbn [consume]. rewrite Nat.add_0_r. split_and!; try done; by exists []. }
    set (got := S g) in *. assert (Hg: 0 < got) by (subst got; lia).
    assert (Ho: off <= cused c) by (specialize (Hoff c eq_refl); lia).
    destruct Hb as [Hb1 Hb2].
    assert (Ek: consume got (c :: l) off =
      let this := min got (cused c - off) in
      if decide (cused c = off + this) then
        match l with [] => Some ([], 0, this)
        | _ => '(l', off', k) ← consume (got - this) l 0; Some (l', off', this + k) end
      else Some (c :: l, off + this, this)).
    { subst got. cbn [consume]. rewrite bool_decide_eq_true_2 by done. reflexivity. }
    rewrite Ek. cbv zeta. cbn [concat] in Hle |- *. rewrite app_length in Hle.
    destruct (decide _) as [Ed|Ed].
    + assert (Ht: min got (cused c - off) = cused c - off) by lia. rewrite Ht.
      destruct l as [|c2 l].
      * inversion HF'; subst. cbn in Hle |- *. exists [], 0, []. split_and!; try done.
        -- do 3 f_equal. lia.
        -- by exists [c].
        -- by exists [b].
        -- symmetry. apply drop_ge. rewrite app_length. cbn. lia.
        -- intros _. rewrite app_length. cbn. lia.
      * destruct (IH bs (got - (cused c - off)) 0 HF') as (l' & off' & bss' & E & [p Hp] & [pb Hpb] & H1 & H2 & H3 & H4).
        { by left. } { lia. }
        rewrite E. cbn [mbind option_bind]. exists l', off', bss'. split_and!; try done.
        -- do 2 f_equal. lia.
        -- exists (c :: p). by rewrite Hp.
        -- exists (b :: pb). by rewrite Hpb.
        -- rewrite H2, drop_app_ge by lia. f_equal. lia.
        -- intros El. specialize (H3 El). rewrite app_length. lia.
    + assert (Ht: min got (cused c - off) = got) by lia. rewrite Ht.
      exists (c :: l), (off + got), (b :: bs). split_and!; try done; try (by exists []).
      intros h Hh. cbn in Hh. simplify_eq. right. lia.
Qed.

Lemma read_success_ok s q bss got : R s q bss -> ch s <> [] -> got <= length q ->
  exists s' more bss', krw_read_success s got = Some (s', more) /\ R s' (drop got q) bss' /\ csize s' = csize s
    /\ (more = true <-> ch s' <> []) /\ (exists pb, bss = pb ++ bss') /\ (bss' = [] \/ wh s' = wh s).
Proof.
  intros (Hs & Hn & Hf & HF & Ht & Hc) Hne Hle.
  destruct Hc as [(Ec & _)|(off & h & l & pre & Eh & Ec & Er & Eq & Ho & Ew & Ewh)]; [done|].
  unfold krw_read_success, head_off. rewrite Er, Eh. cbn.
  rewrite !bool_decide_eq_true_2 by (done || lia). cbn.
  pose proof (off_le _ _ _ _ HF Eh Ho) as Hol.
  destruct (consume_ok (ch s) bss got off HF) as (l' & off' & bss' & E & [p Hp] & [pb Hpb] & H1 & H2 & H3 & H4).
  { intros h' Hh'. rewrite Eh in Hh'. by simplify_eq. }
  { subst q. rewrite drop_length in Hle. lia. }
  rewrite E. cbn. assert (Hq: length q = length (concat bss) - off) by (subst q; apply drop_length).
  destruct l' as [|c cs].
  - rewrite bool_decide_eq_true_2 by (specialize (H3 eq_refl); lia). cbn.
    eexists _, false, bss'. split; [reflexivity|]. inversion H1; subst bss'. split_and!; try done; [|by exists pb|by left].
    specialize (H3 eq_refl). rewrite drop_ge by lia. split_and!; cbn; try done; try constructor. split_and!; done.
  - eexists _, true, bss'. split; [reflexivity|]. split_and!; try done; [|by exists pb|by right]. split_and!; cbn.
    + done.
    + rewrite Hp, fmap_app in Hn. by apply NoDup_app in Hn as (_ & _ & Hn).
    + rewrite Hp in Hf. by apply Forall_app in Hf as [_ Hf].
    + done.
    + rewrite drop_length. lia.
    + right. assert (exists pre', c :: cs = pre' ++ [l]) as [pre' Hpre'].
      { rewrite Ec in Hp. destruct (exists_last (l:=c :: cs)) as (pre' & z & Ez); [done|].
        exists pre'. rewrite Ez in Hp |- *. rewrite app_assoc in Hp. apply app_inj_tail in Hp as [_ ->]. done. }
      exists off', c, l, pre'. split_and!; try done. subst q. rewrite drop_drop, <- H2. done. apply H4. done.
Qed.

Lemma peek_ok s q bss n : R s q bss ->
  exists l : list (list B), krw_get_read_buffers s (S n) = Some l /\ length l <= S n /\ concat l `prefix_of` q /\
    (length l < S n -> concat l = q) /\ (ch s = [] <-> l = []) /\
    (forall d, head l = Some d -> exists h off, head bss = Some h /\ d = drop off h /\ (off = 0 \/ off < length h)).
Proof.
  intros (Hs & Hn & Hf & HF & Ht & Hc). unfold krw_get_read_buffers.
  destruct Hc as [(Ec & Er & Ew & Ewh & Eq)|(off & h & l & pre & Eh & Ec & Er & Eq & Ho & Ew & Ewh)].
  - rewrite Er, Ec. exists []. split_and!; try done; [cbn; lia|by exists q].
  - rewrite Er. unfold head_off. rewrite Eh, Er. cbn. rewrite !bool_decide_eq_true_2 by (done || lia). cbn.
    destruct (ch s) as [|c cs] eqn:Ech; [done|]. cbn in Eh. simplify_eq Eh; intros <-. clear Eh.
    inversion HF as [|? b ? bs Hb HF' Hx Hy]; subst.
    assert (Hob: off <= cused c) by lia.
    rewrite (load_ok _ b) by (done || lia). cbn. rewrite Nat.sub_0_r.
    assert (Em: mapM (λ c0 : chunk B, load c0 0 (cused c0)) (take n cs) = Some (take n bs)).
    { clear -HF'. revert n. induction HF' as [|c b cs bs Hc HF IH]; intros [|n]; cbn; try done.
      rewrite (load_ok _ b) by (done || lia). cbn. rewrite drop_0, take_ge by (destruct Hc; lia). by rewrite IH. }
    rewrite Em. cbn. eexists. split; [reflexivity|].
    pose proof Hb as [Hb1 _].
    rewrite (take_ge (drop off b)) by (rewrite drop_length; lia). cbn [concat].
    split_and!.
    + cbn. rewrite take_length. lia.
    + cbn. rewrite drop_app_le by lia. apply prefix_app.
      rewrite <- (take_drop n bs) at 2. rewrite concat_app. by exists (concat (drop n bs)).
    + cbn. rewrite take_length. intros Hl. rewrite drop_app_le by lia. f_equal. f_equal. apply take_ge. lia.
    + done.
    + intros d Hd. cbn in Hd. simplify_eq. exists b, off. split_and!; try done. lia.
Qed.

Lemma read_ok n : forall s q bss len acc, len <= n -> R s q bss -> (acc <> [] -> ch s <> []) ->
  exists s' bss' bs, krw_read n s len acc = Some (s', acc ++ bs) /\ R s' (drop (length bs) q) bss' /\ csize s' = csize s
    /\ bs = take (length bs) q /\ length bs <= len /\ (exists pb, bss = pb ++ bss') /\ (bss' = [] \/ wh s' = wh s)
    /\ ((forall h t, bss = h ++ t -> t <> [] -> [] ∉ h) -> bs = take len q).
Proof.
  induction n as [|n IH]; intros s q bss len acc Hle HR Hacc.
  { destruct len; [|lia]. cbn. exists s, bss, []. rewrite app_nil_r. split_and!; try done; [by exists []|by right]. }
  destruct len as [|len'].
  { cbn. exists s, bss, []. rewrite app_nil_r. split_and!; try done; [by exists []|by right]. }
  remember (S len') as len eqn:El.
  assert (Ek: krw_read (S n) s len acc = (r ← krw_get_read_buffer s;
    match r with None => Some (s, []) | Some d =>
      let d := take len d in
      if decide (length d <= 0) then Some (s, acc) else
      '(s, more) ← krw_read_success s (length d);
      if (more : bool) then krw_read n s (len - length d) (acc ++ d) else Some (s, acc ++ d) end)) by (by subst len).
  rewrite Ek. clear Ek. unfold krw_get_read_buffer.
  destruct (peek_ok s q bss 0 HR) as (l & El1 & Hl1 & Hpre & Hfull & Hnil & Hhd).
  rewrite El1. cbn [mbind option_bind].
  destruct l as [|d l].
  { cbn. assert (Ech: ch s = []) by (by apply Hnil). destruct acc; [|exfalso; by apply Hacc].
    assert (q = []) as ->. { symmetry. apply Hfull. cbn. lia. }
    exists s, bss, []. cbn. split_and!; try done; [lia|by exists []|by right|by destruct len]. }
  assert (Hch: ch s <> []). { intros E. apply Hnil in E. done. }
  assert (l = []) as -> by (destruct l; [done|cbn in Hl1; lia]). cbn [head].
  cbn in Hpre. rewrite app_nil_r in Hpre. destruct Hpre as [q2 Hq].
  destruct (Hhd d eq_refl) as (h & off & Hh & Hd & Hoff). clear Hhd Hfull.
  cbv zeta. destruct (decide _) as [Hz|Hz].
  { exists s, bss, []. rewrite app_nil_r. cbn. split_and!; try done; [lia|by exists []|by right|].
    intros Hne. destruct bss as [|h' bss]; [done|]. cbn in Hh. simplify_eq Hh; intros ->.
    rewrite take_length in Hz. assert (Hd0: d = []) by (destruct d; [done|cbn in Hz; lia]).
    destruct h as [|x h]; cycle 1.
    { exfalso. rewrite Hd in Hd0. apply (f_equal length) in Hd0. rewrite drop_length in Hd0. cbn in *. lia. }
    destruct bss as [|h2 bss].
    - assert (q = []) as ->; [|by destruct len].
      destruct HR as (_ & _ & _ & HF & _ & [(Ec & _)|(off' & ? & ? & ? & ? & ? & ? & Eq & _)]); [done|].
      rewrite Eq. cbn. by destruct off'.
    - exfalso. apply (Hne [[]] (h2 :: bss)); [done|done|set_solver]. }
  assert (Hdq: take len d = take (length (take len d)) q).
  { rewrite Hq, take_length, take_app_le by lia. destruct (decide (len <= length d)); [f_equal; lia|]. rewrite !take_ge by lia. done. }
  assert (Hlq: length (take len d) <= length q) by (rewrite Hq, app_length, take_length; lia).
  destruct (read_success_ok s q bss (length (take len d)) HR Hch Hlq) as (s1 & more & bss1 & E1 & HR1 & Ecs & Hmore & [pb Hpb] & Hwh).
  rewrite E1. cbn [mbind option_bind].
  set (d' := take len d) in *. assert (Hdl: length d' <= len) by (unfold d'; rewrite take_length; lia).
  destruct more.
  - destruct (IH s1 _ bss1 (len - length d') (acc ++ d') ltac:(lia) HR1) as (s2 & bss2 & bs & E2 & HR2 & Ecs2 & Hbs & Hlb & [pb2 Hpb2] & Hwh2 & Hex).
    { intros _. by apply Hmore. }
    exists s2, bss2, (d' ++ bs). rewrite E2, (assoc_L (++)), app_length. rewrite drop_drop in HR2.
    split_and!; try done; try lia; try congruence.
    + rewrite take_plus_app_aux || idtac. rewrite Hbs at 1. rewrite <- take_take_drop, <- Hdq. done.
    + exists (pb ++ pb2). rewrite Hpb, Hpb2. by rewrite (assoc_L (++)).
    + destruct Hwh2 as [|Hwh2]; [by left|]. destruct Hwh as [->|Hwh]; [|right; congruence].
      left. symmetry in Hpb2. by apply app_eq_nil in Hpb2 as [_ ?].
    + intros Hne. rewrite Hex.
      * rewrite Hdq at 1. rewrite take_take_drop. f_equal. lia.
      * intros h0 t0 Et Hn0 Hin. apply (Hne (pb ++ h0) t0); [rewrite Hpb, Et; by rewrite (assoc_L (++))|done|set_solver].
  - exists s1, bss1, d'. split_and!; try done; [by exists pb|].
    intros Hne. assert (Ech: ch s1 = []).
    { destruct (ch s1); [done|]. exfalso. assert (false = true); [by apply Hmore|done]. }
    destruct HR1 as (_ & _ & _ & _ & _ & [(_ & _ & _ & _ & Eq)|(? & ? & ? & ? & Eh & _)]); [|by rewrite Ech in Eh].
    apply (f_equal length) in Eq. rewrite drop_length in Eq. cbn in Eq.
    rewrite Hdq, !take_ge by lia. done.
Qed.
End proof.
