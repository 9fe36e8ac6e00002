(** C84: the atomic operations.  Model: AtomModel.v *)
From Verif Require Import AtomModel.
From Coq Require Import Lia.
Local Open Scope Z_scope.

Lemma pow_pos w : 2 <= 2 ^ (bits w - 1) /\ 2 ^ bits w = 2 * 2 ^ (bits w - 1).
Proof. destruct w; cbn [bits]; split; vm_compute; done. Qed.
Lemma md_range w x : 0 <= md w x < 2 ^ bits w.
Proof. apply Z.mod_pos_bound. destruct (pow_pos w). lia. Qed.
Lemma md_id w v : 0 <= v < 2 ^ bits w -> md w v = v.
Proof. intros H. by apply Z.mod_small. Qed.
Lemma neg_ok w x : - 2 ^ (bits w - 1) < x -> neg w x = Some (- x).
Proof. intros H. unfold neg. rewrite decide_False; [done|lia]. Qed.

(** result and effect of each, the same on both platforms: inc and dec return the new value, the others the old one, cas whether it took place *)
Theorem C84_meaning w o v : 0 <= v < 2 ^ bits w -> arg_ok w o -> 
  katom_gcc w o v = katom_win w o v /\
  exists r v', katom_gcc w o v = Some (r, v') /\ 0 <= v' < 2 ^ bits w /\
    match o with
    | OInc | ODec => r = RVal v' /\ v' = (v + delta o) mod 2 ^ bits w
    | OAdd _ | OSub _ | OGet => r = RVal v /\ v' = (v + delta o) mod 2 ^ bits w
    | OSet x => r = RVal v /\ v' = x mod 2 ^ bits w
    | OCas c x => (r = RBool true /\ v = c mod 2 ^ bits w /\ v' = x mod 2 ^ bits w) \/ (r = RBool false /\ v ≠ c mod 2 ^ bits w /\ v' = v)
    end.
Proof.
  intros Hv Ha. destruct o as [| |x|x|x| |c x]; cbn [arg_ok] in Ha.
  - split; [done|]. eexists _, _. split; [done|]. split; [apply md_range|done].
  - split; [done|]. eexists _, _. split; [done|]. split; [apply md_range|done].
  - split; [done|]. eexists _, _. split; [done|]. split; [apply md_range|done].
  - destruct w; cbn [katom_gcc katom_win]; rewrite ?neg_ok by lia; (split; [done|]); eexists _, _; (split; [done|]);
      (split; [apply md_range|done]).
  - split; [done|]. eexists _, _. split; [done|]. split; [apply md_range|done].
  - split; [done|]. eexists _, _. split; [done|]. split; [apply md_range|]. split; [done|]. cbn. by rewrite Z.add_0_r.
  - cbn [katom_gcc katom_win]. unfold sync_bool_cas, InterlockedCompareExchange. cbn [fst snd].
    destruct (decide (v = md w c)) as [E|E].
    + rewrite bool_decide_true by done. split; [done|]. eexists _, _. split; [done|]. split; [apply md_range|]. left. by split_and!.
    + rewrite bool_decide_false by congruence. split; [done|]. eexists _, _. split; [done|]. split; [done|]. right. by split_and!.
Qed.
(** the most negative argument of katom_sub: undefined behaviour *)
Theorem C84_sub_refuted v : katom_gcc W32 (OSub (- 2 ^ 31)) v = None /\ katom_win W32 (OSub (- 2 ^ 31)) v = None /\
  katom_win W64 (OSub (- 2 ^ 63)) v = None /\ katom_gcc W64 (OSub (- 2 ^ 63)) v ≠ None.
Proof. split_and!; done. Qed.

(** * Histories of any number of threads *)
Lemma hist_app f os1 os2 : forall v, hist f v (os1 ++ os2) =
  match hist f v os1 with Some (rs1, v1) => match hist f v1 os2 with Some (rs2, v2) => Some (rs1 ++ rs2, v2) | None => None end | None => None end.
Proof.
  induction os1 as [|[t o] os1 IH]; intros v; cbn; [by destruct (hist f v os2) as [[? ?]|]|].
  destruct (f o v) as [[r v1]|]; [|done]. rewrite IH. destruct (hist f v1 os1) as [[rs1 v2]|]; [|done]. by destruct (hist f v2 os2) as [[? ?]|].
Qed.
Definition total (os : list (nat * aop)) : Z := foldr (λ q z, delta (snd q) + z) 0 os.
(** no update is lost *)
Theorem C84_sum w os : forall v, 0 <= v < 2 ^ bits w -> Forall (λ q, arg_ok w (snd q) /\ is_count (snd q)) os ->
  exists rs, hist (katom_gcc w) v os = Some (rs, (v + total os) mod 2 ^ bits w) /\ length rs = length os.
Proof.
  induction os as [|[t o] os IH]; intros v Hv Ho; cbn [hist total foldr].
  - exists []. rewrite Z.add_0_r, Z.mod_small by done. done.
  - apply Forall_cons in Ho as [[Ha Hc] Ho]. cbn [snd] in *. destruct (C84_meaning w o v Hv Ha) as (_ & r & v' & -> & Hv' & Hm).
    assert (Ev : v' = (v + delta o) mod 2 ^ bits w) by (destruct o; try done; apply Hm).
    destruct (IH v' Hv' Ho) as (rs & -> & El). exists ((t, r) :: rs). split; [|cbn; by f_equal]. do 2 f_equal. unfold total.
    rewrite Ev, Zplus_mod_idemp_l. f_equal. lia.
Qed.
(** tickets: up to 2^w increments, by whatever threads, all return different values *)
Lemma hist_incs w os : forall v, 0 <= v < 2 ^ bits w -> Forall (λ q : nat * aop, snd q = OInc) os ->
  exists v', hist (katom_gcc w) v os = Some (imap (λ i q, (fst q, RVal ((v + 1 + Z.of_nat i) mod 2 ^ bits w))) os, v') /\ 0 <= v' < 2 ^ bits w.
Proof.
  induction os as [|[t o] os IH]; intros v Hv Ho; [by exists v|].
  apply Forall_cons in Ho as [Eo Ho]. cbn in Eo. subst o. cbn [hist katom_gcc val sync_add_and_fetch fst snd].
  destruct (IH (md w (v + 1)) (md_range _ _) Ho) as (v' & -> & Hv'). exists v'. split; [|done]. cbn [imap fst]. do 2 f_equal. f_equal.
  - do 2 f_equal. unfold md. f_equal. lia.
  - apply imap_ext. intros i q _. cbn. do 2 f_equal. unfold md. rewrite <- Z.add_assoc, Zplus_mod_idemp_l. f_equal. lia.
Qed.
Theorem C84_tickets w v os rs v' : 0 <= v < 2 ^ bits w -> Forall (λ q : nat * aop, snd q = OInc) os -> Z.of_nat (length os) <= 2 ^ bits w ->
  hist (katom_gcc w) v os = Some (rs, v') -> NoDup (snd <$> rs).
Proof.
  intros Hv Ho Hl H. destruct (hist_incs w os v Hv Ho) as (v2 & E & _). rewrite H in E. injection E as -> _.
  apply NoDup_alt. intros i j x Hi Hj. rewrite list_lookup_fmap, list_lookup_imap in Hi, Hj.
  destruct (os !! i) as [q|] eqn:Ei; [|done]. destruct (os !! j) as [q'|] eqn:Ej; [|done]. cbn in Hi, Hj. injection Hi as <-. injection Hj as Hj.
  apply lookup_lt_Some in Ei, Ej. set (N := 2 ^ bits w) in *. 
  assert (HN : 0 < N) by (destruct (pow_pos w) as [? ?]; unfold N; lia).
  assert (D : ((v + 1 + Z.of_nat j) - (v + 1 + Z.of_nat i)) mod N = 0).
  { rewrite Zminus_mod, Hj, Z.sub_diag. done. }
  replace (v + 1 + Z.of_nat j - (v + 1 + Z.of_nat i)) with (Z.of_nat j - Z.of_nat i) in D by lia.
  apply Z.mod_divide in D; [|lia]. destruct D as [k Hk]. assert (k = 0) by nia. lia.
Qed.
(** reference counting: of v references, each dropped once, exactly the last drop sees zero *)
Theorem C84_last_reference w v os rs v' : 0 < v < 2 ^ bits w -> Forall (λ q : nat * aop, snd q = ODec) os -> Z.of_nat (length os) = v ->
  hist (katom_gcc w) v os = Some (rs, v') ->
  v' = 0 /\ forall i t r, rs !! i = Some (t, r) -> (r = RVal 0 <-> i = (length rs - 1)%nat).
Proof.
  assert (HG : forall os v, 0 <= v < 2 ^ bits w -> Forall (λ q : nat * aop, snd q = ODec) os -> Z.of_nat (length os) <= v ->
    hist (katom_gcc w) v os = Some (imap (λ i q, (fst q, RVal (v - 1 - Z.of_nat i))) os, v - Z.of_nat (length os))).
  { clear. induction os as [|[t o] os IH]; intros v Hv Ho Hl; cbn [length] in *; [cbn; do 2 f_equal; lia|].
    apply Forall_cons in Ho as [Eo Ho]. cbn in Eo. subst o. cbn [hist katom_gcc val sync_add_and_fetch fst snd].
    assert (E : md w (v + -1) = v - 1) by (unfold md; rewrite Z.mod_small; lia). rewrite E, IH by (try done; lia). cbn [imap fst].
    f_equal. f_equal; [|lia]. f_equal; [do 2 f_equal; lia|]. apply imap_ext. intros i q _. cbn. do 2 f_equal. lia. }
  intros Hv Ho Hl H. rewrite HG in H by (try done; lia). injection H as <- <-. split; [lia|].
  intros i t r Hi. rewrite list_lookup_imap in Hi. destruct (os !! i) as [q|] eqn:Ei; [|done]. cbn in Hi. injection Hi as <- <-.
  apply lookup_lt_Some in Ei. rewrite imap_length. split; [intros [= E]; lia|intros ->; f_equal; lia].
Qed.
(** a flag taken with katom_cas: of any number of attempts on a free flag exactly the first succeeds, and the flag stays as that one set it *)
Theorem C84_cas_once w c x t os rs v' : c mod 2 ^ bits w ≠ x mod 2 ^ bits w -> Forall (λ q : nat * aop, snd q = OCas c x) os ->
  hist (katom_gcc w) (c mod 2 ^ bits w) ((t, OCas c x) :: os) = Some (rs, v') ->
  v' = x mod 2 ^ bits w /\ exists rs', rs = (t, RBool true) :: rs' /\ Forall (λ q, snd q = RBool false) rs'.
Proof.
  intros Hc Ho. cbn [hist katom_gcc]. unfold sync_bool_cas at 1 2. rewrite !decide_True by done. cbn [fst snd].
  assert (HG : exists rs', hist (katom_gcc w) (md w x) os = Some (rs', md w x) /\ Forall (λ q, snd q = RBool false) rs').
  { induction os as [|[t' o] os IH]; [by exists []|]. apply Forall_cons in Ho as [Eo Ho]. cbn in Eo. subst o. destruct (IH Ho) as (rs' & E & F).
    exists ((t', RBool false) :: rs'). cbn [hist katom_gcc]. unfold sync_bool_cas. rewrite !decide_False by (unfold md; congruence). cbn [fst snd]. rewrite E.
    split; [done|]. by constructor. }
  destruct HG as (rs' & -> & F). intros [= <- <-]. split; [done|]. by exists rs'.
Qed.
(** a 16-bit counter with 65536 references counts none: the first drop sees 65535, not the last zero *)
Theorem C84_wrap_refuted : exists rs v', hist (katom_gcc W16) 65535 [(0%nat, OInc); (1%nat, ODec)] = Some (rs, v') /\ rs = [(0%nat, RVal 0); (1%nat, RVal 65535)] /\ v' = 65535.
Proof. eexists _, _. split; [vm_compute; reflexivity|done]. Qed.
Theorem C84_example : exists rs, hist (katom_gcc W32) 0 [(1%nat, OInc); (2%nat, OInc); (1%nat, OAdd 5); (2%nat, OSub 3); (1%nat, OCas 4 9); (2%nat, OCas 4 7); (1%nat, OSet (-1)); (2%nat, ODec)] =
  Some (rs, 4294967294) /\ snd <$> rs = [RVal 1; RVal 2; RVal 2; RVal 7; RBool true; RBool false; RVal 9; RVal 4294967294] /\
  (exists rs, hist (katom_gcc W32) 3 [(1%nat, ODec); (2%nat, ODec); (1%nat, ODec)] = Some (rs, 0) /\ snd <$> rs = [RVal 2; RVal 1; RVal 0]).
Proof. eexists. split; [vm_compute; reflexivity|]. split; [done|]. eexists. split; [vm_compute; reflexivity|done]. Qed.
