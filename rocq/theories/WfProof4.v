(** Proofs for C72: the effects of the steps, continued. *)
From Verif Require Import WfModel WfSpec WfProof WfProof2 WfProof3.
Local Open Scope Z_scope.

Section I.
Context (home : nat -> nat) (maxw : nat) (c0 : nat -> list Z).
Notation WI := (WI home c0).
Notation opinv := (opinv home).

(** before the next system call *)
Definition next_ (o : op) (ph : phase) (o' : op) : Prop :=
  (ph = PStart /\ o' = o) \/ exists r, ph = PReady r /\ 0 < r /\ o_full o = true /\ o' = adv o (Z.to_nat r).
Lemma next_same o ph o' : next_ o ph o' -> o_id o' = o_id o /\ o_f o' = o_f o /\ o_t o' = o_t o /\ o_wr o' = o_wr o /\ o_len o' = o_len o /\ o_full o' = o_full o.
Proof. by intros [[_ ->]|(r & _ & _ & _ & ->)]. Qed.
Lemma next_progress s fi o ph o' wr off : opinv s fi o ph -> progress s o ph wr off -> next_ o ph o' ->
  exists xs, seq_ok wr (o_len o) off xs /\ Forall (λ y, 0 < x_res y) xs /\ total xs = o_done o' /\ (o_full o = false -> xs = []) /\ (o_done o' <= o_len o)%nat /\
      match wr with Some d => bufs s (o_id o) = d /\ length d = o_len o | None => bufs s (o_id o) = concat (x_got <$> xfers (o_id o) (hist s)) /\
        length (bufs s (o_id o)) = total (xfers (o_id o) (hist s)) end /\
      f_off (fls s (o_f o)) = off + Z.of_nat (o_done o') /\ xfers (o_id o) (hist s) = xs.
Proof.
  intros HP HH [[-> ->]|(r & -> & Hr & Hf & ->)].
  - destruct HH as (xs & P1 & P2 & P3 & P4 & P5 & P6 & P7 & P8). exists xs. split_and!; try done; [by intros E; rewrite E in P4|]. rewrite P7. unfold moved. lia.
  - destruct HH as (xs & P1 & P2 & P3 & P4 & P5 & P6 & P7 & x & P8 & P9 & P10). exists (xs ++ [x]). cbn [adv o_done]. pose proof P10 as (_ & Hl & _). split_and!; try done.
    + apply seq_snoc; [done|done|]. by rewrite P3.
    + apply Forall_app. split; [done|]. constructor; [lia|done].
    + rewrite total_app, total_one, P9. lia.
    + by rewrite Hf.
    + rewrite Hf in P4. destruct P4 as [P4|P4]; [done|]. lia.
    + rewrite P7. unfold moved. lia.
Qed.

Lemma WI_submit s fi o ph o' g : WI s -> at_ s fi o ph -> next_ o ph o' -> (o_full o' = true -> (o_done o' < o_len o')%nat) ->
  (forall y, g y = updf (fib s) fi (FWait o') y) -> let x := fls s (o_f o) in
  WI (mks (upd (fls s) (o_f o) (mkf (f_al x) (f_sel x) (f_ino x) (f_off x) fi (o_id o') (o_done o') (o_len o' - o_done o') (o_wr o')))
        (cont s) (queue s ++ [o_f o]) (runq s) (msgs s) g (bufs s) (nid s) (hist s)).
Proof.
  intros HI Ha Hn Hd Hg x. set (s' := mks _ _ _ _ _ _ _ _ _). pose proof (w_op _ _ _ HI _ _ _ Ha) as HP.
  destruct (next_same _ _ _ Hn) as (N1 & N2 & N3 & N4 & N5 & N6).
  assert (HJ : jobs s' ≡ₚ (o_f o, None) :: jobs s).
  { unfold jobs. cbn [s' queue runq msgs]. rewrite fmap_app, <- app_assoc. cbn. by rewrite <- Permutation_middle. }
  assert (Hno : forall y, (o_f o, y) ∉ jobs s).
  { intros y Hy. destruct (job_op _ _ _ _ _ HI Hy) as (fi' & p & Hp & E & _). destruct (at_file _ _ _ _ _ _ _ _ _ HI Ha Hp (eq_sym E)) as (_ & -> & E2).
    destruct Hn as [[-> _]|(r & -> & _)]; discriminate E2. }
  assert (Hnd : NoDup (fst <$> jobs s')). { rewrite HJ. cbn. apply NoDup_cons. split; [|apply HI]. intros H. apply elem_of_list_fmap in H as ([f' y] & E & H). cbn in E. subst f'. by apply Hno in H. }
  assert (Hff : fls s' (o_f o) = mkf (f_al x) (f_sel x) (f_ino x) (f_off x) fi (o_id o') (o_done o') (o_len o' - o_done o') (o_wr o')) by (cbn; apply upd_eq).
  assert (Hin : (o_f o, None) ∈ jobs s') by (rewrite HJ; apply elem_of_cons; by left).
  assert (Hfi : g fi = FWait o') by (rewrite Hg; apply updf_eq).
  destruct (p_call _ _ _ _ _ HP) as (wr & off & C1 & C2 & C3).
  destruct (next_progress _ _ _ _ _ _ _ HP C3 Hn) as (xs & P1 & P2 & P3 & P4 & P5 & P6 & P7 & P8).
  apply (WI_change home c0 s s' fi o ph o' (PWait None) []); try done.
  - intros y Hy. cbn. rewrite Hg. by apply updf_ne.
  - split; [done|]. by rewrite N2.
  - split.
    + exists wr, off. rewrite N1, N3, N2, N5, N6, N4. split_and!; [done|done|]. cbn [progress]. exists xs. rewrite N5, N6, N1, N2. split_and!; try done.
      * rewrite N6, N5 in Hd. destruct (o_full o); [right; by apply Hd|by apply P4].
      * rewrite Hff. unfold moved. cbn [f_off]. unfold x. lia.
    + rewrite N1. apply HP.
    + rewrite N2, Hff. apply HP.
    + pose proof (p_fid _ _ _ _ _ HP) as H. destruct fi as [t|id].
      * rewrite N2, N3, Hff. done.
      * rewrite N1, N2, N3. destruct H as [-> H]. split; [done|]. cbn. rewrite Hg, updf_ne; [done|]. intros [=].
    + done.
    + rewrite N2, Hff. cbn. done.
  - intros f Hf. cbn. by apply upd_ne.
  - rewrite Hff. apply HP.
  - by rewrite Hff.
  - by rewrite Hff.
  - intros m Hm. destruct (decide (m_f m = o_f o)) as [E|E].
    + exfalso. apply (Hno (Some (m_r m))). unfold jobs. rewrite !elem_of_app. right. right. apply elem_of_list_fmap. exists m. split; [by rewrite <- E|done].
    + cbn [s' fls]. rewrite upd_ne by done. by apply (w_msg _ _ _ HI).
  - by rewrite app_nil_r.
  - by left.
  - apply HI.
  - intros f y Hf. rewrite HJ, elem_of_cons. split; [|by right]. intros [E|E]; [congruence|done].
  - intros y _. by eexists.
  - split; [intros r Hr; pose proof (job_fun _ _ _ _ Hnd Hin Hr); congruence|]. intros _. rewrite Hff. cbn [f_off s' hist]. unfold x.
    apply (w_pos _ _ _ HI (o_f o)); [apply HP|]. intros r. apply Hno.
Qed.

(** the end of a call *)
Definition exits (o : op) (ph : phase) (o' : op) (r : Z) : Prop :=
  (next_ o ph o' /\ o_full o = true /\ (o_len o <= o_done o')%nat /\ r = 1) \/
  exists r0, ph = PReady r0 /\ ((o_full o = true /\ r0 <= 0 /\ o' = o /\ r = 0) \/ (o_full o = false /\ o' = adv o (Z.to_nat r0) /\ r = r0)).
Lemma exits_ok s fi o ph o' r wr off : opinv s fi o ph -> progress s o ph wr off -> o_wr o = is_wr wr -> exits o ph o' r ->
  ret_ok wr (o_len o) (o_full o) off (xfers (o_id o) (hist s)) r (o_len o - o_done o') (if o_wr o then [] else take (o_done o') (bufs s (o_id o))).
Proof.
  intros HP HH Hw [(Hn & Hf & Hl & ->)|(r0 & -> & HE)].
  - destruct (next_progress _ _ _ _ _ _ _ HP HH Hn) as (xs & P1 & P2 & P3 & P4 & P5 & P6 & P7 & P8). rewrite P8, Hf. split_and!; [done|lia| |left; split; [done|lia]].
    rewrite Hw. destruct wr as [d|]; [done|]. cbn. destruct P6 as [P6 P6']. rewrite P8 in P6, P6'. rewrite <- P3, <- P6', take_ge by done. done.
  - destruct HH as (xs & P1 & P2 & P3 & P4 & P5 & P6 & P7 & x & P8 & P9 & P10). rewrite P8. pose proof P10 as (_ & Hl & _).
    assert (Hseq : seq_ok wr (o_len o) off (xs ++ [x])) by (apply seq_snoc; [done|done|]; by rewrite P3).
    assert (Hgot : wr = None -> concat (x_got <$> xs ++ [x]) = bufs s (o_id o) /\ length (bufs s (o_id o)) = (o_done o + Z.to_nat (x_res x))%nat).
    { intros ->. destruct P6 as [P6 P6']. rewrite P8 in P6, P6'. rewrite total_app, total_one, P3 in P6'. done. }
    destruct HE as [(Hf & Hr & -> & ->)|(Hf & -> & ->)].
    + rewrite Hf in *. destruct P4 as [P4|P4]; [done|]. split_and!; [done|rewrite total_app, total_one; lia| |].
      * rewrite Hw. destruct wr as [d|]; [done|]. cbn. destruct Hgot as [-> E]; [done|]. rewrite take_ge by lia. done.
      * right. split_and!; [done|lia|]. exists xs, x. split; [done|lia].
    + rewrite Hf in *. subst xs. cbn [total fmap list_fmap sum_list] in P3. cbn [adv o_done]. split_and!; [done|rewrite total_app, total_one; unfold total in *; cbn in *; lia| |].
      * rewrite Hw. destruct wr as [d|]; [done|]. cbn [is_wr]. destruct Hgot as [-> E]; [done|]. rewrite take_ge by lia. done.
      * exists x. done.
Qed.
Lemma exits_same o ph o' r : exits o ph o' r -> o_id o' = o_id o /\ o_f o' = o_f o /\ o_t o' = o_t o /\ o_wr o' = o_wr o /\ o_len o' = o_len o /\ o_full o' = o_full o.
Proof. intros [(Hn & _)|(r0 & _ & [(_ & _ & -> & _)|(_ & -> & _)])]; [by apply next_same in Hn|done|done]. Qed.
Lemma WI_exit s fi o ph o' r g : WI s -> at_ s fi o ph -> exits o ph o' r -> (forall y, g y = updf (fib s) fi (FExit o' r) y) ->
  WI (mks (fls s) (cont s) (queue s) (runq s) (msgs s) g (bufs s) (nid s) (hist s)).
Proof.
  intros HI Ha He Hg. set (s' := mks _ _ _ _ _ _ _ _ _). pose proof (w_op _ _ _ HI _ _ _ Ha) as HP.
  destruct (exits_same _ _ _ _ He) as (N1 & N2 & N3 & N4 & N5 & N6).
  assert (Hph : forall y, ph <> PWait y). { intros y ->. destruct He as [([[[=] _]|(r1 & [=] & _)] & _)|(r0 & [=] & _)]. }
  assert (Hno : forall y, (o_f o, y) ∉ jobs s).
  { intros y Hy. destruct (job_op _ _ _ _ _ HI Hy) as (fi' & p & Hp & E & _). destruct (at_file _ _ _ _ _ _ _ _ _ HI Ha Hp (eq_sym E)) as (_ & -> & E2).
    by apply (Hph y). }
  destruct (p_call _ _ _ _ _ HP) as (wr & off & C1 & C2 & C3). pose proof (exits_ok _ _ _ _ _ _ _ _ HP C3 C2 He) as HR.
  apply (WI_change home c0 s s' fi o ph o' (PExit r) []); try done.
  - intros y Hy. cbn. rewrite Hg. by apply updf_ne.
  - cbn. rewrite Hg. apply updf_eq.
  - split.
    + exists wr, off. rewrite N1, N3, N2, N5, N6, N4. split_and!; [done|done|]. cbn [progress]. by rewrite N5, N6, N1, N4.
    + rewrite N1. apply HP.
    + rewrite N2. apply HP.
    + pose proof (p_fid _ _ _ _ _ HP) as H. destruct fi as [t|id].
      * by rewrite N2, N3.
      * rewrite N1, N2, N3. destruct H as [-> H]. split; [done|]. cbn. rewrite Hg, updf_ne; [done|]. intros [=].
    + done.
    + done.
  - apply HP.
  - apply HI.
  - by rewrite app_nil_r.
  - by left.
  - apply HI.
  - apply HI.
  - intros y Hy. by apply Hno in Hy.
  - apply (w_pos _ _ _ HI). apply HP.
Qed.
End I.
