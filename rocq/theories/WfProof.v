(** Proofs for C72: the invariant. *)
From Verif Require Import WfModel WfSpec.
Local Open Scope Z_scope.

Lemma upd_eq {A} (g : nat -> A) k v : upd g k v k = v.
Proof. unfold upd. by rewrite decide_True. Qed.
Lemma upd_ne {A} (g : nat -> A) k v x : x <> k -> upd g k v x = g x.
Proof. unfold upd. intros. by rewrite decide_False. Qed.
Lemma updf_eq {A} (g : fid -> A) k v : updf g k v k = v.
Proof. unfold updf. by rewrite decide_True. Qed.
Lemma updf_ne {A} (g : fid -> A) k v x : x <> k -> updf g k v x = g x.
Proof. unfold updf. intros. by rewrite decide_False. Qed.

(** * Lists of transfers *)
Lemma total_app xs ys : total (xs ++ ys) = (total xs + total ys)%nat.
Proof. unfold total. by rewrite fmap_app, sum_list_with_app || (rewrite fmap_app; induction xs as [|x xs IH]; cbn; [done|]; lia). Qed.
Lemma total_one x : total [x] = Z.to_nat (x_res x).
Proof. unfold total. cbn. lia. Qed.
Lemma seq_snoc xs : forall wr len off x, seq_ok wr len off xs -> Forall (λ y, 0 < x_res y) xs ->
  sys_ok (drop (total xs) <$> wr) (len - total xs) (off + Z.of_nat (total xs)) x -> seq_ok wr len off (xs ++ [x]).
Proof.
  induction xs as [|y xs IH]; intros wr len off x Hs Hp Hx.
  - cbn [app seq_ok]. split_and!; [|done|done]. change (total []) with 0%nat in Hx. replace (off + Z.of_nat 0) with off in Hx by lia. rewrite Nat.sub_0_r in Hx.
    by destruct wr.
  - apply Forall_cons in Hp as [Hy Hp]. destruct Hs as (H1 & H2 & H3). cbn [app seq_ok]. split_and!; [done|done|].
    apply IH; [done|done|]. unfold total in Hx. cbn in Hx. fold (total xs) in Hx.
    replace (drop (total xs) <$> (drop (Z.to_nat (x_res y)) <$> wr)) with (drop (Z.to_nat (x_res y) + total xs) <$> wr)
      by (destruct wr; cbn; [by rewrite drop_drop|done]).
    replace (len - Z.to_nat (x_res y) - total xs)%nat with (len - (Z.to_nat (x_res y) + total xs))%nat by lia.
    replace (off + Z.max 0 (x_res y) + Z.of_nat (total xs)) with (off + Z.of_nat (Z.to_nat (x_res y) + total xs)) by lia. done.
Qed.

(** * Histories *)
Lemma called_app h k : called (h ++ k) = called h ++ called k.
Proof. unfold called. by rewrite omap_app. Qed.
Lemma returned_app h k : returned (h ++ k) = returned h ++ returned k.
Proof. unfold returned. by rewrite omap_app. Qed.
Lemma xfers_app id h k : xfers id (h ++ k) = xfers id h ++ xfers id k.
Proof. unfold xfers. by rewrite omap_app. Qed.
Lemma pos_app f h k : pos f (h ++ k) = fold_left (pos1 f) k (pos f h).
Proof. unfold pos. by rewrite fold_left_app. Qed.
Lemma contents_app c0 i h k : contents c0 i (h ++ k) = fold_left (cont1 i) k (contents c0 i h).
Proof. unfold contents. by rewrite fold_left_app. Qed.
Lemma owner_app f h k : owner f (h ++ k) = fold_left (own1 f) k (owner f h).
Proof. unfold owner. by rewrite fold_left_app. Qed.
Lemma called_in id t f wr len full acc off h : HCall id t f wr len full acc off ∈ h -> id ∈ called h.
Proof. intros H. apply elem_of_list_omap. by eexists. Qed.
Lemma returned_in id t f r rem b h : HRet id t f r rem b ∈ h -> id ∈ returned h.
Proof. intros H. apply elem_of_list_omap. by eexists. Qed.
Lemma call_uniq h id t f wr len full acc off t' f' wr' len' full' acc' off' : NoDup (called h) ->
  HCall id t f wr len full acc off ∈ h -> HCall id t' f' wr' len' full' acc' off' ∈ h ->
  HCall id t f wr len full acc off = HCall id t' f' wr' len' full' acc' off'.
Proof.
  induction h as [|e h IH]; intros HN H1 H2; [by apply elem_of_nil in H1|].
  apply elem_of_cons in H1 as [H1|H1]; apply elem_of_cons in H2 as [H2|H2].
  - congruence.
  - subst e. cbn in HN. apply NoDup_cons in HN as [HN _]. by apply called_in in H2.
  - subst e. cbn in HN. apply NoDup_cons in HN as [HN _]. by apply called_in in H1.
  - apply IH; [|done|done]. unfold called in *. cbn in HN. destruct e; try done. by apply NoDup_cons in HN as [_ HN].
Qed.
(** the events that say nothing about call [id] *)
Definition foreign (id : nat) (h : hev) : Prop :=
  match h with HCall i _ _ _ _ _ _ _ => i <> id | HRet i _ _ _ _ _ => i <> id | HExec i _ _ _ _ _ _ _ => i <> id | _ => True end.
Lemma xfers_foreign id k : Forall (foreign id) k -> xfers id k = [].
Proof.
  induction k as [|e k IH]; intros H; [done|]. apply Forall_cons in H as [He Hk]. unfold xfers in *. cbn. rewrite IH by done.
  destruct e; try done. cbn in He. by rewrite decide_False.
Qed.
Lemma ret_foreign id k : Forall (foreign id) k -> id ∉ returned k.
Proof.
  intros H Hi. apply elem_of_list_omap in Hi as (e & He & Hi). rewrite Forall_forall in H. specialize (H e He). destruct e; try done. cbn in H. naive_solver.
Qed.

(** * The invariant *)
(** jobs in the hands of the workers and the messages on their way back: handle and, when it is known, the result *)
Definition jobs (s : sys) : list (nat * option Z) :=
  ((λ f, (f, None)) <$> queue s) ++ runq s ++ ((λ m, (m_f m, Some (m_r m))) <$> msgs s).
Inductive phase := PStart | PWait (x : option Z) | PReady (r : Z) | PExit (r : Z).
Definition at_ (s : sys) (fi : fid) (o : op) (ph : phase) : Prop :=
  match ph with
  | PStart => fib s fi = FStart o
  | PWait x => fib s fi = FWait o /\ (o_f o, x) ∈ jobs s
  | PReady r => fib s fi = FReady o r
  | PExit r => fib s fi = FExit o r
  end.
Definition moved (o : op) (ph : phase) : Z := Z.of_nat (o_done o) + match ph with PReady r => Z.max 0 r | _ => 0 end.
(** where the call has got to *)
Definition progress (s : sys) (o : op) (ph : phase) (wr : option (list Z)) (off : Z) : Prop :=
  match ph with
  | PExit r => ret_ok wr (o_len o) (o_full o) off (xfers (o_id o) (hist s)) r (o_len o - o_done o) (if o_wr o then [] else take (o_done o) (bufs s (o_id o)))
  | _ => exists xs, seq_ok wr (o_len o) off xs /\ Forall (λ y, 0 < x_res y) xs /\ total xs = o_done o /\
      (if o_full o then ph = PStart \/ (o_done o < o_len o)%nat else xs = []) /\ (o_done o <= o_len o)%nat /\
      match wr with Some d => bufs s (o_id o) = d /\ length d = o_len o | None => bufs s (o_id o) = concat (x_got <$> xfers (o_id o) (hist s)) /\
        length (bufs s (o_id o)) = total (xfers (o_id o) (hist s)) end /\
      f_off (fls s (o_f o)) = off + moved o ph /\
      match ph with
      | PWait (Some r) | PReady r => exists x, xfers (o_id o) (hist s) = xs ++ [x] /\ x_res x = r /\
          sys_ok (drop (o_done o) <$> wr) (o_len o - o_done o) (off + Z.of_nat (o_done o)) x
      | _ => xfers (o_id o) (hist s) = xs
      end
  end.
Section I.
Context (home : nat -> nat) (maxw : nat) (c0 : nat -> list Z).
Record opinv (s : sys) (fi : fid) (o : op) (ph : phase) : Prop := {
  p_call : exists wr off, HCall (o_id o) (o_t o) (o_f o) wr (o_len o) (o_full o) true off ∈ hist s /\ o_wr o = is_wr wr /\ progress s o ph wr off;
  p_ret : o_id o ∉ returned (hist s);
  p_al : f_al (fls s (o_f o)) = true;
  p_fid : match fi with Prog t => t = o_t o /\ f_sel (fls s (o_f o)) = home t | Help id => id = o_id o /\ fib s (Prog (o_t o)) = FJoin id (o_f o) end;
  p_ph : ph = PStart -> o_done o = 0%nat;
  p_kio : match ph with PWait _ => let x := fls s (o_f o) in
      f_data x = fi /\ k_id x = o_id o /\ k_pos x = o_done o /\ k_len x = (o_len o - o_done o)%nat /\ k_wr x = o_wr o | _ => True end }.

Record WI (s : sys) : Prop := {
  w_nodup : NoDup (fst <$> jobs s);
  w_job : forall f x, (f, x) ∈ jobs s -> exists fi o, fib s fi = FWait o /\ o_f o = f;
  w_wait : forall fi o, fib s fi = FWait o -> exists x, (o_f o, x) ∈ jobs s;
  w_op : forall fi o ph, at_ s fi o ph -> opinv s fi o ph;
  w_msg : forall m, m ∈ msgs s -> m_data m = f_data (fls s (m_f m)) /\ m_sel m = f_sel (fls s (m_f m));
  w_prog : forall t, fib s (Prog t) <> FNone;
  w_help : forall id, fib s (Help id) <> FRun /\ forall i f, fib s (Help id) <> FJoin i f;
  w_join : forall t id f, fib s (Prog t) = FJoin id f -> exists o ph, at_ s (Help id) o ph /\ o_id o = id /\ o_t o = t /\ o_f o = f;
  w_open : forall id t f, open_call id t f (hist s) -> (exists o ph, at_ s (Prog t) o ph /\ o_id o = id) \/ fib s (Prog t) = FJoin id f;
  w_one : forall id t id' t' f, open_call id t f (hist s) -> open_call id' t' f (hist s) -> id = id';
  w_ids : NoDup (called (hist s)) /\ forall id, id ∈ called (hist s) -> (id < nid s)%nat;
  w_rids : NoDup (returned (hist s)) /\ forall id, id ∈ returned (hist s) -> id ∈ called (hist s);
  w_xids : forall id, xfers id (hist s) <> [] -> id ∈ called (hist s);
  w_cont : forall i, cont s i = contents (c0 i) i (hist s);
  w_own : forall f, if f_al (fls s f) then exists t, owner f (hist s) = Some (t, f_ino (fls s f)) /\ f_sel (fls s f) = home t
                    else owner f (hist s) = None;
  w_pos : forall f, f_al (fls s f) = true ->
      (forall r, (f, Some r) ∈ jobs s -> f_off (fls s f) + Z.max 0 r = pos f (hist s)) /\
      ((forall r, (f, Some r) ∉ jobs s) -> f_off (fls s f) = pos f (hist s));
  w_callpos : forall h1 h2 id t f wr len full acc off, hist s = h1 ++ HCall id t f wr len full acc off :: h2 -> off = pos f h1 /\ owner f h1 <> None;
  w_exec : forall h1 h2 id f i off res b a g, hist s = h1 ++ HExec id f i off res b a g :: h2 ->
      b = contents (c0 i) i h1 /\ off = pos f h1 /\ (exists t, owner f h1 = Some (t, i)) /\ (exists t, open_call id t f h1);
  w_ret : forall id t f r rem bytes, HRet id t f r rem bytes ∈ hist s ->
      exists wr len full acc off, HCall id t f wr len full acc off ∈ hist s /\
        if acc : bool then ret_ok wr len full off (xfers id (hist s)) r rem bytes
        else r = 0 /\ rem = len /\ bytes = [] /\ xfers id (hist s) = [] }.

(** one operation per handle, one fiber per call *)
Lemma op_open s fi o ph : opinv s fi o ph -> open_call (o_id o) (o_t o) (o_f o) (hist s).
Proof. intros HP. destruct (p_call _ _ _ _ HP) as (wr & off & H & _). split; [by eauto|]. apply HP. Qed.
Lemma at_fun s fi o ph o' ph' : WI s -> at_ s fi o ph -> at_ s fi o' ph' -> o' = o /\ ph' = ph.
Proof.
  intros HI H1 H2. destruct ph, ph'; cbn in *; repeat match goal with H : _ /\ _ |- _ => destruct H end;
    match goal with H : fib s fi = _, H' : fib s fi = _ |- _ => rewrite H in H'; try discriminate H'; injection H' as <- end; subst; try done. split; [done|]. f_equal.
  pose proof (w_nodup _ HI) as HN. match goal with HA : (_, x) ∈ _, HB : (_, x0) ∈ _ |- _ => rename HA into H3, HB into H4 end.
  apply elem_of_list_lookup in H3 as [i Hi]. apply elem_of_list_lookup in H4 as [j Hj].
  assert (i = j). { eapply NoDup_lookup; [done| |]; rewrite list_lookup_fmap; [rewrite Hi|rewrite Hj]; done. } subst j. congruence.
Qed.
Lemma at_id s fi o ph fi' o' ph' : WI s -> at_ s fi o ph -> at_ s fi' o' ph' -> o_id o = o_id o' -> fi = fi' /\ o' = o /\ ph' = ph.
Proof.
  intros HI H1 H2 Hid. assert (fi = fi') as <-; [|split; [done|by eapply at_fun]].
  pose proof (w_op _ HI _ _ _ H1) as P1. pose proof (w_op _ HI _ _ _ H2) as P2.
  destruct (p_call _ _ _ _ P1) as (wr & off & C1 & _). destruct (p_call _ _ _ _ P2) as (wr' & off' & C2 & _). rewrite Hid in C1.
  pose proof (call_uniq _ _ _ _ _ _ _ _ _ _ _ _ _ _ _ _ (proj1 (w_ids _ HI)) C1 C2) as [= Et Ef _ _ _ _].
  pose proof (p_fid _ _ _ _ P1) as F1. pose proof (p_fid _ _ _ _ P2) as F2.
  assert (Hj : forall fi o ph id f, at_ s fi o ph -> fib s fi <> FJoin id f).
  { intros g p q id f H HH. destruct q; cbn in H; [|destruct H as [H _]| |]; congruence. }
  destruct fi as [t|i], fi' as [t'|i'].
  - destruct F1, F2. congruence.
  - destruct F1 as [-> _], F2 as [_ F2]. rewrite <- Et in F2. by eapply Hj in F2; [|exact H1].
  - destruct F2 as [-> _], F1 as [_ F1]. rewrite Et in F1. by eapply Hj in F1; [|exact H2].
  - destruct F1, F2. congruence.
Qed.
Lemma at_file s fi o ph fi' o' ph' : WI s -> at_ s fi o ph -> at_ s fi' o' ph' -> o_f o = o_f o' -> fi = fi' /\ o' = o /\ ph' = ph.
Proof.
  intros HI H1 H2 Hf. eapply at_id; [done..|]. eapply (w_one _ HI); [eapply op_open, w_op; eauto|]. rewrite Hf. eapply op_open, w_op; eauto.
Qed.
Lemma at_neq s fi o ph fi' o' ph' : WI s -> at_ s fi o ph -> at_ s fi' o' ph' -> fi' <> fi -> o_id o' <> o_id o /\ o_f o' <> o_f o.
Proof.
  intros HI H1 H2 Hn. split; intros E.
  - by destruct (at_id _ _ _ _ _ _ _ HI H2 H1 E).
  - by destruct (at_file _ _ _ _ _ _ _ HI H2 H1 E).
Qed.
(** what one step does not concern stays *)
Lemma opinv_frame s s' fi o ph k : opinv s fi o ph -> hist s' = hist s ++ k -> Forall (foreign (o_id o)) k -> bufs s' (o_id o) = bufs s (o_id o) ->
  fls s' (o_f o) = fls s (o_f o) -> (forall t, fib s (Prog t) = FJoin (o_id o) (o_f o) -> fib s' (Prog t) = FJoin (o_id o) (o_f o)) -> opinv s' fi o ph.
Proof.
  intros HP Hh Hk Hb Hf Hj. assert (Hx : xfers (o_id o) (hist s') = xfers (o_id o) (hist s)) by (rewrite Hh, xfers_app, (xfers_foreign _ k), app_nil_r; done).
  split.
  - destruct (p_call _ _ _ _ HP) as (wr & off & H1 & H2 & H3). exists wr, off. split_and!; [rewrite Hh; apply elem_of_app; by left|done|].
    unfold progress in *. by rewrite Hx, Hb, Hf.
  - rewrite Hh, returned_app. intros H. apply elem_of_app in H as [H|H]; [by apply (p_ret _ _ _ _ HP)|by apply ret_foreign in H].
  - rewrite Hf. apply HP.
  - pose proof (p_fid _ _ _ _ HP) as H. destruct fi as [t|id]; [by rewrite Hf|]. destruct H as [-> H]. split; [done|]. by apply Hj.
  - apply HP.
  - pose proof (p_kio _ _ _ _ HP) as H. destruct ph; try done. by rewrite Hf.
Qed.
Lemma WI_init : WI (winit c0).
Proof.
  split; cbn.
  - constructor.
  - intros f x H. by apply elem_of_nil in H.
  - by intros [|].
  - intros [|] o [| | |]; cbn; try done; by intros [].
  - intros m H. by apply elem_of_nil in H.
  - done.
  - done.
  - done.
  - intros id t f [(wr & len & full & off & H) _]. by apply elem_of_nil in H.
  - intros id t id' t' f [(wr & len & full & off & H) _]. by apply elem_of_nil in H.
  - split; [constructor|]. intros id H. by apply elem_of_nil in H.
  - split; [constructor|]. intros id H. by apply elem_of_nil in H.
  - done.
  - done.
  - done.
  - done.
  - intros h1 h2. intros. by destruct h1.
  - intros h1 h2. intros. by destruct h1.
  - intros id t f r rem b H. by apply elem_of_nil in H.
Qed.
End I.
