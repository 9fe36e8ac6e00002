(** Property C72: every call returns; examples and refutations. *)
From Verif Require Import WfModel WfSpec WfProof WfProof2 WfProof3 WfProof4 WfProof5 WfProps.
Local Open Scope Z_scope.

(** the steps of the library, the workers and the selectors, as opposed to new calls of the program *)
Definition internal (e : wev) : Prop :=
  match e with HStart _ | WTake | WExec _ _ | WFail _ | WPost _ | SCb _ | EResume _ | EJoined _ => True | _ => False end.
(** how much is left to do *)
Definition left_ (o : op) : nat := (8 * (o_len o - o_done o))%nat.
Definition weight (id : nat) (st : fstate) : nat :=
  match st with
  | FStart o => if decide (o_id o = id) then left_ o + 10 else 0
  | FWait o => if decide (o_id o = id) then left_ o + 4 else 0
  | FReady o _ => if decide (o_id o = id) then left_ o + 3 else 0
  | FExit o _ => if decide (o_id o = id) then 1 else 0
  | _ => 0
  end%nat.
Definition cw (g : fid -> fstate) (h : hev) : nat := match h with HCall id t _ _ _ _ true _ => weight id (g (Prog t)) + weight id (g (Help id)) | _ => 0 end%nat.
Definition calls_left (g : fid -> fstate) (h : list hev) : nat := sum_list (cw g <$> h).
Definition jw (x : nat * option Z) : nat := match snd x with None => 3 | Some _ => 2 end%nat.
Definition jobs_left (s : sys) : nat := (4 * length (queue s) + sum_list (jw <$> runq s) + length (msgs s))%nat.
Definition measure (s : sys) : nat := (jobs_left s + calls_left (fib s) (hist s))%nat.

Lemma sum_app (l k : list nat) : sum_list (l ++ k) = (sum_list l + sum_list k)%nat.
Proof. induction l as [|x l IH]; [done|]. cbn in *. unfold id in *. lia. Qed.
Lemma calls_app g h k : calls_left g (h ++ k) = (calls_left g h + calls_left g k)%nat.
Proof. unfold calls_left. rewrite fmap_app. apply sum_app. Qed.
Lemma calls_drop (g g' : fid -> fstate) h d e : (forall x, x ∈ h -> cw g' x <= cw g x)%nat -> e ∈ h -> (cw g' e + d <= cw g e)%nat -> (calls_left g' h + d <= calls_left g h)%nat.
Proof.
  unfold calls_left. induction h as [|x h IH]; intros H He Hd; [by apply elem_of_nil in He|]. cbn [fmap list_fmap sum_list]. cbn. unfold id.
  assert (Hx : (cw g' x <= cw g x)%nat) by (apply H, elem_of_cons; by left).
  assert (Hle : (sum_list (cw g' <$> h) <= sum_list (cw g <$> h))%nat).
  { assert (H' : forall y, y ∈ h -> (cw g' y <= cw g y)%nat) by (intros y Hy; apply H, elem_of_cons; by right). clear - H'. induction h as [|y h IH]; [done|].
    assert (cw g' y <= cw g y)%nat by (apply H', elem_of_cons; by left). assert (sum_list (cw g' <$> h) <= sum_list (cw g <$> h))%nat by (apply IH; intros z Hz; apply H', elem_of_cons; by right).
    cbn in *. unfold id in *. lia. }
  apply elem_of_cons in He as [->|He]; [unfold sum_list in *; unfold id in *; lia|].
  assert (sum_list (cw g' <$> h) + d <= sum_list (cw g <$> h))%nat by (apply IH; try done; intros y Hy; apply H, elem_of_cons; by right). unfold sum_list in *. unfold id in *. lia.
Qed.

Section live.
Context (home : nat -> nat) (maxw : nat) (c0 : nat -> list Z).
Notation WI := (WI home c0).
Notation opinv := (opinv home).
Notation step := (wstep home maxw).
Notation reach := (reach home maxw c0).

(** the weight of the call at [fi] goes down by [d], nobody's goes up *)
Lemma calls_fi s fi o ph g d : WI s -> at_ s fi o ph -> (forall y id, weight id (g y) <= weight id (fib s y))%nat ->
  (weight (o_id o) (g fi) + d <= weight (o_id o) (fib s fi))%nat -> (calls_left g (hist s) + d <= calls_left (fib s) (hist s))%nat.
Proof.
  intros HI Ha Hle Hd. pose proof (w_op _ _ _ HI _ _ _ Ha) as HP. destruct (p_call _ _ _ _ _ HP) as (wr & off & C1 & _).
  eapply calls_drop; [|exact C1|].
  - intros x _. destruct x; cbn; try lia. destruct acc; [|lia]. pose proof (Hle (Prog t) id). pose proof (Hle (Help id) id). lia.
  - cbn. pose proof (p_fid _ _ _ _ _ HP) as HF. pose proof (Hle (Prog (o_t o)) (o_id o)). pose proof (Hle (Help (o_id o)) (o_id o)).
    destruct fi as [t|id]; destruct HF as [-> _]; lia.
Qed.
Lemma weight_other id st o : (st = FStart o \/ st = FWait o \/ (exists r, st = FReady o r) \/ exists r, st = FExit o r) -> id <> o_id o -> weight id st = 0%nat.
Proof. intros [->|[->|[[r ->]|[r ->]]]] Hn; cbn; rewrite decide_False by congruence; done. Qed.
Lemma weight_upd s fi o o' st g : (fib s fi = FStart o \/ fib s fi = FWait o \/ (exists r, fib s fi = FReady o r) \/ exists r, fib s fi = FExit o r) ->
  (st = FRun \/ st = FNone \/ st = FStart o' \/ st = FWait o' \/ (exists r, st = FReady o' r) \/ exists r, st = FExit o' r) -> o_id o' = o_id o ->
  (weight (o_id o) st <= weight (o_id o) (fib s fi))%nat -> (forall y, g y = updf (fib s) fi st y) -> forall y id, (weight id (g y) <= weight id (fib s y))%nat.
Proof.
  intros H1 H2 Hid Hw Hg y id. rewrite Hg. destruct (decide (y = fi)) as [->|N]; [|by rewrite updf_ne]. rewrite updf_eq. destruct (decide (id = o_id o)) as [->|Hn]; [done|].
  assert (weight id st = 0%nat) as ->; [|lia]. destruct H2 as [->|[->|H2]]; [done|done|]. apply (weight_other id st o'); [done|congruence].
Qed.
Lemma finish_measure s fi o ph o' r : WI s -> at_ s fi o ph -> o_id o' = o_id o -> (forall y, ph <> PWait y) -> (forall y, ph <> PExit y) ->
  (measure (finish s fi o' r) < measure s)%nat.
Proof.
  intros HI Ha Hid N1 N2. assert (Hst : fib s fi = FStart o \/ fib s fi = FWait o \/ (exists r, fib s fi = FReady o r) \/ exists r, fib s fi = FExit o r).
  { destruct ph; cbn in Ha; [by left|by destruct (N1 x)|right; right; left; eauto|right; right; right; eauto]. }
  assert (Hw : (3 <= weight (o_id o) (fib s fi))%nat).
  { destruct ph; cbn in Ha; [rewrite Ha|by destruct (N1 x)|rewrite Ha|by destruct (N2 r0)]; cbn; rewrite decide_True by done; unfold left_; lia. }
  unfold measure. destruct fi as [t|id]; cbn [finish log set_fib fib hist].
  - rewrite calls_app. cbn [calls_left]. change (jobs_left (log _ _)) with (jobs_left s).
    assert (H : (calls_left (updf (fib s) (Prog t) FRun) (hist s) + 1 <= calls_left (fib s) (hist s))%nat).
    { eapply calls_fi; [done|done| |].
      - eapply (weight_upd s (Prog t) o o FRun); [done|by left|done|cbn; lia|done].
      - rewrite updf_eq. cbn. lia. }
    cbn. unfold calls_left in *. cbn. lia.
  - change (jobs_left (set_fib _ _)) with (jobs_left s).
    assert (H : (calls_left (updf (fib s) (Help id) (FExit o' r)) (hist s) + 1 <= calls_left (fib s) (hist s))%nat).
    { assert (Hwe : weight (o_id o) (FExit o' r) = 1%nat) by (cbn; by rewrite decide_True).
      eapply calls_fi; [done|done| |].
      - eapply (weight_upd s (Help id) o o' (FExit o' r)); [done|by eauto 10|done|lia|done].
      - rewrite updf_eq. lia. }
    lia.
Qed.
Lemma start_measure s fi o ph o' s' : WI s -> at_ s fi o ph -> next_ o ph o' -> start_op s fi o' = Some s' -> (measure s' < measure s)%nat.
Proof.
  intros HI Ha Hn HS. destruct (next_same _ _ _ Hn) as (N1 & N2 & N3 & N4 & N5 & N6). unfold start_op in HS.
  assert (M1 : forall y, ph <> PWait y) by (intros y ->; destruct Hn as [[[=] _]|(r1 & [=] & _)]).
  assert (M2 : forall y, ph <> PExit y) by (intros y ->; destruct Hn as [[[=] _]|(r1 & [=] & _)]).
  destruct (_ && _) eqn:E.
  - injection HS as <-. by eapply finish_measure.
  - destruct (negb _); [done|]. injection HS as <-. unfold measure. unfold jobs_left. cbn [queue runq msgs fib hist]. rewrite app_length. cbn [length].
    assert (H : (calls_left (updf (fib s) fi (FWait o')) (hist s) + 5 <= calls_left (fib s) (hist s))%nat); [|lia].
    assert (Hst : fib s fi = FStart o \/ fib s fi = FWait o \/ (exists r, fib s fi = FReady o r) \/ exists r, fib s fi = FExit o r).
    { destruct ph; cbn in Ha; [by left|by destruct (M1 x)|right; right; left; eauto|right; right; right; eauto]. }
    assert (Hw : (weight (o_id o) (FWait o') + 5 <= weight (o_id o) (fib s fi))%nat).
    { destruct Hn as [[-> ->]|(r & -> & Hr & Hf & ->)]; cbn in Ha; rewrite Ha; cbn [weight]; rewrite !decide_True by done; unfold left_; [lia|].
      pose proof (w_op _ _ _ HI _ _ _ (Ha : at_ s fi o (PReady r))) as HP. destruct (p_call _ _ _ _ _ HP) as (wr & off & _ & _ & xs & _ & _ & _ & P4 & _). rewrite Hf in P4.
      destruct P4 as [P4|P4]; [done|]. cbn [adv o_len o_done]. lia. }
    eapply calls_fi; [done|done| |by rewrite updf_eq].
    eapply (weight_upd s fi o o' (FWait o')); [done|by eauto|done|lia|done].
Qed.
Lemma sum_insert (l : list nat) j x y : l !! j = Some x -> (sum_list (<[j := y]> l) + x = sum_list l + y)%nat.
Proof.
  revert j. induction l as [|z l IH]; intros [|j] H; try done.
  - injection H as ->. change (y + sum_list l + x = x + sum_list l + y)%nat. lia.
  - specialize (IH j H). change (z + sum_list (<[j := y]> l) + x = z + sum_list l + y)%nat. lia.
Qed.
Lemma sum_del (l : list nat) j x : l !! j = Some x -> (sum_list (take j l ++ drop (S j) l) + x = sum_list l)%nat.
Proof. intros H. rewrite <- (take_drop_middle l j x H) at 3. rewrite !sum_app. change (sum_list (x :: drop (S j) l)) with (x + sum_list (drop (S j) l))%nat. lia. Qed.

(** C72 (progress) Every internal step brings the calls nearer to their return ... *)
Theorem C72_measure s e s' o : reach s -> internal e -> step s e = Ok s' o -> (measure s' < measure s)%nat.
Proof.
  intros HI%reach_WI Hi HS. destruct e as [t f i|t f|t f p off|t f|t f wr len full|t f wr len ok|id| |j k|j|j|j|fi|t]; try done; cbn [wstep] in HS.
  - destruct (fib s (Help id)) as [| |o'| | | |] eqn:Eh; try done. destruct (start_op _ _ _) as [s1|] eqn:ES; [|done]. injection HS as <- _.
    eapply (start_measure s (Help id) o' PStart o'); [done|done|by left|done].
  - destruct (queue s) as [|f q] eqn:Eq; [done|]. case_decide; [|done]. injection HS as <- _. unfold measure, jobs_left. cbn [queue runq msgs fib hist]. rewrite Eq, fmap_app, sum_app. change (sum_list (jw <$> [(f, None)])) with 3%nat. cbn [length]. lia.
  - assert (HE : forall c' got b res f, runq s !! j = Some (f, None) -> (measure (executed_ s j f res c' got b) < measure s)%nat).
    { intros c' got b res f Hj. unfold measure, jobs_left. cbn [executed_ queue runq msgs fib hist]. rewrite calls_app, list_fmap_insert.
      pose proof (sum_insert (jw <$> runq s) j 3 2) as H. rewrite list_lookup_fmap, Hj in H. specialize (H eq_refl). cbn [jw snd]. change (calls_left (fib s) [_]) with 0%nat. lia. }
    destruct (runq s !! j) as [[f [r|]]|] eqn:Ej; try done. destruct (negb (f_al (fls s f))); [done|]. destruct (negb _); [done|].
    destruct (k_wr _); [|case_decide; [|done]]; injection HS as <- _; by apply HE.
  - assert (HE : forall c' got b res f, runq s !! j = Some (f, None) -> (measure (executed_ s j f res c' got b) < measure s)%nat).
    { intros c' got b res f Hj. unfold measure, jobs_left. cbn [executed_ queue runq msgs fib hist]. rewrite calls_app, list_fmap_insert.
      pose proof (sum_insert (jw <$> runq s) j 3 2) as H. rewrite list_lookup_fmap, Hj in H. specialize (H eq_refl). cbn [jw snd]. change (calls_left (fib s) [_]) with 0%nat. lia. }
    destruct (runq s !! j) as [[f [r|]]|] eqn:Ej; try done. destruct (negb (f_al (fls s f))); [done|]. injection HS as <- _. by apply HE.
  - destruct (runq s !! j) as [[f [r|]]|] eqn:Ej; try done. destruct (negb (f_al (fls s f))); [done|]. injection HS as <- _. unfold measure, jobs_left. cbn [queue runq msgs fib hist].
    rewrite app_length, fmap_app, fmap_take, fmap_drop. cbn [length]. pose proof (sum_del (jw <$> runq s) j 2) as H. rewrite list_lookup_fmap, Ej in H. specialize (H eq_refl). lia.
  - destruct (msgs s !! j) as [m|] eqn:Ej; [|done]. destruct (negb (f_al _)); [done|]. destruct (fib s (m_data m)) as [| | |o'| | |] eqn:Ef; try done.
    destruct (negb (bool_decide _)); [done|]. injection HS as <- _. unfold measure, jobs_left. cbn [queue runq msgs fib hist].
    rewrite app_length, take_length, drop_length. pose proof (lookup_lt_Some _ _ _ Ej).
    assert (HC : (calls_left (updf (fib s) (m_data m) (FReady o' (m_r m))) (hist s) + 1 <= calls_left (fib s) (hist s))%nat); [|lia].
    destruct (w_wait _ _ _ HI _ _ Ef) as [x Hx]. assert (Ha : at_ s (m_data m) o' (PWait x)) by done.
    assert (Hw : (weight (o_id o') (FReady o' (m_r m)) + 1 <= weight (o_id o') (fib s (m_data m)))%nat) by (rewrite Ef; cbn [weight]; rewrite !decide_True by done; lia).
    eapply calls_fi; [done|exact Ha| |by rewrite updf_eq].
    eapply (weight_upd s (m_data m) o' o' (FReady o' (m_r m))); [by eauto|by eauto 10|done|lia|done].
  - destruct (fib s fi) as [| | | |o' r| |] eqn:Ef; try done. assert (Ha : at_ s fi o' (PReady r)) by done. destruct (o_full o') eqn:Efu.
    + destruct (r <=? 0) eqn:Er.
      * injection HS as <- _. by eapply (finish_measure s fi o' (PReady r) o').
      * apply Z.leb_gt in Er. destruct (start_op _ _ _) as [s1|] eqn:ES; [|done]. injection HS as <- _.
        eapply (start_measure s fi o' (PReady r)); [done|done| |exact ES]. right. by exists r.
    + injection HS as <- _. by eapply (finish_measure s fi o' (PReady r) (adv o' _)).
  - destruct (fib s (Prog t)) as [| | | | |id f|] eqn:Et; try done. destruct (fib s (Help id)) as [| | | | | |o' r] eqn:Eh; try done. injection HS as <- _.
    assert (Ha : at_ s (Help id) o' (PExit r)) by done. unfold measure. cbn [log set_fib fib hist]. rewrite calls_app. change (jobs_left (log _ _)) with (jobs_left s).
    assert (HC : (calls_left (updf (updf (fib s) (Help id) FNone) (Prog t) FRun) (hist s) + 1 <= calls_left (fib s) (hist s))%nat).
    { eapply calls_fi; [done|exact Ha| |].
      - intros y i. destruct (decide (y = Prog t)) as [->|N]; [rewrite updf_eq; cbn; lia|]. rewrite updf_ne by done.
        destruct (decide (y = Help id)) as [->|N']; [rewrite updf_eq; cbn; lia|]. rewrite updf_ne by done. lia.
      - rewrite updf_ne, updf_eq, Eh by done. cbn. by rewrite decide_True. }
    unfold calls_left in *. cbn. lia.
Qed.
(** program fibers never start or exit like helpers *)
Definition plain (s : sys) : Prop := forall t, match fib s (Prog t) with FStart _ | FExit _ _ => False | _ => True end.
Lemma plain_updf s g fi st : plain s -> (forall y, g y = updf (fib s) fi st y) -> (forall t, fi = Prog t -> match st with FStart _ | FExit _ _ => False | _ => True end) ->
  forall t, match g (Prog t) with FStart _ | FExit _ _ => False | _ => True end.
Proof. intros HP Hg Hs t. rewrite Hg. destruct (decide (Prog t = fi)) as [<-|N]; [rewrite updf_eq; by eapply Hs|]. rewrite updf_ne by done. apply HP. Qed.
Lemma plain_finish s fi o r : plain s -> plain (finish s fi o r).
Proof. intros HP. destruct fi; intros t'; cbn; eapply plain_updf; try done. Qed.
Lemma plain_start s fi o s' : plain s -> start_op s fi o = Some s' -> plain s'.
Proof.
  intros HP HS. unfold start_op in HS. destruct (_ && _); [injection HS as <-; by apply plain_finish|]. destruct (negb _); [done|]. injection HS as <-.
  intros t. cbn. by eapply plain_updf.
Qed.
Lemma plain_step s e s' o : plain s -> step s e = Ok s' o -> plain s'.
Proof.
  intros HP HS. destruct e as [t f i|t f|t f p off|t f|t f wr len full|t f wr len ok|id| |j k|j|j|j|fi|t]; cbn [wstep] in HS.
  - destruct (fib s (Prog t)); try done. destruct (f_al (fls s f)); [done|]. by injection HS as <- _.
  - destruct (fib s (Prog t)); try done. destruct (negb _); [done|]. by injection HS as <- _.
  - destruct (fib s (Prog t)); try done. destruct (negb _); [done|]. destruct p; by injection HS as <- _.
  - destruct (fib s (Prog t)); try done. destruct (negb _); [done|]. by injection HS as <- _.
  - destruct (fib s (Prog t)); try done. destruct (negb _); [done|]. destruct (negb _); [done|]. destruct (start_op _ _ _) as [s1|] eqn:ES; [|done]. injection HS as <- _. eapply plain_start; [|exact ES]. exact HP.
  - destruct (fib s (Prog t)); try done. destruct (negb _); [done|]. destruct (bool_decide _).
    + destruct (start_op _ _ _) as [s1|] eqn:ES; [|done]. injection HS as <- _. eapply plain_start; [|exact ES]. exact HP.
    + destruct ok; injection HS as <- _; [|done]. intros t'. cbn. rewrite updf_ne by done. by eapply plain_updf.
  - destruct (fib s (Help id)); try done. destruct (start_op _ _ _) as [s1|] eqn:ES; [|done]. injection HS as <- _. by eapply plain_start.
  - destruct (queue s); [done|]. case_decide; [|done]. by injection HS as <- _.
  - destruct (runq s !! j) as [[f [r|]]|]; try done. destruct (negb _); [done|]. destruct (negb _); [done|]. destruct (k_wr _); [by injection HS as <- _|]. case_decide; [|done]. by injection HS as <- _.
  - destruct (runq s !! j) as [[f [r|]]|]; try done. destruct (negb _); [done|]. by injection HS as <- _.
  - destruct (runq s !! j) as [[f [r|]]|]; try done. destruct (negb _); [done|]. by injection HS as <- _.
  - destruct (msgs s !! j) as [m|]; [|done]. destruct (negb _); [done|]. destruct (fib s (m_data m)); try done. destruct (negb _); [done|]. injection HS as <- _. intros t. cbn. by eapply plain_updf.
  - destruct (fib s fi); try done. destruct (o_full _); [|injection HS as <- _; by apply plain_finish]. destruct (_ <=? _); [injection HS as <- _; by apply plain_finish|].
    destruct (start_op _ _ _) as [s1|] eqn:ES; [|done]. injection HS as <- _. by eapply plain_start.
  - destruct (fib s (Prog t)); try done. destruct (fib s (Help id)); try done. injection HS as <- _. intros t'. cbn.
    destruct (decide (t' = t)) as [->|N]; [by rewrite updf_eq|]. rewrite !updf_ne by congruence. apply HP.
Qed.
Lemma reach_plain s : reach s -> plain s.
Proof.
  intros (es & os & HR & _). revert HR. assert (H : plain (winit c0)) by done. revert H. generalize (winit c0). revert os.
  induction es as [|e es IH]; intros os s0 HP HR; cbn in HR; [by injection HR as <- <-|].
  destruct (step s0 e) as [| |s1 o1] eqn:E; try done. destruct (run step s1 es) as [| |s2 os2] eqn:ER; try done. injection HR as <- <-.
  eapply IH; [|exact ER]. by eapply plain_step.
Qed.
(** ... and while a call has not returned, an internal step is possible.  So after finitely many steps every call has returned. *)
Theorem C72_live s id t f : (0 < maxw)%nat -> reach s -> open_call id t f (hist s) -> exists e s' o, internal e /\ step s e = Ok s' o.
Proof.
  intros Hm HR Ho. pose proof (reach_WI _ _ _ _ HR) as HI. pose proof (reach_plain _ HR) as HPl.
  assert (Hgo : forall e, internal e -> duty home s e -> step s e <> Disabled -> exists e s' o, internal e /\ step s e = Ok s' o).
  { intros e Hi Hd Hs. pose proof (WI_nocrash home maxw c0 s e HI Hd). destruct (step s e) as [| |s' o] eqn:E; try done. eauto. }
  assert (Hrun : forall j f x, runq s !! j = Some (f, x) -> exists e s' o, internal e /\ step s e = Ok s' o).
  { intros j f' [r|] Hj; [apply (Hgo (WPost j))|apply (Hgo (WFail j))]; try done; cbn; rewrite Hj; by destruct (negb _). }
  destruct (open_at _ _ _ _ _ _ HI Ho) as (fi & o & ph & Ha & _ & _ & Et & HP). destruct ph as [|x|r|r].
  - destruct fi as [t'|i]; [specialize (HPl t'); cbn in Ha; by rewrite Ha in HPl|]. apply (Hgo (HStart i)); try done. cbn in *. rewrite Ha. by destruct (start_op _ _ _).
  - destruct Ha as [_ Hj]. unfold jobs in Hj. apply elem_of_app in Hj as [Hj|Hj]; [|apply elem_of_app in Hj as [Hj|Hj]].
    + destruct (queue s) as [|f' q] eqn:Eq; [by apply elem_of_nil in Hj|]. destruct (decide (length (runq s) < maxw)%nat) as [Hl|Hl].
      * apply (Hgo WTake); try done. cbn. rewrite Eq. by rewrite decide_True.
      * destruct (runq s) as [|[g y] l] eqn:Er; [cbn in Hl; lia|]. by apply (Hrun 0%nat g y).
    + apply elem_of_list_lookup in Hj as [j Hj]. by eapply Hrun.
    + apply elem_of_list_fmap in Hj as (m & _ & Hmm). apply elem_of_list_lookup in Hmm as [j Hj]. apply (Hgo (SCb j)); try done. cbn. rewrite Hj.
      destruct (negb _); [done|]. destruct (fib s (m_data m)); try done. by destruct (negb _).
  - apply (Hgo (EResume fi)); try done. cbn in *. rewrite Ha. destruct (o_full o); [|done]. destruct (_ <=? _); [done|]. by destruct (start_op _ _ _).
  - destruct fi as [t'|i]; [specialize (HPl t'); cbn in Ha; by rewrite Ha in HPl|]. pose proof (p_fid _ _ _ _ _ HP) as [Ei HF]. apply (Hgo (EJoined (o_t o))); try done.
    cbn in *. rewrite HF. by rewrite Ha.
Qed.
End live.

(** * Examples *)
Definition busyb (f : nat) (h : list hev) : bool :=
  existsb (λ e, match e with HCall id _ f' _ _ _ true _ => (f' =? f)%nat && negb (existsb (Nat.eqb id) (returned h)) | _ => false end) h.
Lemma busyb_sound f h : busyb f h = false -> ~ busy f h.
Proof.
  intros H (id & t & (wr & len & full & off & Hc) & Hr). assert (HT : busyb f h = true); [|congruence]. unfold busyb. apply existsb_exists. exists (HCall id t f wr len full true off).
  split; [by apply elem_of_list_In|]. rewrite Nat.eqb_refl. cbn. apply negb_true_iff. destruct (existsb _ _) eqn:E; [|done]. apply existsb_exists in E as (i & Hi & E). apply Nat.eqb_eq in E. subst i.
  by apply elem_of_list_In in Hi.
Qed.
Definition dutyb (home : nat -> nat) (s : sys) (e : wev) : bool :=
  match e with
  | EClose t f | ESeek t f _ _ | ETell t f | ESafe t f _ _ _ => match owner f (hist s) with Some _ => negb (busyb f (hist s)) | None => false end
  | ECall t f _ _ _ => match owner f (hist s) with Some (t0, _) => negb (busyb f (hist s)) && (home t0 =? home t)%nat | None => false end
  | _ => true
  end.
Fixpoint keepsb (home : nat -> nat) (maxw : nat) (s : sys) (es : list wev) : bool :=
  match es with
  | [] => true
  | e :: es => dutyb home s e && match wstep home maxw s e with Ok s' _ => keepsb home maxw s' es | _ => true end
  end.
Lemma keepsb_sound home maxw es : forall s, keepsb home maxw s es = true -> keeps home maxw s es.
Proof.
  induction es as [|e es IH]; intros s H; cbn in *; [done|]. apply andb_true_iff in H as [H1 H2]. split; [|destruct (wstep _ _ s e); try done; by apply IH].
  destruct e; cbn in *; try done; destruct (owner f (hist s)) as [[t0 i0]|] eqn:E; try done.
  1-3: split; [done|]; apply busyb_sound; by apply negb_true_iff.
  - apply andb_true_iff in H1 as [H1 H3]. split; [apply busyb_sound; by apply negb_true_iff|]. exists t0, i0. split; [done|]. by apply Nat.eqb_eq.
  - split; [done|]; apply busyb_sound; by apply negb_true_iff.
Qed.
(** two threads (fibers 1 and 3 on selector 1, fiber 2 on selector 2), two workers, two handles on file 7 and one on file 8: reads in
    pieces, a write_full in two pieces from the other thread, a safe read from the other thread, a failed write, seek, close *)
Definition dhome (t : nat) : nat := if decide (t = 2%nat) then 2%nat else 1%nat.
Definition dfiles (i : nat) : list Z := if decide (i = 7%nat) then [1; 2; 3; 4; 5; 6] else [].
Definition demo : list wev :=
  [EOpen 1 0 7; EOpen 1 1 8; EOpen 3 2 7;
   ECall 1 0 None 4 true; ESafe 2 1 (Some [10; 11; 12]) 0 true; HStart 1; ECall 3 2 None 3 false; WTake; WTake; WExec 1 2; WExec 0 3; WPost 1; WTake; WPost 0; WExec 0 3;
   SCb 1; SCb 0; WPost 0; EResume (Help 1); EResume (Prog 1); WTake; WTake; WExec 0 1; WExec 1 1; WPost 1; WPost 0; SCb 2; SCb 1; SCb 0;
   EResume (Prog 3); EResume (Help 1); EResume (Prog 1); EJoined 2; ETell 1 1;
   ESeek 1 0 seekCur (-2); ESafe 2 0 None 9 true; HStart 3; WTake; WExec 0 4; WPost 0; SCb 0; EResume (Help 3); EJoined 2;
   ESafe 2 0 None 9 false; ECall 1 1 (Some [13]) 0 false; WTake; WFail 0; WPost 0; SCb 0; EResume (Prog 1); EClose 1 1; EClose 2 0; EOpen 2 1 8].
Theorem C72_demo_keeps : keeps dhome 2 (winit dfiles) demo.
Proof. apply keepsb_sound. vm_compute. done. Qed.
Theorem C72_demo : match run (wstep dhome 2) (winit dfiles) demo with
  | Ok s os => omap (λ h, match h with HRet id t f r rem b => Some (id, t, f, r, rem, b) | _ => None end) (hist s) =
      [(2%nat, 3%nat, 2%nat, 3, 0%nat, [1; 2; 3]); (0%nat, 1%nat, 0%nat, 1, 0%nat, [1; 2; 3; 4]); (1%nat, 2%nat, 1%nat, 1, 0%nat, []);
       (3%nat, 2%nat, 0%nat, 4, 5%nat, [3; 4; 5; 6]); (4%nat, 2%nat, 0%nat, 0, 9%nat, []); (5%nat, 1%nat, 1%nat, -1, 1%nat, [])] /\
      cont s 8 = [10; 11; 12] /\ pos 0 (hist s) = 6 /\ owner 1 (hist s) = Some (2%nat, 8%nat) /\ (nth 33 os None = Some 3)
  | _ => False end.
Proof. vm_compute. done. Qed.
(** a state with calls under way *)
Example C72_live_demo : match run (wstep dhome 2) (winit dfiles) (take 8 demo) with Ok s os => busyb 0 (hist s) && busyb 1 (hist s) && busyb 2 (hist s) = true | _ => False end.
Proof. vm_compute. done. Qed.

(** * Refuted: the claim without its conditions *)
(** two safe reads of one handle from two other threads at a time (the header: "kfiber_file_safe_* func allow the caller and file's
    selector be different"): the second request overwrites the first, the second buffer is filled twice, its helper is woken twice,
    the first call never returns *)
Definition shome (t : nat) : nat := t.
Definition shared : list wev :=
  [EOpen 1 0 7; ESafe 2 0 None 2 true; ESafe 3 0 None 2 true; HStart 0; HStart 1; WTake; WExec 0 2; WPost 0; WTake; WExec 0 2; WPost 0; SCb 0].
Theorem C72_shared_refuted : exists s os, run (wstep shome 16) (winit dfiles) shared = Ok s os /\
  length (xfers 0 (hist s)) = 0%nat /\ length (xfers 1 (hist s)) = 2%nat /\ fib s (Help 0) = FWait (mko 0 0 2 false 2 false 0) /\ wstep shome 16 s (SCb 0) = Crash.
Proof. eexists _, _. split; [vm_compute; reflexivity|]. split_and!; vm_compute; done. Qed.
(** a safe read for which no fiber could be made is told the end of the file, though there are bytes to read *)
Theorem C72_eof_refuted : exists s os, run (wstep shome 16) (winit dfiles) [EOpen 1 0 7; ESafe 2 0 None 2 false] = Ok s os /\
  keeps shome 16 (winit dfiles) [EOpen 1 0 7; ESafe 2 0 None 2 false] /\ os = [None; Some 0] /\ contents (dfiles 7) 7 (hist s) = [1; 2; 3; 4; 5; 6] /\ pos 0 (hist s) = 0.
Proof. eexists _, _. split; [vm_compute; reflexivity|]. split; [apply keepsb_sound; vm_compute; done|]. split_and!; vm_compute; done. Qed.
(** the plain calls from another thread than the opener's are not detected *)
Theorem C72_thread_refuted : run (wstep shome 16) (winit dfiles) [EOpen 1 0 7; ECall 2 0 None 2 false] = Crash.
Proof. vm_compute. done. Qed.
(** closing while a call is under way: the worker uses the freed handle *)
Theorem C72_close_refuted : run (wstep shome 16) (winit dfiles) [EOpen 1 0 7; ECall 1 0 None 2 false; EClose 3 0; WTake; WExec 0 2] = Crash.
Proof. vm_compute. done. Qed.
(** seeking to the end is not supported *)
Theorem C72_seek_end_refuted home maxw s t f off s' r : wstep home maxw s (ESeek t f seekEnd off) = Ok s' r -> r = Some (-1) /\ s' = s.
Proof. cbn. destruct (fib s (Prog t)); try done. destruct (negb _); [done|]. by intros [= <- <-]. Qed.
Print Assumptions C72_safe_partial.
Print Assumptions C72_once.
Print Assumptions C72_result.
Print Assumptions C72_rejected.
Print Assumptions C72_exec.
Print Assumptions C72_contents.
Print Assumptions C72_tell.
Print Assumptions C72_read.
Print Assumptions C72_write.
Print Assumptions C72_measure.
Print Assumptions C72_live.
Print Assumptions C72_shared_refuted.
Print Assumptions C72_eof_refuted.
Print Assumptions C72_thread_refuted.
Print Assumptions C72_close_refuted.
Print Assumptions C72_seek_end_refuted.
