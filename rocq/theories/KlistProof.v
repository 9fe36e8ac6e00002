(** Intrusive lists: representation invariant and preservation. *)
From Verif Require Import KlistModel.

Definition lnk (h : lheap) (a b : positive) : Prop := get_next h a = Some b /\ get_prev h b = Some a.
(** consecutive elements of [l] are linked both ways *)
Definition links (h : lheap) (l : list positive) : Prop :=
  forall l1 a b l2, l = l1 ++ a :: b :: l2 -> lnk h a b.
Definition is_list (h : lheap) (hd : positive) (xs : list positive) : Prop :=
  NoDup (hd :: xs) /\ links h (hd :: xs ++ [hd]).

Lemma set_next_spec h a v h' : set_next h a v = Some h' ->
  (forall y, get_next h' y = if decide (y = a) then v else get_next h y) /\ (forall y, get_prev h' y = get_prev h y)
  /\ dom h' = dom h.
Proof.
  unfold set_next, get_next, get_prev. destruct (h !! a) as [n|] eqn:E; cbn; [|done]. intros [= <-]. split_and!.
  - intros y. destruct (decide (y = a)) as [->|]; [by rewrite lookup_insert|by rewrite lookup_insert_ne].
  - intros y. destruct (decide (y = a)) as [->|]; [by rewrite lookup_insert, E|by rewrite lookup_insert_ne].
  - rewrite dom_insert_L. apply elem_of_dom_2 in E. set_solver.
Qed.
Lemma set_prev_spec h a v h' : set_prev h a v = Some h' ->
  (forall y, get_prev h' y = if decide (y = a) then v else get_prev h y) /\ (forall y, get_next h' y = get_next h y)
  /\ dom h' = dom h.
Proof.
  unfold set_prev, get_next, get_prev. destruct (h !! a) as [n|] eqn:E; cbn; [|done]. intros [= <-]. split_and!.
  - intros y. destruct (decide (y = a)) as [->|]; [by rewrite lookup_insert|by rewrite lookup_insert_ne].
  - intros y. destruct (decide (y = a)) as [->|]; [by rewrite lookup_insert, E|by rewrite lookup_insert_ne].
  - rewrite dom_insert_L. apply elem_of_dom_2 in E. set_solver.
Qed.
Lemma set_next_ok h a v : a ∈ dom h -> exists h', set_next h a v = Some h'.
Proof. intros [n E]%elem_of_dom. unfold set_next. rewrite E. cbn. eauto. Qed.
Lemma set_prev_ok h a v : a ∈ dom h -> exists h', set_prev h a v = Some h'.
Proof. intros [n E]%elem_of_dom. unfold set_prev. rewrite E. cbn. eauto. Qed.
Lemma get_next_dom h a b : get_next h a = Some b -> a ∈ dom h.
Proof. unfold get_next. destruct (h !! a) eqn:E; [|done]. intros _. by eapply elem_of_dom_2. Qed.
Lemma get_prev_dom h a b : get_prev h a = Some b -> a ∈ dom h.
Proof. unfold get_prev. destruct (h !! a) eqn:E; [|done]. intros _. by eapply elem_of_dom_2. Qed.

Lemma links_cons2 h a b l : links h (a :: b :: l) <-> lnk h a b /\ links h (b :: l).
Proof.
  unfold links. split.
  - intros H. split; [by apply (H [] a b l)|]. intros l1 x y l2 E. apply (H (a :: l1) x y l2). by rewrite E.
  - intros [H1 H2] [|z l1] x y l2 E; cbn in E; simplify_eq; [done|]. by eapply H2.
Qed.
Lemma links_one h a : links h [a].
Proof. intros [|z [|]] x y l2 E; done. Qed.
Lemma links_app h l1 a l2 : links h (l1 ++ a :: l2) <-> links h (l1 ++ [a]) /\ links h (a :: l2).
Proof.
  induction l1 as [|b l1 IH]; cbn.
  - split; [|tauto]. intros H. split; [apply links_one|done].
  - destruct l1 as [|c l1]; cbn in *.
    + rewrite !links_cons2. pose proof (links_one h a). tauto.
    + rewrite !links_cons2, IH. tauto.
Qed.
(** frame: only the [next] of all but the last and the [prev] of all but the first matter *)
Lemma links_frame h h' l : links h l ->
  (forall l1 a b l2, l = l1 ++ a :: b :: l2 -> get_next h' a = get_next h a /\ get_prev h' b = get_prev h b) -> links h' l.
Proof.
  intros H F l1 a b l2 E. destruct (F _ _ _ _ E) as [F1 F2]. unfold lnk. rewrite F1, F2. by eapply H.
Qed.

Lemma is_list_walk h hd xs fuel : is_list h hd xs -> length xs <= fuel -> foreach fuel h hd = Some xs.
Proof.
  intros [ND HL] Hf. unfold foreach. apply NoDup_cons in ND as [Hn ND].
  destruct xs as [|x xs]; cbn in HL.
  - apply links_cons2 in HL as [[-> _] _]. cbn. destruct fuel; cbn; by rewrite decide_True.
  - apply links_cons2 in HL as [[-> _] HL]. cbn [option_bind mbind option_ret].
    change (foreach_loop fuel h hd x = Some (x :: xs)).
    revert x fuel Hn ND HL Hf. induction xs as [|y xs IH]; intros x fuel Hn ND HL Hf; (destruct fuel as [|fuel]; [cbn in Hf; lia|]); cbn.
    + rewrite decide_False by set_solver. cbn in HL. apply links_cons2 in HL as [[-> _] _]. cbn.
      destruct fuel; cbn; by rewrite decide_True.
    + rewrite decide_False by set_solver. cbn in HL. apply links_cons2 in HL as [[-> _] HL]. cbn.
      cbn in Hf. apply NoDup_cons in ND as [_ ND]. rewrite (IH y fuel); [done|set_solver|done|done|cbn; lia].
Qed.
Lemma is_list_rwalk h hd xs fuel : is_list h hd xs -> length xs <= fuel -> rforeach fuel h hd = Some (reverse xs).
Proof.
  intros [ND HL] Hf. unfold rforeach. apply NoDup_cons in ND as [Hn ND].
  destruct xs as [|x xs _] using rev_ind; cbn in HL.
  - apply links_cons2 in HL as [[_ ->] _]. cbn. destruct fuel; cbn; by rewrite decide_True.
  - rewrite <- app_assoc in HL. cbn in HL. change (hd :: xs ++ [x; hd]) with ((hd :: xs) ++ [x; hd]) in HL.
    apply links_app in HL as [HL H2]. apply links_cons2 in H2 as [[_ ->] _].
    cbn [option_bind mbind option_ret]. change (rforeach_loop fuel h hd x = Some (reverse (xs ++ [x]))).
    rewrite reverse_app. cbn. 
    revert x fuel Hn ND HL Hf. induction xs as [|y xs IH] using rev_ind; intros x fuel Hn ND HL Hf;
      rewrite app_length in Hf; cbn in Hf; (destruct fuel as [|fuel]; [lia|]); cbn.
    + rewrite decide_False by set_solver. cbn in HL. apply links_cons2 in HL as [[_ ->] _]. cbn.
      destruct fuel; cbn; by rewrite decide_True.
    + rewrite decide_False by set_solver. rewrite app_length in Hf. cbn in Hf.
      cbn in HL. rewrite <- app_assoc in HL. cbn in HL. change (hd :: xs ++ [y; x]) with ((hd :: xs) ++ [y; x]) in HL.
      apply links_app in HL as [HL H2]. apply links_cons2 in H2 as [[_ ->] _]. cbn.
      rewrite (IH y fuel); [by rewrite reverse_app|set_solver| |done|rewrite app_length; cbn; lia].
      apply NoDup_app in ND as (ND & _ & _). done.
Qed.

Definition lastp (hd : positive) (xs : list positive) : positive := default hd (last xs).
Lemma lastp_snoc hd xs x : lastp hd (xs ++ [x]) = x.
Proof. unfold lastp. by rewrite last_snoc. Qed.
Lemma lastp_nil hd : lastp hd [] = hd. Proof. done. Qed.
Lemma is_list_last h hd xs : is_list h hd xs -> get_prev h hd = Some (lastp hd xs) /\ get_next h (lastp hd xs) = Some hd.
Proof.
  intros [_ HL]. destruct xs as [|x xs _] using rev_ind.
  - apply links_cons2 in HL as [[? ?] _]. done.
  - rewrite lastp_snoc. rewrite <- app_assoc in HL. change (hd :: xs ++ [x] ++ [hd]) with ((hd :: xs) ++ [x; hd]) in HL.
    apply links_app in HL as [_ HL]. apply links_cons2 in HL as [[? ?] _]. done.
Qed.
Lemma lastp_in hd xs : lastp hd xs ∈ hd :: xs.
Proof. destruct xs as [|x xs _] using rev_ind; [set_solver|]. rewrite lastp_snoc. set_solver. Qed.

Lemma append_effect h hd xs x : is_list h hd xs -> x ∉ hd :: xs -> x ∈ dom h ->
  exists h', klist_append h hd x = Some h' /\ dom h' = dom h /\
    (forall y, get_next h' y = if decide (y = x) then Some hd else if decide (y = lastp hd xs) then Some x else get_next h y) /\
    (forall y, get_prev h' y = if decide (y = hd) then Some x else if decide (y = x) then Some (lastp hd xs) else get_prev h y).
Proof.
  intros HL Hx Hd. destruct (is_list_last _ _ _ HL) as [Hp Hn]. pose proof (lastp_in hd xs) as Hin.
  assert (Hxl : x <> lastp hd xs) by set_solver. assert (Hxh : x <> hd) by set_solver.
  unfold klist_append. rewrite Hp. cbn -[set_prev set_next].
  destruct (set_prev_ok h x (Some (lastp hd xs)) Hd) as (h1 & E1). rewrite E1. cbn -[set_prev set_next].
  apply set_prev_spec in E1 as (P1 & N1 & D1).
  rewrite P1, decide_True by done. cbn -[set_prev set_next].
  destruct (set_next_ok h1 (lastp hd xs) (Some x)) as (h2 & E2). { rewrite D1. by eapply get_next_dom. }
  rewrite E2. cbn -[set_prev set_next]. apply set_next_spec in E2 as (N2 & P2 & D2).
  destruct (set_next_ok h2 x (Some hd)) as (h3 & E3). { by rewrite D2, D1. }
  rewrite E3. cbn -[set_prev set_next]. apply set_next_spec in E3 as (N3 & P3 & D3).
  destruct (set_prev_ok h3 hd (Some x)) as (h4 & E4). { rewrite D3, D2, D1. by eapply get_prev_dom. }
  rewrite E4. apply set_prev_spec in E4 as (P4 & N4 & D4).
  exists h4. split_and!; [done|congruence| |].
  - intros y. rewrite N4, N3, N2, N1. done.
  - intros y. rewrite P4, P3, P2, P1. done.
Qed.
Lemma NoDup_adj (l1 : list positive) a b l2 : NoDup (l1 ++ a :: b :: l2) -> a <> b.
Proof. intros H. apply NoDup_app in H as (_ & _ & H). apply NoDup_cons in H as [H _]. set_solver. Qed.
Lemma append_is_list h hd xs x h' : is_list h hd xs -> x ∉ hd :: xs ->
  (forall y, get_next h' y = if decide (y = x) then Some hd else if decide (y = lastp hd xs) then Some x else get_next h y) ->
  (forall y, get_prev h' y = if decide (y = hd) then Some x else if decide (y = x) then Some (lastp hd xs) else get_prev h y) ->
  is_list h' hd (xs ++ [x]).
Proof.
  intros HL Hx HN HP. pose proof HL as [ND HLk]. split.
  { change (hd :: xs ++ [x]) with ((hd :: xs) ++ [x]). apply NoDup_app. split_and!; [done|set_solver|apply NoDup_singleton]. }
  rewrite <- app_assoc. cbn [app]. change (hd :: xs ++ [x; hd]) with ((hd :: xs) ++ [x; hd]). apply links_app. split.
  2: { apply links_cons2. split; [|apply links_one]. split; [by rewrite HN, decide_True|by rewrite HP, decide_True]. }
  destruct xs as [|z zs _] using rev_ind.
  - cbn. apply links_cons2. split; [|apply links_one]. split.
    + rewrite HN, decide_False by set_solver. by rewrite decide_True.
    + rewrite HP, decide_False by set_solver. by rewrite decide_True.
  - rewrite lastp_snoc in *. change (links h' (hd :: (zs ++ [z]) ++ [x])). rewrite <- app_assoc. cbn [app].
    change (hd :: zs ++ [z; x]) with ((hd :: zs) ++ [z; x]). apply links_app. split.
    + rewrite <- app_assoc in HLk. change (hd :: zs ++ [z] ++ [hd]) with ((hd :: zs) ++ z :: [hd]) in HLk.
      apply links_app in HLk as [HLk _]. eapply links_frame; [exact HLk|].
      intros l1 a b l2 E. change (hd :: zs ++ [z]) with ((hd :: zs) ++ [z]) in ND, Hx. rewrite E in ND, Hx.
      assert (Ha : a <> z).
      { intros ->. destruct l2 as [|w l2 _] using rev_ind.
        - replace (l1 ++ [z; b]) with ((l1 ++ [z]) ++ [b]) in E by (by rewrite <- app_assoc).
          apply app_inj_tail in E as [_ <-]. by apply NoDup_adj in ND.
        - rewrite app_comm_cons, app_comm_cons, app_assoc in E. apply app_inj_tail in E as [_ <-].
          apply NoDup_app in ND as (_ & _ & ND). apply NoDup_cons in ND as [ND _]. set_solver. }
      assert (Hb : b <> hd).
      { intros ->. destruct l1 as [|w l1]; cbn in E; simplify_eq; [by apply (NoDup_adj []) in ND|].
        cbn in ND. apply NoDup_cons in ND as [ND _]. set_solver. }
      rewrite HN, HP. rewrite !decide_False by set_solver. done.
    + apply links_cons2. split; [|apply links_one]. split.
      * rewrite HN, decide_False by set_solver. by rewrite decide_True.
      * rewrite HP, decide_False by set_solver. by rewrite decide_True.
Qed.

Lemma remove_effect h hd xs1 x xs2 : is_list h hd (xs1 ++ x :: xs2) ->
  let p := lastp hd xs1 in let n := default hd (head xs2) in
  exists h', klist_remove h x = Some h' /\ dom h' = dom h /\
    (forall y, get_next h' y = if decide (y = p) then Some n else get_next h y) /\
    (forall y, get_prev h' y = if decide (y = n) then Some p else get_prev h y).
Proof.
  intros [ND HL] p n.
  assert (H1 : lnk h p x).
  { destruct xs1 as [|z zs _] using rev_ind.
    - cbn in HL. apply links_cons2 in HL as [? _]. done.
    - unfold p. rewrite lastp_snoc. rewrite <- !app_assoc in HL. cbn in HL.
      eapply (HL (hd :: zs)). done. }
  assert (H2 : lnk h x n).
  { rewrite <- app_assoc in HL. cbn in HL. destruct xs2 as [|z zs]; cbn in *; eapply (HL (hd :: xs1)); done. }
  assert (Hxp : x <> p).
  { pose proof (lastp_in hd xs1). change (hd :: xs1 ++ x :: xs2) with ((hd :: xs1) ++ x :: xs2) in ND.
    apply NoDup_app in ND as (_ & ND & _). intros ->. eapply ND; [done|]. set_solver. }
  destruct H1 as [N1 P1], H2 as [N2 P2]. unfold klist_remove. rewrite P1, N2. cbn -[set_prev set_next].
  destruct (set_next_ok h p (Some n)) as (h1 & E1). { by eapply get_next_dom. }
  rewrite E1. cbn -[set_prev set_next]. apply set_next_spec in E1 as (N3 & P3 & D3).
  rewrite N3, decide_False, N2 by done. cbn -[set_prev]. rewrite P3, P1. cbn -[set_prev].
  destruct (set_prev_ok h1 n (Some p)) as (h2 & E2). { rewrite D3. by eapply get_prev_dom. }
  rewrite E2. apply set_prev_spec in E2 as (P4 & N4 & D4). exists h2. split_and!; [done|congruence| |].
  - intros y. by rewrite N4, N3.
  - intros y. by rewrite P4, P3.
Qed.
Lemma lastp_app hd xs1 : exists l, hd :: xs1 = l ++ [lastp hd xs1].
Proof. destruct xs1 as [|z zs _] using rev_ind; [by exists []|]. rewrite lastp_snoc. by exists (hd :: zs). Qed.
Lemma remove_is_list h hd xs1 x xs2 h' : is_list h hd (xs1 ++ x :: xs2) ->
  (forall y, get_next h' y = if decide (y = lastp hd xs1) then Some (default hd (head xs2)) else get_next h y) ->
  (forall y, get_prev h' y = if decide (y = default hd (head xs2)) then Some (lastp hd xs1) else get_prev h y) ->
  is_list h' hd (xs1 ++ xs2).
Proof.
  intros [ND HL] HN HP. destruct (lastp_app hd xs1) as (l & El). set (p := lastp hd xs1) in *.
  set (n := default hd (head xs2)) in *.
  change (hd :: xs1 ++ x :: xs2) with ((hd :: xs1) ++ x :: xs2) in ND.
  split. { change (hd :: xs1 ++ xs2) with ((hd :: xs1) ++ xs2). apply NoDup_app in ND as (A & B & C).
           apply NoDup_cons in C as [C1 C2]. apply NoDup_app. split_and!; [done| |done].
           intros y Hy Hy2. destruct (B y Hy). apply elem_of_cons. by right. }
  assert (NDx : forall y, y ∈ hd :: xs1 -> y ∈ x :: xs2 -> False) by (apply NoDup_app in ND as (_ & B & _); exact B).
  assert (En : exists r, xs2 ++ [hd] = n :: r) by (destruct xs2; cbn; eauto). destruct En as (r & En).
  assert (HL1 : links h (l ++ [p]) /\ links h (n :: r)).
  { rewrite <- app_assoc in HL. cbn in HL. rewrite En in HL.
    change (hd :: xs1 ++ x :: n :: r) with ((hd :: xs1) ++ x :: n :: r) in HL. rewrite El in HL.
    rewrite <- app_assoc in HL. cbn in HL. apply links_app in HL as [HL1 HL2].
    apply links_cons2 in HL2 as [_ HL2]. apply links_cons2 in HL2 as [_ HL2]. done. }
  destruct HL1 as [HL1 HL2].
  rewrite <- app_assoc, En. change (hd :: xs1 ++ n :: r) with ((hd :: xs1) ++ n :: r). rewrite El, <- app_assoc. cbn.
  apply links_app. split; [|apply links_cons2; split].
  - eapply links_frame; [exact HL1|]. intros l1 a b l2 E. rewrite HN, HP.
    assert (NDl : NoDup (hd :: xs1)) by (by apply NoDup_app in ND as (A & _ & _)).
    rewrite El, E in NDl.
    assert (a <> p).
    { intros ->. assert (Hl : p ∈ b :: l2).
      { assert (last (l ++ [p]) = Some p) as Hlp by apply last_snoc. rewrite E in Hlp.
        replace (l1 ++ p :: b :: l2) with ((l1 ++ [p]) ++ b :: l2) in Hlp by (by rewrite <- app_assoc).
        rewrite last_app_cons in Hlp. by apply last_Some_elem_of. }
      apply NoDup_app in NDl as (_ & _ & NDl). apply NoDup_cons in NDl as [NDl _]. done. }
    assert (b <> n).
    { intros ->. assert (Hn1 : n ∈ hd :: xs1) by (rewrite El, E; set_solver).
      unfold n in *. destruct xs2 as [|y xs2]; cbn in *.
      - rewrite E in El. destruct l1; cbn in El; simplify_eq; cbn in NDl.
        + apply NoDup_cons in NDl as [NDl _]. set_solver.
        + apply NoDup_cons in NDl as [NDl _]. set_solver.
      - eapply NDx; [exact Hn1|]. rewrite !elem_of_cons. auto. }
    by rewrite !decide_False.
  - split; [by rewrite HN, decide_True|by rewrite HP, decide_True].
  - eapply links_frame; [exact HL2|]. intros l1 a b l2 E. rewrite HN, HP.
    assert (NDr : NoDup (xs2 ++ [hd])).
    { apply NoDup_app in ND as (A & B & C). apply NoDup_cons in C as [C1 C2]. apply NoDup_app. split_and!; [done| |apply NoDup_singleton].
      intros y Hy ->%elem_of_list_singleton. eapply (NDx hd); rewrite elem_of_cons; auto. }
    rewrite En, E in NDr.
    assert (b <> n).
    { intros ->. destruct l1 as [|w l1]; cbn in E; simplify_eq; cbn in NDr; apply NoDup_cons in NDr as [NDr _]; set_solver. }
    assert (a <> p).
    { intros ->. pose proof (lastp_in hd xs1) as Hpin. fold p in Hpin.
      assert (Ha : p ∈ xs2).
      { assert (Hin : l1 ++ p :: b :: l2 = xs2 ++ [hd]) by congruence.
        replace (l1 ++ p :: b :: l2) with ((l1 ++ [p]) ++ (b :: l2)) in Hin by (by rewrite <- app_assoc).
        destruct (b :: l2) as [|w l3 _] eqn:Eb using rev_ind; [done|]. rewrite app_assoc in Hin. apply app_inj_tail in Hin as [Hin _].
        rewrite <- Hin. set_solver. }
      eapply NDx; [exact Hpin|]. rewrite elem_of_cons. auto. }
    by rewrite !decide_False.
Qed.
