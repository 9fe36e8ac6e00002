(** C58: kfiber_thread_call runs the function exactly once, in a pool thread, with the arguments given, and returns its
    result to the caller, on the caller's selector, after it has returned. *)
From Verif Require Export FcallModel.
Local Open Scope Z_scope.

(** ** specification: about the history only *)
Definition madek (o : obs) : option nat := match o with Made k _ _ _ _ _ => Some k | _ => None end.
Definition rank (o : obs) : option nat := match o with Ran k _ _ _ => Some k | _ => None end.
Definition donek (o : obs) : option nat := match o with Done k _ => Some k | _ => None end.
Definition retk (o : obs) : option nat := match o with Ret k _ _ => Some k | Refused k => Some k | _ => None end.
(** every return of a call is of a call made by a fiber of that selector, whose function has returned that value before *)
Definition ret_ok (h : list obs) : Prop := forall h1 k w r h2, h = h1 ++ Ret k w r :: h2 ->
  Done k r ∈ h1 /\ exists f fn a c, Made k f w fn a c ∈ h1.
(** every execution is of a call made before, with its function and arguments *)
Definition ran_ok (h : list obs) : Prop := forall h1 k fn a c h2, h = h1 ++ Ran k fn a c :: h2 ->
  exists f w, Made k f w fn a c ∈ h1 /\ Refused k ∉ h.
Definition done_ok (h : list obs) : Prop := forall h1 k r h2, h = h1 ++ Done k r :: h2 -> exists fn a c, Ran k fn a c ∈ h1.

(** ** proof *)
Definition calling (b : fib) : option nat := match f_st b with FCalling k | FWait k => Some k | _ => None end.
(** every outstanding call has exactly one token: job, running, or notice *)
Definition ntok (x : nat * nat * nat * Z) : nat * nat := (x.1.1.2, x.1.2).
Definition toks (s : st) : list (nat * nat) := jobs s ++ act s ++ (ntok <$> notes s).

Record Inv (s : st) : Prop := {
  i_tok : forall f k, (f, k) ∈ toks s <-> exists b, fibs s !! f = Some b /\ calling b = Some k;
  i_nd : NoDup (toks s).*1;
  i_cur : forall f b, fibs s !! f = Some b -> (f_st b = FRun \/ exists k, f_st b = FCalling k) -> cur s !! f_sel b = Some f;
  i_cur' : forall w f, cur s !! w = Some f -> exists b, fibs s !! f = Some b /\ f_sel b = w /\ (f_st b = FRun \/ exists k, f_st b = FCalling k);
  i_made : forall f b k, fibs s !! f = Some b -> calling b = Some k ->
    Made k f (f_sel b) (f_start b) (f_arg b) (f_ret b) ∈ hist s /\ k ∉ omap retk (hist s);
  i_jobs : forall f k, (f, k) ∈ jobs s -> k ∉ omap rank (hist s);
  i_act : forall f k, (f, k) ∈ act s -> k ∈ omap rank (hist s) /\ k ∉ omap donek (hist s);
  i_notes : forall w f k r, (w, f, k, r) ∈ notes s -> Done k r ∈ hist s /\ forall b, fibs s !! f = Some b -> f_sel b = w;
  i_k : forall k, k ∈ omap madek (hist s) -> (k < next s)%nat;
  i_mnd : NoDup (omap madek (hist s));
  i_ran : forall k, k ∈ omap rank (hist s) -> k ∈ omap madek (hist s);
  i_rnd : NoDup (omap rank (hist s));
  i_done : forall k, k ∈ omap donek (hist s) -> k ∈ omap rank (hist s);
  i_dnd : NoDup (omap donek (hist s));
  i_ret : forall k, k ∈ omap retk (hist s) -> k ∈ omap madek (hist s);
  i_tnd : NoDup (omap retk (hist s));
  i_ref : forall k, Refused k ∈ hist s -> k ∉ omap rank (hist s);
  i_lost : forall k, k ∈ omap madek (hist s) -> k ∉ omap retk (hist s) -> exists f, (f, k) ∈ toks s;
  i_retok : ret_ok (hist s); i_ranok : ran_ok (hist s); i_doneok : done_ok (hist s) }.

Lemma omap_snoc {A B} (f : A -> option B) l x : omap f (l ++ [x]) = omap f l ++ match f x with Some y => [y] | None => [] end.
Proof. rewrite omap_app. cbn. by destruct (f x). Qed.
Lemma in_omap {A} (f : A -> option nat) (l : list A) x k : x ∈ l -> f x = Some k -> k ∈ omap f l.
Proof. intros H E. apply elem_of_list_omap. by exists x. Qed.
Lemma snoc_split {A} (h : list A) x h1 y h2 : h ++ [x] = h1 ++ y :: h2 -> (h2 = [] /\ h1 = h /\ y = x) \/ exists h3, h2 = h3 ++ [x] /\ h = h1 ++ y :: h3.
Proof.
  destruct h2 as [|z h2 _] using rev_ind.
  - intros E. apply app_inj_tail in E as [-> ->]. by left.
  - intros E. right. exists h2. rewrite app_comm_cons, app_assoc in E. apply app_inj_tail in E as [-> ->]. done.
Qed.
Lemma ret_ok_snoc h x : ret_ok h -> (forall k w r, x = Ret k w r -> Done k r ∈ h /\ exists f fn a c, Made k f w fn a c ∈ h) -> ret_ok (h ++ [x]).
Proof.
  intros H Hx h1 k w r h2 E. apply snoc_split in E as [(-> & -> & <-)|(h3 & -> & ->)]; [exact (Hx _ _ _ eq_refl)|exact (H _ _ _ _ _ eq_refl)].
Qed.
Lemma done_ok_snoc h x : done_ok h -> (forall k r, x = Done k r -> exists fn a c, Ran k fn a c ∈ h) -> done_ok (h ++ [x]).
Proof.
  intros H Hx h1 k r h2 E. apply snoc_split in E as [(-> & -> & <-)|(h3 & -> & ->)]; [exact (Hx _ _ eq_refl)|exact (H _ _ _ _ eq_refl)].
Qed.
Lemma ran_ok_snoc h x : ran_ok h -> (forall k fn a c, x = Ran k fn a c -> exists f w, Made k f w fn a c ∈ h /\ Refused k ∉ h) ->
  (forall k, x = Refused k -> k ∉ omap rank h) -> ran_ok (h ++ [x]).
Proof.
  intros H Hx Hr h1 k fn a c h2 E.
  apply snoc_split in E as [(-> & -> & <-)|(h3 & -> & ->)].
  - destruct (Hx _ _ _ _ eq_refl) as (f & w & ? & Hn). exists f, w. split; [done|].
    rewrite elem_of_app, elem_of_list_singleton. by intros [?|?].
  - destruct (H _ _ _ _ _ _ eq_refl) as (f & w & ? & Hn). exists f, w. split; [done|].
    rewrite elem_of_app, elem_of_list_singleton. intros [?|<-]; [done|]. apply (Hr k eq_refl). apply (in_omap _ _ (Ran k fn a c)); [|done].
    apply elem_of_app. right. apply elem_of_list_here.
Qed.

(** tokens: the list has the same elements, one fewer or one more *)
Lemma toks_perm s s' : toks s' ≡ₚ toks s -> (forall f k, (f, k) ∈ toks s' <-> (f, k) ∈ toks s) /\ (NoDup (toks s).*1 -> NoDup (toks s').*1).
Proof. intros H. split; [intros; by rewrite H|]. intros Hn. by rewrite H. Qed.
Lemma delete_perm {A} (l : list A) n x : l !! n = Some x -> l ≡ₚ x :: delete n l.
Proof.
  intros H. rewrite <- (take_drop_middle l n x H) at 1. rewrite delete_take_drop. by rewrite <- Permutation_middle.
Qed.
Lemma tok_begin s n x : jobs s !! n = Some x -> toks (set_act (set_jobs s (delete n (jobs s))) (act s ++ [x])) ≡ₚ toks s.
Proof.
  intros H. unfold toks. cbn. rewrite (delete_perm _ _ _ H) at 2. cbn. rewrite <- app_assoc. cbn.
  rewrite (Permutation_app_comm (act s)). cbn. rewrite <- Permutation_middle. apply Permutation_cons; [done|].
  apply Permutation_app_head. by rewrite (Permutation_app_comm (act s)).
Qed.
Lemma tok_end s n x w r : act s !! n = Some x -> toks (set_notes (set_act s (delete n (act s))) (notes s ++ [(w, x.1, x.2, r)])) ≡ₚ toks s.
Proof.
  intros H. unfold toks. cbn. rewrite (delete_perm _ _ _ H) at 2. rewrite fmap_app. cbn. apply Permutation_app_head.
  rewrite app_assoc. rewrite (Permutation_app_comm _ [_]). cbn. unfold ntok at 2. cbn. by destruct x.
Qed.
Lemma tok_deliver s n x : notes s !! n = Some x -> toks s ≡ₚ ntok x :: jobs s ++ act s ++ (ntok <$> delete n (notes s)).
Proof.
  intros H. unfold toks. rewrite (delete_perm _ _ _ H) at 1. cbn. rewrite !app_assoc. by rewrite <- Permutation_middle.
Qed.

Ltac inj H := injection H as <- <-.
Lemma madek_in (h : list obs) k f w fn a c : Made k f w fn a c ∈ h -> k ∈ omap madek h.
Proof. intros H. by eapply in_omap. Qed.

(** steps that do not touch calls: only the states FIdle/FRun and [cur] change *)
Lemma inv_quiet s s' : Inv s -> jobs s' = jobs s -> act s' = act s -> notes s' = notes s -> next s' = next s -> hist s' = hist s ->
  (forall f b', fibs s' !! f = Some b' -> exists b, fibs s !! f = Some b /\ calling b = calling b' /\ f_sel b = f_sel b'
     /\ (calling b <> None -> f_start b = f_start b' /\ f_arg b = f_arg b' /\ f_ret b = f_ret b')) ->
  (forall f b, fibs s !! f = Some b -> exists b', fibs s' !! f = Some b' /\ calling b = calling b') ->
  (forall f b, fibs s' !! f = Some b -> (f_st b = FRun \/ exists k, f_st b = FCalling k) -> cur s' !! f_sel b = Some f) ->
  (forall w f, cur s' !! w = Some f -> exists b, fibs s' !! f = Some b /\ f_sel b = w /\ (f_st b = FRun \/ exists k, f_st b = FCalling k)) ->
  Inv s'.
Proof.
  intros I Ej Ea En Ex Eh Hb Hf Hc Hc'. assert (toks s' = toks s) as Et by (unfold toks; by rewrite Ej, Ea, En).
  destruct I. split; rewrite ?Ej, ?Ea, ?En, ?Ex, ?Eh, ?Et; try done.
  - intros f k. rewrite i_tok0. split.
    + intros (b & Hfb & Hcb). destruct (Hf _ _ Hfb) as (b' & ? & E'). exists b'. by rewrite <- E'.
    + intros (b' & Hfb & Hcb). destruct (Hb _ _ Hfb) as (b & ? & E' & _). exists b. by rewrite E'.
  - intros f b' k Hfb Hcb. destruct (Hb _ _ Hfb) as (b & Hfb' & E' & E2 & E3).
    destruct (i_made0 f b k Hfb') as [Hm Hr]; [by rewrite E'|]. split; [|done].
    destruct E3 as (<- & <- & <-); [by rewrite E', Hcb|]. by rewrite <- E2.
  - intros w f k r Hin. destruct (i_notes0 _ _ _ _ Hin) as [Hd Hs]. split; [done|].
    intros b' Hfb. destruct (Hb _ _ Hfb) as (b & Hfb' & _ & <- & _). by apply Hs.
Qed.

Lemma not_calling_tok s f b k : Inv s -> fibs s !! f = Some b -> calling b = None -> (f, k) ∉ toks s.
Proof. intros I Hf Hc Hin. apply (i_tok s I) in Hin as (b' & ? & ?). simplify_eq. Qed.

Lemma inv_resume s w f s' o : Inv s -> step s (Resume w f) = Ok s' o -> Inv s'.
Proof.
  unfold step, act_step. intros I H. destruct (cur s !! w) as [g|] eqn:Ec; [done|]. destruct (fibs s !! f) as [b|] eqn:Ef; [|done].
  destruct (decide _) as [[Hst <-]|]; [|done]. inj H. 
  eapply (inv_quiet s); try done; cbn; rewrite ?app_nil_r; try done.
  - intros g b'. destruct (decide (g = f)) as [->|Hn].
    + rewrite lookup_insert. intros [= <-]. exists b. unfold calling, set_st. cbn. rewrite Hst. by split_and!.
    + rewrite lookup_insert_ne by done. intros. by exists b'.
  - intros g b'. destruct (decide (g = f)) as [->|Hn].
    + rewrite lookup_insert, Ef. intros [= <-]. exists (set_st b FRun). unfold calling, set_st. cbn. by rewrite Hst.
    + rewrite lookup_insert_ne by done. intros. by exists b'.
  - intros g b'. destruct (decide (g = f)) as [->|Hn].
    + rewrite lookup_insert. intros [= <-] _. cbn. by rewrite lookup_insert.
    + rewrite lookup_insert_ne by done. intros Hg Hr. pose proof (i_cur s I g b' Hg Hr) as Hc.
      rewrite lookup_insert_ne; [done|]. intros E. by rewrite E, Hc in Ec.
  - intros v g. destruct (decide (v = f_sel b)) as [->|Hn].
    + rewrite lookup_insert. intros [= <-]. exists (set_st b FRun). rewrite lookup_insert. split_and!; [done..|by left].
    + rewrite lookup_insert_ne by done. intros Hc. destruct (i_cur' s I v g Hc) as (b' & Hg & <- & Hr).
      exists b'. rewrite lookup_insert_ne; [done|]. intros ->. simplify_eq.
Qed.
Lemma inv_yield s w s' o : Inv s -> step s (Yield w) = Ok s' o -> Inv s'.
Proof.
  unfold step, act_step. intros I H. destruct (cur s !! w) as [f|] eqn:Ec; [|done]. destruct (fibs s !! f) as [b|] eqn:Ef; [|done].
  destruct (decide _) as [Hst|]; [|done]. inj H.
  destruct (i_cur' s I w f Ec) as (b0 & Hb0 & Hsel & _). rewrite Ef in Hb0. injection Hb0 as <-. subst w.
  eapply (inv_quiet s); try done; cbn; rewrite ?app_nil_r; try done.
  - intros g b'. destruct (decide (g = f)) as [->|Hn].
    + rewrite lookup_insert. intros [= <-]. exists b. unfold calling, set_st. cbn. rewrite Hst. by split_and!.
    + rewrite lookup_insert_ne by done. intros. by exists b'.
  - intros g b'. destruct (decide (g = f)) as [->|Hn].
    + rewrite lookup_insert, Ef. intros [= <-]. exists (set_st b FIdle). unfold calling, set_st. cbn. by rewrite Hst.
    + rewrite lookup_insert_ne by done. intros. by exists b'.
  - intros g b'. destruct (decide (g = f)) as [->|Hn].
    + rewrite lookup_insert. intros [= <-] [Hr|[k Hr]]; by cbn in Hr.
    + rewrite lookup_insert_ne by done. intros Hg Hr. pose proof (i_cur s I g b' Hg Hr) as Hc.
      rewrite lookup_delete_ne; [done|]. intros E. rewrite <- E, Ec in Hc. by simplify_eq.
  - intros v g. destruct (decide (v = f_sel b)) as [->|Hn].
    + by rewrite lookup_delete.
    + rewrite lookup_delete_ne by done. intros Hc. destruct (i_cur' s I v g Hc) as (b' & Hg & <- & Hr).
      exists b'. rewrite lookup_insert_ne; [done|]. intros ->. simplify_eq.
Qed.
Lemma inv_sleep s w s' o : Inv s -> step s (Sleep w) = Ok s' o -> Inv s'.
Proof.
  unfold step, act_step. intros I H. destruct (cur s !! w) as [f|] eqn:Ec; [|done]. destruct (fibs s !! f) as [b|] eqn:Ef; [|done].
  destruct (f_st b) as [| |k|] eqn:Hst; try done. inj H.
  destruct (i_cur' s I w f Ec) as (b0 & Hb0 & Hsel & _). rewrite Ef in Hb0. injection Hb0 as <-. subst w.
  eapply (inv_quiet s); try done; cbn; rewrite ?app_nil_r; try done.
  - intros g b'. destruct (decide (g = f)) as [->|Hn].
    + rewrite lookup_insert. intros [= <-]. exists b. unfold calling, set_st. cbn. rewrite Hst. by split_and!.
    + rewrite lookup_insert_ne by done. intros. by exists b'.
  - intros g b'. destruct (decide (g = f)) as [->|Hn].
    + rewrite lookup_insert, Ef. intros [= <-]. exists (set_st b (FWait k)). unfold calling, set_st. cbn. by rewrite Hst.
    + rewrite lookup_insert_ne by done. intros. by exists b'.
  - intros g b'. destruct (decide (g = f)) as [->|Hn].
    + rewrite lookup_insert. intros [= <-] [Hr|[j Hr]]; by cbn in Hr.
    + rewrite lookup_insert_ne by done. intros Hg Hr. pose proof (i_cur s I g b' Hg Hr) as Hc.
      rewrite lookup_delete_ne; [done|]. intros E. rewrite <- E, Ec in Hc. by simplify_eq.
  - intros v g. destruct (decide (v = f_sel b)) as [->|Hn].
    + by rewrite lookup_delete.
    + rewrite lookup_delete_ne by done. intros Hc. destruct (i_cur' s I v g Hc) as (b' & Hg & <- & Hr).
      exists b'. rewrite lookup_insert_ne; [done|]. intros ->. simplify_eq.
Qed.

Lemma in_snoc {A} (l : list A) x y : y ∈ l -> y ∈ l ++ [x].
Proof. intros. apply elem_of_app. by left. Qed.
Lemma in_last {A} (l : list A) x : x ∈ l ++ [x].
Proof. apply elem_of_app. right. apply elem_of_list_here. Qed.

(** the history part of the invariant *)
Record HInv (n : nat) (h : list obs) : Prop := {
  h_k : forall k, k ∈ omap madek h -> (k < n)%nat; h_mnd : NoDup (omap madek h);
  h_ran : forall k, k ∈ omap rank h -> k ∈ omap madek h; h_rnd : NoDup (omap rank h);
  h_done : forall k, k ∈ omap donek h -> k ∈ omap rank h; h_dnd : NoDup (omap donek h);
  h_ret : forall k, k ∈ omap retk h -> k ∈ omap madek h; h_tnd : NoDup (omap retk h);
  h_ref : forall k, Refused k ∈ h -> k ∉ omap rank h;
  h_retok : ret_ok h; h_ranok : ran_ok h; h_doneok : done_ok h }.
Lemma inv_h s : Inv s -> HInv (next s) (hist s).
Proof. intros []. by split. Qed.

Lemma h_snoc_made n h f w fn a c : HInv n h -> HInv (S n) (h ++ [Made n f w fn a c]).
Proof.
  intros []. assert (n ∉ omap madek h) as Hn by (intros Hn; specialize (h_k0 _ Hn); lia).
  split; rewrite ?omap_snoc; cbn; rewrite ?app_nil_r; try done.
  - intros k. rewrite elem_of_app, elem_of_list_singleton. intros [Hk| ->]; [specialize (h_k0 _ Hk)|]; lia.
  - apply NoDup_app. split_and!; [done| |apply NoDup_singleton]. intros x Hx. rewrite elem_of_list_singleton. by intros ->.
  - intros k Hk. apply in_snoc. by apply h_ran0.
  - intros k Hk. apply in_snoc. by apply h_ret0.
  - intros k. rewrite elem_of_app, elem_of_list_singleton. intros [Hk|?]; [by apply h_ref0|done].
  - by apply ret_ok_snoc.
  - by apply ran_ok_snoc.
  - by apply done_ok_snoc.
Qed.
Lemma h_snoc_refused n h k : HInv n h -> k ∈ omap madek h -> k ∉ omap retk h -> k ∉ omap rank h -> HInv n (h ++ [Refused k]).
Proof.
  intros [] Hm Hr Hk. split; rewrite ?omap_snoc; cbn; rewrite ?app_nil_r; try done.
  - intros j. rewrite elem_of_app, elem_of_list_singleton. intros [Hj| ->]; [by apply h_ret0|done].
  - apply NoDup_app. split_and!; [done| |apply NoDup_singleton]. intros x Hx. rewrite elem_of_list_singleton. by intros ->.
  - intros j. rewrite elem_of_app, elem_of_list_singleton. intros [Hj|[= ->]]; [by apply h_ref0|done].
  - by apply ret_ok_snoc.
  - apply ran_ok_snoc; [done..|]. by intros j [= <-].
  - by apply done_ok_snoc.
Qed.
Lemma h_snoc_ran n h f w k fn a c : HInv n h -> Made k f w fn a c ∈ h -> k ∉ omap retk h -> k ∉ omap rank h -> HInv n (h ++ [Ran k fn a c]).
Proof.
  intros [] Hm Hr Hk.
  assert (Refused k ∉ h) as Href by (intros Href; apply Hr; by eapply in_omap).
  split; rewrite ?omap_snoc; cbn; rewrite ?app_nil_r; try done.
  - intros j. rewrite elem_of_app, elem_of_list_singleton. intros [Hj| ->]; [by apply h_ran0|by eapply madek_in].
  - apply NoDup_app. split_and!; [done| |apply NoDup_singleton]. intros x Hx. rewrite elem_of_list_singleton. by intros ->.
  - intros j Hj. apply in_snoc. by apply h_done0.
  - intros j. rewrite elem_of_app, elem_of_list_singleton. intros [Hj|?]; [|done].
    rewrite elem_of_app, elem_of_list_singleton. intros [?| ->]; [by apply (h_ref0 j)|done].
  - by apply ret_ok_snoc.
  - apply ran_ok_snoc; [done| |done]. intros ???? [= <- <- <- <-]. by exists f, w.
  - by apply done_ok_snoc.
Qed.
Lemma rank_in (h : list obs) k : k ∈ omap rank h -> exists fn a c, Ran k fn a c ∈ h.
Proof. rewrite elem_of_list_omap. intros (x & Hx & E). destruct x; try done. injection E as ->. by eauto. Qed.
Lemma h_snoc_done n h k r : HInv n h -> k ∈ omap rank h -> k ∉ omap donek h -> HInv n (h ++ [Done k r]).
Proof.
  intros [] Hk Hd. split; rewrite ?omap_snoc; cbn; rewrite ?app_nil_r; try done.
  - intros j. rewrite elem_of_app, elem_of_list_singleton. intros [Hj| ->]; [by apply h_done0|done].
  - apply NoDup_app. split_and!; [done| |apply NoDup_singleton]. intros x Hx. rewrite elem_of_list_singleton. by intros ->.
  - intros j. rewrite elem_of_app, elem_of_list_singleton. intros [Hj|?]; [by apply h_ref0|done].
  - by apply ret_ok_snoc.
  - by apply ran_ok_snoc.
  - apply done_ok_snoc; [done|]. intros ?? [= <- <-]. by apply rank_in.
Qed.
Lemma h_snoc_ret n h k f w r fn a c : HInv n h -> Made k f w fn a c ∈ h -> Done k r ∈ h -> k ∉ omap retk h -> HInv n (h ++ [Ret k w r]).
Proof.
  intros [] Hm Hd Hr. split; rewrite ?omap_snoc; cbn; rewrite ?app_nil_r; try done.
  - intros j. rewrite elem_of_app, elem_of_list_singleton. intros [Hj| ->]; [by apply h_ret0|by eapply madek_in].
  - apply NoDup_app. split_and!; [done| |apply NoDup_singleton]. intros x Hx. rewrite elem_of_list_singleton. by intros ->.
  - intros j. rewrite elem_of_app, elem_of_list_singleton. intros [Hj|?]; [by apply h_ref0|done].
  - apply ret_ok_snoc; [done|]. intros ??? [= <- <- <-]. split; [done|]. by exists f, fn, a, c.
  - by apply ran_ok_snoc.
  - by apply done_ok_snoc.
Qed.
Lemma in_omap_snoc {A} (f : A -> option nat) l x k : k ∈ omap f (l ++ [x]) -> k ∈ omap f l \/ f x = Some k.
Proof. rewrite omap_snoc, elem_of_app. intros [?|H]; [by left|right]. destruct (f x); set_solver. Qed.
Lemma omap_in_snoc {A} (f : A -> option nat) l x k : k ∈ omap f l -> k ∈ omap f (l ++ [x]).
Proof. rewrite omap_snoc, elem_of_app. by left. Qed.

(** tokens and calls *)
Lemma tok_fun s f k k' : Inv s -> (f, k) ∈ toks s -> (f, k') ∈ toks s -> k = k'.
Proof. intros I H1 H2. apply (i_tok s I) in H1 as (b & ? & ?), H2 as (b' & ? & ?). by simplify_eq. Qed.
Lemma tok_inj s f f' k : Inv s -> (f, k) ∈ toks s -> (f', k) ∈ toks s -> f = f'.
Proof.
  intros I H1 H2. apply (i_tok s I) in H1 as (b & Hb & Hc), H2 as (b' & Hb' & Hc').
  destruct (i_made s I f b k Hb Hc) as [Hm _], (i_made s I f' b' k Hb' Hc') as [Hm' _].
  pose proof (i_mnd s I) as Hn. clear - Hm Hm' Hn. induction (hist s) as [|x h IH]; [by apply elem_of_nil in Hm|].
  rewrite elem_of_cons in Hm, Hm'.
  destruct Hm as [<-|Hm], Hm' as [E|Hm'].
  - by simplify_eq.
  - cbn in Hn. apply NoDup_cons in Hn as [Hn _]. exfalso. apply Hn. by eapply madek_in.
  - subst x. cbn in Hn. apply NoDup_cons in Hn as [Hn _]. exfalso. apply Hn. by eapply madek_in.
  - apply IH; [done..|]. cbn in Hn. destruct (madek x); [by apply NoDup_cons in Hn as [_ ?]|done].
Qed.
Lemma tok_jobs s x : x ∈ jobs s -> x ∈ toks s.
Proof. intros. unfold toks. apply elem_of_app. by left. Qed.
Lemma tok_act s x : x ∈ act s -> x ∈ toks s.
Proof. intros. unfold toks. rewrite !elem_of_app. auto. Qed.
Lemma tok_note s x : x ∈ notes s -> ntok x ∈ toks s.
Proof. intros. unfold toks. rewrite !elem_of_app. right. right. by apply elem_of_list_fmap_1. Qed.
(** a token is in one place only *)
Lemma nd_jobs_act s x : NoDup (toks s).*1 -> x ∈ jobs s -> forall y, y ∈ act s ++ (ntok <$> notes s) -> y.1 <> x.1.
Proof.
  unfold toks. rewrite fmap_app. intros Hn Hx y Hy E. apply NoDup_app in Hn as (_ & Hn & _).
  apply (Hn x.1); [by apply elem_of_list_fmap_1|]. rewrite <- E. by apply elem_of_list_fmap_1.
Qed.

Ltac hsplit := match goal with H : HInv _ _ |- _ => destruct H end.
Lemma inv_call s w fn a c ok s' o : Inv s -> step s (Call w fn a c ok) = Ok s' o -> Inv s'.
Proof.
  unfold step, act_step. intros I H. destruct (cur s !! w) as [f|] eqn:Ec; [|done]. destruct (fibs s !! f) as [b|] eqn:Ef; [|done].
  destruct (decide _) as [Hst|]; [|done].
  destruct (i_cur' s I w f Ec) as (b0 & Hb0 & Hsel & _). rewrite Ef in Hb0. injection Hb0 as <-. subst w.
  pose proof (h_snoc_made _ _ f (f_sel b) fn a c (inv_h s I)) as HI.
  assert (forall k, (f, k) ∉ toks s) as Hnt by (intros k; apply (not_calling_tok s f b); [done..|unfold calling; by rewrite Hst]).
  assert (next s ∉ omap madek (hist s)) as Hfresh by (intros Hk; apply (i_k s I) in Hk; lia).
  destruct ok; inj H.
  - match goal with |- Inv ?x => set (s1 := x) end.
    assert (toks s1 ≡ₚ (f, next s) :: toks s) as Et.
    { unfold toks. cbn. rewrite <- app_assoc. cbn. by rewrite <- Permutation_middle. }
    hsplit. split; try done.
    + intros g k. rewrite Et, elem_of_cons, (i_tok s I). cbn. split.
      * intros [[= -> ->]|(b' & Hb & Hc)].
        -- eexists. rewrite lookup_insert. by split.
        -- exists b'. rewrite lookup_insert_ne; [done|]. intros <-. apply (Hnt k). apply (i_tok s I). by exists b'.
      * intros (b' & Hb & Hc). destruct (decide (g = f)) as [->|Hn].
        -- rewrite lookup_insert in Hb. injection Hb as <-. cbn in Hc. injection Hc as <-. by left.
        -- rewrite lookup_insert_ne in Hb by done. right. by exists b'.
    + rewrite Et. cbn. apply NoDup_cons. split; [|apply (i_nd s I)]. rewrite elem_of_list_fmap. intros ([g k] & E & Hin). cbn in E. subst g. by eapply Hnt.
    + intros g b'. cbn. destruct (decide (g = f)) as [->|Hn].
      * rewrite lookup_insert. intros [= <-] _. done.
      * rewrite lookup_insert_ne by done. apply (i_cur s I).
    + intros v g Hv. cbn in *. destruct (i_cur' s I v g Hv) as (b' & Hb & Hs & Hr). destruct (decide (g = f)) as [->|Hn].
      * rewrite lookup_insert. eexists. split; [done|]. cbn. assert (b' = b) as -> by congruence. split; [done|]. right. by eexists.
      * rewrite lookup_insert_ne by done. by exists b'.
    + intros g b' k. cbn. destruct (decide (g = f)) as [->|Hn].
      * rewrite lookup_insert. intros [= <-] [= <-]. cbn. split; [apply in_last|].
        intros Hr. apply in_omap_snoc in Hr as [Hr|]; [|done]. by apply (i_ret s I) in Hr.
      * rewrite lookup_insert_ne by done. intros Hb Hc. destruct (i_made s I g b' k Hb Hc) as [Hm Hr]. split; [by apply in_snoc|].
        intros Hr'. by apply in_omap_snoc in Hr' as [Hr'|].
    + intros g k. cbn. rewrite elem_of_app, elem_of_list_singleton. intros Hin Hr. apply in_omap_snoc in Hr as [Hr|]; [|done].
      destruct Hin as [Hin|[= -> ->]]; [by apply (i_jobs s I) in Hin|]. by apply (i_ran s I) in Hr.
    + intros g k Hin. cbn in *. destruct (i_act s I g k Hin) as [Hr Hd]. split; [by apply omap_in_snoc|].
      intros Hd'. by apply in_omap_snoc in Hd' as [Hd'|].
    + intros v g k r Hin. cbn in *. destruct (i_notes s I v g k r Hin) as [Hd Hs]. split; [by apply in_snoc|].
      intros b'. destruct (decide (g = f)) as [->|Hn].
      * rewrite lookup_insert. intros [= <-]. cbn. by apply Hs.
      * rewrite lookup_insert_ne by done. apply Hs.
    + intros k Hk Hr. cbn in Hk, Hr. apply in_omap_snoc in Hk as [Hk|[= <-]].
      * destruct (i_lost s I k Hk) as [g Hg]; [intros ?; apply Hr; by apply omap_in_snoc|]. exists g. rewrite Et. by right.
      * exists f. rewrite Et. by left.
  - assert (next s ∉ omap rank (hist s)) as Hfr by (intros Hk; by apply (i_ran s I) in Hk).
    assert (next s ∉ omap retk (hist s)) as Hft by (intros Hk; by apply (i_ret s I) in Hk).
    apply (h_snoc_refused _ _ (next s)) in HI; [|apply (in_omap _ _ (Made (next s) f (f_sel b) fn a c)); [apply in_last|done]
      |intros Hr; by apply in_omap_snoc in Hr as [Hr|]|intros Hr; by apply in_omap_snoc in Hr as [Hr|]].
    match goal with |- Inv ?x => set (s1 := x) end. assert (toks s1 = toks s) as Et by done.
    cbn in s1. assert (hist s1 = (hist s ++ [Made (next s) f (f_sel b) fn a c]) ++ [Refused (next s)]) as Eh by (unfold s1; cbn; by rewrite <- app_assoc).
    rewrite <- Eh in HI. hsplit. split; try done.
    + intros g k. rewrite Et, (i_tok s I). cbn. split.
      * intros (b' & Hb & Hc). exists b'. rewrite lookup_insert_ne; [done|]. intros <-. apply (Hnt k). apply (i_tok s I). by exists b'.
      * intros (b' & Hb & Hc). destruct (decide (g = f)) as [->|Hn].
        -- rewrite lookup_insert in Hb. by injection Hb as <-.
        -- rewrite lookup_insert_ne in Hb by done. by exists b'.
    + apply (i_nd s I).
    + intros g b'. cbn. destruct (decide (g = f)) as [->|Hn].
      * rewrite lookup_insert. intros [= <-] _. done.
      * rewrite lookup_insert_ne by done. apply (i_cur s I).
    + intros v g Hv. cbn in *. destruct (i_cur' s I v g Hv) as (b' & Hb & Hs & Hr). destruct (decide (g = f)) as [->|Hn].
      * rewrite lookup_insert. eexists. split; [done|]. cbn. assert (b' = b) as -> by congruence. split; [done|]. by left.
      * rewrite lookup_insert_ne by done. by exists b'.
    + intros g b' k. rewrite Eh. cbn. destruct (decide (g = f)) as [->|Hn].
      * rewrite lookup_insert. by intros [= <-].
      * rewrite lookup_insert_ne by done. intros Hb Hc. destruct (i_made s I g b' k Hb Hc) as [Hm Hr]. split; [by do 2 apply in_snoc|].
        intros Hr'. apply in_omap_snoc in Hr' as [Hr'|[= <-]]; [by apply in_omap_snoc in Hr' as [Hr'|]|]. apply Hfresh. by eapply madek_in.
    + intros g k. rewrite Eh. cbn. intros Hin Hr. apply in_omap_snoc in Hr as [Hr|]; [|done]. apply in_omap_snoc in Hr as [Hr|]; [|done].
      by apply (i_jobs s I) in Hin.
    + intros g k Hin. rewrite Eh. cbn in *. destruct (i_act s I g k Hin) as [Hr Hd]. split; [by do 2 apply omap_in_snoc|].
      intros Hd'. apply in_omap_snoc in Hd' as [Hd'|]; [|done]. by apply in_omap_snoc in Hd' as [Hd'|].
    + intros v g k r Hin. rewrite Eh. cbn in *. destruct (i_notes s I v g k r Hin) as [Hd Hs]. split; [by do 2 apply in_snoc|].
      intros b'. destruct (decide (g = f)) as [->|Hn].
      * rewrite lookup_insert. intros [= <-]. cbn. by apply Hs.
      * rewrite lookup_insert_ne by done. apply Hs.
    + intros k. rewrite Eh. intros Hk Hr. apply in_omap_snoc in Hk as [Hk|]; [|done]. apply in_omap_snoc in Hk as [Hk|[= <-]].
      * destruct (i_lost s I k Hk) as [g Hg]; [intros ?; apply Hr; by do 2 apply omap_in_snoc|]. by exists g.
      * exfalso. apply Hr. rewrite omap_snoc. apply in_last.
Qed.
Lemma delete_sub {A} (l : list A) n x : x ∈ delete n l -> x ∈ l.
Proof. rewrite delete_take_drop, elem_of_app. intros [H|H]; [by eapply elem_of_take in H as (? & ? & _); eapply elem_of_list_lookup_2|].
  apply elem_of_list_lookup in H as [i Hi]. rewrite lookup_drop in Hi. by eapply elem_of_list_lookup_2. Qed.
Lemma inv_begin s n s' o : Inv s -> step s (Begin n) = Ok s' o -> Inv s'.
Proof.
  unfold step, act_step. intros I H. destruct (jobs s !! n) as [[f k]|] eqn:Ej; [|done].
  pose proof (tok_jobs s (f, k) (elem_of_list_lookup_2 _ _ _ Ej)) as Htk.
  destruct (proj1 (i_tok s I f k) Htk) as (b & Ef & Hc). rewrite Ef in H. inj H.
  destruct (i_made s I f b k Ef Hc) as [Hm Hr].
  pose proof (i_jobs s I f k (elem_of_list_lookup_2 _ _ _ Ej)) as Hnr.
  pose proof (h_snoc_ran _ _ _ _ _ _ _ _ (inv_h s I) Hm Hr Hnr) as HI.
  pose proof (tok_begin s n (f, k) Ej) as Et. match goal with |- Inv ?x => set (s1 := x) end. change (toks s1 ≡ₚ toks s) in Et.
  assert (forall y, y ∈ delete n (jobs s) -> y.1 <> f) as Hdj.
  { intros y Hy E. pose proof (i_nd s I) as Hn. unfold toks in Hn. rewrite fmap_app in Hn. apply NoDup_app in Hn as (Hn & _ & _).
    rewrite (delete_perm _ _ _ Ej) in Hn. cbn in Hn. apply NoDup_cons in Hn as [Hn _]. apply Hn. rewrite <- E. by apply elem_of_list_fmap_1. }
  hsplit. split; try done.
  - intros g j. rewrite Et. apply (i_tok s I).
  - rewrite Et. apply (i_nd s I).
  - apply (i_cur s I).
  - apply (i_cur' s I).
  - intros g b' j. cbn. intros Hb Hj. destruct (i_made s I g b' j Hb Hj) as [Hm' Hr']. split; [by apply in_snoc|].
    intros Hx. by apply in_omap_snoc in Hx as [Hx|].
  - intros g j. cbn. intros Hin Hx. apply in_omap_snoc in Hx as [Hx|[= <-]]; [by apply delete_sub, (i_jobs s I) in Hin|].
    apply (Hdj _ Hin). cbn. eapply (tok_inj s); [done| |done]. apply tok_jobs. by eapply delete_sub.
  - intros g j. cbn. rewrite elem_of_app, elem_of_list_singleton. intros [Hin|[= -> ->]].
    + destruct (i_act s I g j Hin) as [Hx Hd]. split; [by apply omap_in_snoc|]. intros Hy. by apply in_omap_snoc in Hy as [Hy|].
    + split; [rewrite omap_snoc; apply in_last|]. intros Hy. apply in_omap_snoc in Hy as [Hy|]; [|done]. by apply (i_done s I) in Hy.
  - intros v g j r Hin. cbn in *. destruct (i_notes s I v g j r Hin) as [Hd Hs]. split; [by apply in_snoc|done].
  - intros j Hj Hx. cbn in *. apply in_omap_snoc in Hj as [Hj|]; [|done].
    destruct (i_lost s I j Hj) as [g Hg]; [intros ?; apply Hx; by apply omap_in_snoc|]. exists g. by rewrite Et.
Qed.
Lemma inv_end s n r s' o : Inv s -> step s (End n r) = Ok s' o -> Inv s'.
Proof.
  unfold step, act_step. intros I H. destruct (act s !! n) as [[f k]|] eqn:Ej; [|done].
  pose proof (elem_of_list_lookup_2 _ _ _ Ej) as Hin0. pose proof (tok_act s (f, k) Hin0) as Htk.
  destruct (proj1 (i_tok s I f k) Htk) as (b & Ef & Hc). rewrite Ef in H. inj H.
  destruct (i_act s I f k Hin0) as [Hrn Hnd].
  pose proof (h_snoc_done _ _ k r (inv_h s I) Hrn Hnd) as HI.
  pose proof (tok_end s n (f, k) (f_sel b) r Ej) as Et. match goal with |- Inv ?x => set (s1 := x) end. change (toks s1 ≡ₚ toks s) in Et.
  assert (forall y, y ∈ delete n (act s) -> y.1 <> f) as Hdj.
  { intros y Hy E. pose proof (i_nd s I) as Hn. unfold toks in Hn. rewrite !fmap_app in Hn. apply NoDup_app in Hn as (_ & _ & Hn).
    apply NoDup_app in Hn as (Hn & _ & _).
    rewrite (delete_perm _ _ _ Ej) in Hn. cbn in Hn. apply NoDup_cons in Hn as [Hn _]. apply Hn. rewrite <- E. by apply elem_of_list_fmap_1. }
  hsplit. split; try done.
  - intros g j. rewrite Et. apply (i_tok s I).
  - rewrite Et. apply (i_nd s I).
  - apply (i_cur s I).
  - apply (i_cur' s I).
  - intros g b' j. cbn. intros Hb Hj. destruct (i_made s I g b' j Hb Hj) as [Hm' Hr']. split; [by apply in_snoc|].
    intros Hx. by apply in_omap_snoc in Hx as [Hx|].
  - intros g j. cbn. intros Hin Hx. apply in_omap_snoc in Hx as [Hx|]; [by apply (i_jobs s I) in Hin|done].
  - intros g j. cbn. intros Hin. destruct (i_act s I g j) as [Hx Hd]; [by eapply delete_sub|]. split; [by apply omap_in_snoc|].
    intros Hy. apply in_omap_snoc in Hy as [Hy|[= <-]]; [done|].
    apply (Hdj _ Hin). cbn. eapply (tok_inj s); [done| |done]. apply tok_act. by eapply delete_sub.
  - intros v g j r'. cbn. rewrite elem_of_app, elem_of_list_singleton. intros [Hin|[= -> -> -> ->]].
    + destruct (i_notes s I v g j r' Hin) as [Hd Hs]. split; [by apply in_snoc|done].
    + split; [apply in_last|]. intros b' Hb. by simplify_eq.
  - intros j Hj Hx. cbn in *. apply in_omap_snoc in Hj as [Hj|]; [|done].
    destruct (i_lost s I j Hj) as [g Hg]; [intros ?; apply Hx; by apply omap_in_snoc|]. exists g. by rewrite Et.
Qed.
(** a notice finds its fiber suspended in the call it belongs to *)
Lemma note_waits s n w f k r : Inv s -> notes s !! n = Some (w, f, k, r) -> cur s !! w = None ->
  exists b, fibs s !! f = Some b /\ f_st b = FWait k /\ f_sel b = w /\ Done k r ∈ hist s.
Proof.
  intros I Hn Hc. pose proof (elem_of_list_lookup_2 _ _ _ Hn) as Hin.
  destruct (i_notes s I _ _ _ _ Hin) as [Hd Hs]. pose proof (tok_note s _ Hin) as Ht. unfold ntok in Ht. cbn in Ht.
  destruct (proj1 (i_tok s I f k) Ht) as (b & Hb & Hk). exists b. split; [done|]. pose proof (Hs b Hb) as Hw.
  unfold calling in Hk. destruct (f_st b) as [| |j|j] eqn:E; try done; injection Hk as ->.
  - pose proof (i_cur s I f b Hb) as Hx. rewrite Hw, Hc in Hx. discriminate Hx. right. by eexists.
  - done.
Qed.
Lemma inv_deliver s w n s' o : Inv s -> step s (Deliver w n) = Ok s' o -> Inv s'.
Proof.
  unfold step, act_step. intros I H. destruct (cur s !! w) as [?|] eqn:Ec; [done|].
  destruct (notes s !! n) as [[[[v f] k0] r]|] eqn:Hn; [|done]. destruct (decide (v = w)) as [->|]; [|done].
  destruct (note_waits s n w f k0 r I Hn Ec) as (b & Ef & Hst & Hsel & Hd). rewrite Ef, Hst in H.
  rewrite decide_True in H by done. inj H. subst w.
  assert (calling b = Some k0) as Hcb by (unfold calling; by rewrite Hst).
  destruct (i_made s I f b k0 Ef Hcb) as [Hm Hr].
  pose proof (h_snoc_ret _ _ _ _ _ _ _ _ _ (inv_h s I) Hm Hd Hr) as HI.
  pose proof (tok_deliver s n _ Hn) as Et. match goal with |- Inv ?x => set (s1 := x) end. change (toks s ≡ₚ (f, k0) :: toks s1) in Et.
  assert (forall j, (f, j) ∉ toks s1) as Hnt.
  { intros j Hj. pose proof (i_nd s I) as Hnd. rewrite Et in Hnd. cbn in Hnd. apply NoDup_cons in Hnd as [Hnd _]. apply Hnd.
    by apply (elem_of_list_fmap_1 Datatypes.fst _ (f, j)). }
  assert (forall j, (j, k0) ∉ toks s1) as Hnk.
  { intros j Hj. assert (j = f) as ->; [|by eapply Hnt]. eapply (tok_inj s); [done|rewrite Et; by right|rewrite Et; by left]. }
  hsplit. split; try done.
  - intros g j. split.
    + intros Hin. assert (g <> f) as Hne by (intros ->; by eapply Hnt). cbn. rewrite lookup_insert_ne by done. apply (i_tok s I). rewrite Et. by right.
    + cbn. intros (b' & Hb & Hj). destruct (decide (g = f)) as [->|Hne].
      * rewrite lookup_insert in Hb. by injection Hb as <-.
      * rewrite lookup_insert_ne in Hb by done. assert ((g, j) ∈ toks s) as Ht by (apply (i_tok s I); by exists b').
        rewrite Et in Ht. apply elem_of_cons in Ht as [[= -> ->]|Ht]; done.
  - pose proof (i_nd s I) as Hnd. rewrite Et in Hnd. cbn in Hnd. by apply NoDup_cons in Hnd as [_ ?].
  - intros g b'. cbn. destruct (decide (g = f)) as [->|Hne].
    + rewrite lookup_insert. intros [= <-] _. cbn. by rewrite lookup_insert.
    + rewrite lookup_insert_ne by done. intros Hg Hx. pose proof (i_cur s I g b' Hg Hx) as Hcc.
      rewrite lookup_insert_ne; [done|]. intros E. by rewrite E, Hcc in Ec.
  - intros v g. cbn. destruct (decide (v = f_sel b)) as [->|Hne].
    + rewrite lookup_insert. intros [= <-]. rewrite lookup_insert. eexists. split; [done|]. cbn. split; [done|]. by left.
    + rewrite lookup_insert_ne by done. intros Hcc. destruct (i_cur' s I v g Hcc) as (b' & Hg & <- & Hx).
      exists b'. rewrite lookup_insert_ne; [done|]. intros <-. simplify_eq.
  - intros g b' j. cbn. destruct (decide (g = f)) as [->|Hne].
    + rewrite lookup_insert. by intros [= <-].
    + rewrite lookup_insert_ne by done. intros Hb Hj. destruct (i_made s I g b' j Hb Hj) as [Hm' Hr']. split; [by apply in_snoc|].
      intros Hx. apply in_omap_snoc in Hx as [Hx|[= <-]]; [done|]. apply Hne.
      eapply (tok_inj s _ _ k0); [done| |]; apply (i_tok s I); [by exists b'|by exists b].
  - intros g j. cbn. intros Hin Hx. apply in_omap_snoc in Hx as [Hx|]; [by apply (i_jobs s I) in Hin|done].
  - intros g j. cbn. intros Hin. destruct (i_act s I g j Hin) as [Hx Hdd]. split; [by apply omap_in_snoc|].
    intros Hy. by apply in_omap_snoc in Hy as [Hy|].
  - intros v g j r'. cbn. intros Hin. destruct (i_notes s I v g j r') as [Hdd Hs]; [by eapply delete_sub|]. split; [by apply in_snoc|].
    intros b'. destruct (decide (g = f)) as [->|Hne].
    + rewrite lookup_insert. intros [= <-]. cbn. by apply Hs.
    + rewrite lookup_insert_ne by done. apply Hs.
  - intros j Hj Hx. cbn in Hj, Hx. apply in_omap_snoc in Hj as [Hj|]; [|done].
    destruct (i_lost s I j Hj) as [g Hg]; [intros ?; apply Hx; by apply omap_in_snoc|]. exists g.
    rewrite Et in Hg. apply elem_of_cons in Hg as [[= -> ->]|Hg]; [|done]. exfalso. apply Hx. rewrite omap_snoc. apply in_last.
Qed.
Lemma inv_step s e s' o : Inv s -> step s e = Ok s' o -> Inv s'.
Proof.
  destruct e; [apply inv_resume|apply inv_yield|apply inv_call|apply inv_sleep|apply inv_begin|apply inv_end|apply inv_deliver].
Qed.
Lemma inv_init l : Inv (init l).
Proof.
  split; cbn; try (intros; set_solver).
  - intros f k. split; [by intros ?%elem_of_nil|]. intros (b & Hb & Hc). rewrite lookup_fmap in Hb.
    destruct (l !! f); cbn in Hb; [|done]. by injection Hb as <-.
  - constructor.
  - intros f b Hb. rewrite lookup_fmap in Hb. destruct (l !! f); cbn in Hb; [|done]. injection Hb as <-. by intros [?|[??]].
  - intros f b k Hb. rewrite lookup_fmap in Hb. destruct (l !! f); cbn in Hb; [|done]. by injection Hb as <-.
  - constructor.
  - constructor.
  - constructor.
  - constructor.
  - intros h1 k w r h2 E. by destruct h1.
  - intros h1 k ??? h2 E. by destruct h1.
  - intros h1 k r h2 E. by destruct h1.
Qed.
Lemma no_crash_step s e : Inv s -> step s e <> Crash.
Proof.
  intros I. destruct e; unfold step, act_step.
  - destruct (cur s !! w); [done|]. destruct (fibs s !! f); [|done]. by destruct (decide _).
  - destruct (cur s !! w) eqn:Ec; [|done]. destruct (i_cur' s I _ _ Ec) as (b & -> & _). by destruct (decide _).
  - destruct (cur s !! w) eqn:Ec; [|done]. destruct (i_cur' s I _ _ Ec) as (b & -> & _). destruct (decide _); [|done]. by destruct ok.
  - destruct (cur s !! w) eqn:Ec; [|done]. destruct (i_cur' s I _ _ Ec) as (b & -> & _). by destruct (f_st b).
  - destruct (jobs s !! n) as [[f k]|] eqn:Ej; [|done]. destruct (proj1 (i_tok s I f k)) as (b & -> & _); [|done].
    apply tok_jobs. by eapply elem_of_list_lookup_2.
  - destruct (act s !! n) as [[f k]|] eqn:Ej; [|done]. destruct (proj1 (i_tok s I f k)) as (b & -> & _); [|done].
    apply tok_act. by eapply elem_of_list_lookup_2.
  - destruct (cur s !! w) eqn:Ec; [done|]. destruct (notes s !! n) as [[[[v f] k0] r]|] eqn:Hn; [|done].
    destruct (decide (v = w)) as [->|]; [|done]. destruct (note_waits s n w f k0 r I Hn Ec) as (b & -> & -> & Hsel & _).
    by rewrite decide_True.
Qed.
Lemma run_inv' l es s os : run step (init l) es = Ok s os -> Inv s.
Proof. intros H. eapply (run_inv step Inv inv_step); [apply inv_init|done]. Qed.

(** ** theorems: every schedule of any number of selectors, fibers and pool threads *)
(** no schedule fails an assertion: a fiber is continued only while it sleeps in the call *)
Theorem C58_no_crash l : safe step (init l).
Proof. eapply safe_inv; [apply inv_init|apply inv_step|apply no_crash_step]. Qed.
(** the function of a call is run only after the call, with its function and arguments, never if the call was refused,
    and at most once *)
Theorem C58_runs_once l es s os : run step (init l) es = Ok s os -> ran_ok (hist s) /\ NoDup (omap rank (hist s)).
Proof. intros H%run_inv'. split; apply H. Qed.
(** a call returns at most once, on the selector of the calling fiber, after its function has returned, with its result *)
Theorem C58_returns_once l es s os : run step (init l) es = Ok s os ->
  ret_ok (hist s) /\ done_ok (hist s) /\ NoDup (omap retk (hist s)) /\ NoDup (omap donek (hist s)).
Proof. intros H%run_inv'. split_and!; apply H. Qed.
(** while the function has not returned, the caller does not continue: it is still in the call *)
Theorem C58_caller_sleeps l es s os k f w fn a c : run step (init l) es = Ok s os ->
  Made k f w fn a c ∈ hist s -> Refused k ∉ hist s -> k ∉ omap donek (hist s) ->
  exists b, fibs s !! f = Some b /\ (f_st b = FCalling k \/ f_st b = FWait k).
Proof.
  intros I%run_inv' Hm Hr Hd.
  assert (k ∉ omap retk (hist s)) as Hnr.
  { rewrite elem_of_list_omap. intros (x & Hx & E). destruct x; try done; injection E as ->; [done|].
    apply elem_of_list_split in Hx as (h1 & h2 & E). destruct (i_retok s I _ _ _ _ _ E) as [Hdn _]. apply Hd.
    rewrite E. apply (in_omap _ _ (Done k r)); [|done]. apply elem_of_app. by left. }
  destruct (i_lost s I k) as [g Hg]; [by eapply madek_in|done|]. pose proof Hg as Hg'.
  apply (i_tok s I) in Hg as (b & Hb & Hc). destruct (i_made s I g b k Hb Hc) as [Hm' _].
  assert (g = f) as ->.
  { pose proof (i_mnd s I) as Hn. clear - Hm Hm' Hn. induction (hist s) as [|x h IH]; [by apply elem_of_nil in Hm|].
    rewrite elem_of_cons in Hm, Hm'. destruct Hm as [<-|Hm], Hm' as [E|Hm'].
    - by simplify_eq.
    - cbn in Hn. apply NoDup_cons in Hn as [Hn _]. exfalso. apply Hn. by eapply madek_in.
    - subst x. cbn in Hn. apply NoDup_cons in Hn as [Hn _]. exfalso. apply Hn. by eapply madek_in.
    - apply IH; [done..|]. cbn in Hn. destruct (madek x); [by apply NoDup_cons in Hn as [_ ?]|done]. }
  exists b. split; [done|]. unfold calling in Hc. destruct (f_st b); try done; injection Hc as ->; auto.
Qed.
(** nothing is forgotten: a call that has not returned can proceed.  Its function waits for a pool thread, or runs in one, or
    its result is posted to the caller's selector, where the caller sleeps or is about to *)
Theorem C58_not_forgotten l es s os k f w fn a c : run step (init l) es = Ok s os ->
  Made k f w fn a c ∈ hist s -> k ∉ omap retk (hist s) ->
  (exists n s', step s (Begin n) = Ok s' [Ran k fn a c]) \/ (exists n, forall r, exists s', step s (End n r) = Ok s' [Done k r])
  \/ (exists n r s', step s (Deliver w n) = Ok s' [Ret k w r]) \/ (exists g s', cur s !! w = Some g /\ (g = f -> step s (Sleep w) = Ok s' [])).
Proof.
  intros I%run_inv' Hm Hnr. destruct (i_lost s I k) as [g Hg]; [by eapply madek_in|done|]. pose proof Hg as Hg'.
  apply (i_tok s I) in Hg as (b & Hb & Hc). destruct (i_made s I g b k Hb Hc) as [Hm' _].
  assert (Made k f w fn a c = Made k g (f_sel b) (f_start b) (f_arg b) (f_ret b)) as E.
  { pose proof (i_mnd s I) as Hn. clear - Hm Hm' Hn. induction (hist s) as [|x h IH]; [by apply elem_of_nil in Hm|].
    rewrite elem_of_cons in Hm, Hm'. destruct Hm as [<-|Hm], Hm' as [E|Hm'].
    - done.
    - cbn in Hn. apply NoDup_cons in Hn as [Hn _]. exfalso. apply Hn. by eapply madek_in.
    - subst x. cbn in Hn. apply NoDup_cons in Hn as [Hn _]. exfalso. apply Hn. by eapply madek_in.
    - apply IH; [done..|]. cbn in Hn. destruct (madek x); [by apply NoDup_cons in Hn as [_ ?]|done]. }
  injection E as -> -> -> -> ->. unfold toks in Hg'. rewrite !elem_of_app in Hg'. destruct Hg' as [Hj|[Ha|Hn]].
  - left. apply elem_of_list_lookup in Hj as [n Hn]. unfold step, act_step. exists n. rewrite Hn, Hb. by eexists.
  - right. left. apply elem_of_list_lookup in Ha as [n Hn]. unfold step, act_step. exists n. intros r. rewrite Hn, Hb. by eexists.
  - right. right. apply elem_of_list_fmap in Hn as ([[[v f'] k'] r] & [= <- <-] & Hin).
    destruct (cur s !! f_sel b) as [h|] eqn:Ec.
    + right. exists h. unfold step, act_step. rewrite Ec. destruct (decide (h = g)) as [->|]; [|by exists s].
      rewrite Hb. destruct (i_cur' s I _ _ Ec) as (b' & ? & _ & Hx). simplify_eq. unfold calling in Hc.
      destruct Hx as [Hx|[j Hx]]; rewrite Hx in *; [done|]. by eexists.
    + left. destruct (i_notes s I _ _ _ _ Hin) as [_ Hs]. rewrite <- (Hs b Hb) in Hin.
      apply elem_of_list_lookup in Hin as [n Hn]. exists n, r.
      destruct (note_waits s n _ _ _ _ I Hn Ec) as (b' & Hb' & Hst & Hsel & _). simplify_eq.
      unfold step, act_step. rewrite Ec, Hn, decide_True, Hb, Hst, decide_True by done. by eexists.
Qed.
(** when the pool, the pool threads and the notice queues are empty, every call has returned *)
Theorem C58_drained l es s os : run step (init l) es = Ok s os -> jobs s = [] -> act s = [] -> notes s = [] ->
  forall k f w fn a c, Made k f w fn a c ∈ hist s -> k ∈ omap retk (hist s).
Proof.
  intros I%run_inv' Hj Ha Hn k f w fn a c Hm. destruct (decide (k ∈ omap retk (hist s))) as [|Hk]; [done|].
  destruct (i_lost s I k) as [g Hg]; [by eapply madek_in|done|]. unfold toks in Hg. rewrite Hj, Ha, Hn in Hg. by apply elem_of_nil in Hg.
Qed.

(** a schedule: two selectors; the function of the first call ends before its caller has gone to sleep *)
Definition demo : list ev :=
  [Resume 0 1; Call 0 10 20 3 true; Begin 0; Resume 1 2; Call 1 11 21 4 true; Sleep 1; End 0 7; Begin 0; Sleep 0; Deliver 0 0;
   Call 0 12 22 5 false; End 0 9; Deliver 1 0]%nat.
Example C58_demo : match run step (init {[1%nat := 0%nat; 2%nat := 1%nat]}) demo with
  | Ok s os => mjoin os = [Made 0 1 0 10 20 3; Ran 0 10 20 3; Made 1 2 1 11 21 4; Done 0 7; Ran 1 11 21 4; Ret 0 0 7;
                           Made 2 1 0 12 22 5; Refused 2; Done 1 9; Ret 1 1 9]%nat /\ hist s = mjoin os /\ toks s = []
  | _ => False end.
Proof. vm_compute. by split_and!. Qed.
