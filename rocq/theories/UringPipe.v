(** C57: every pipe end made by sendfile is closed exactly once. *)
From Verif Require Export UringProof5.
Local Open Scope Z_scope.

(** the pipe ends closed so far *)
Definition pclof (a : obs) : option (nat * bool) := match a with PClose i b => Some (i, b) | _ => None end.
Definition pcl (h : list obs) : list (nat * bool) := omap pclof h.
Definition nopipe (a : obs) : Prop := match a with Pipe _ | PClose _ _ => False | _ => True end.
Definition endopen (xf : sfile) (b : bool) : bool := if b then f_p1 xf else f_p0 xf.
Record Pp (h : list obs) (s : st) : Prop := mkPp {
  p_nd : NoDup (pcl h);
  p_pipe : forall i, Pipe i ∈ h <-> (i < nsf s)%nat;
  p_end : forall i b, (i, b) ∈ pcl h <-> (i < nsf s)%nat /\ match sfs s !! i with None => True | Some xf => endopen xf b = false end
}.
Definition still (s s' : st) (o : list obs) : Prop := nsf s' = nsf s /\ sfs s' = sfs s /\ Forall nopipe o.
Lemma nopipe_pcl o : Forall nopipe o -> pcl o = [].
Proof. induction 1 as [|a o Ha _ IH]; [done|]. cbn. by destruct a. Qed.
Lemma pcl_app h o : pcl (h ++ o) = pcl h ++ pcl o.
Proof. apply omap_app. Qed.
Lemma pp_still h s s' o : Pp h s -> still s s' o -> Pp (h ++ o) s'.
Proof.
  intros [H1 H2 H3] (E1 & E2 & Ho). assert (pcl (h ++ o) = pcl h) as Hp by (rewrite pcl_app, (nopipe_pcl o Ho); apply app_nil_r). split.
  - by rewrite Hp.
  - intros i. rewrite E1, <- H2, elem_of_app. split; [|by left]. intros [H|H]; [done|]. rewrite Forall_forall in Ho. by destruct (Ho _ H).
  - intros i b. rewrite Hp, E1, E2. apply H3.
Qed.
Lemma gs_still N s sub s' : get_seq N s sub = Some s' -> nsf s' = nsf s /\ sfs s' = sfs s.
Proof. unfold get_seq. destruct (decide _); [by intros [= <-]|]. destruct sub; [|done]. destruct (decide _); [|done]. by intros [= <-]. Qed.
Lemma arm_still N s o d k sl b sub : still s (arm N s o d k sl b sub).1 (arm N s o d k sl b sub).2.
Proof.
  unfold arm. destruct (get_seq N s sub) as [s1|] eqn:E.
  - apply gs_still in E as [E1 E2]. split_and!; [done|done|constructor].
  - split_and!; [done|done|repeat constructor].
Qed.
Lemma try_still N s o d att sub s' ob : try_event N s o d att sub = Ok s' ob -> still s s' ob.
Proof.
  unfold try_event. destruct (slots s !! (o, d)) as [sl|]; [|done]. destruct (cbk sl) as [k| |]; [|done..].
  destruct (buf sl); destruct att; intros [= <- <-]; try (split_and!; [done|done|repeat constructor]).
  set (sl2 := Slot _ _ _ _ _). destruct (arm_still N s o d k sl2 true sub) as (H1 & H2 & H3). split_and!; [done|done|by constructor].
Qed.
Lemma still_nsf0 s s1 s' o : nsf s1 = nsf s -> sfs s1 = sfs s -> still s1 s' o -> still s s' o.
Proof. intros E1 E2 (H1 & H2 & H3). split_and!; congruence. Qed.

Definition not_reap (e : ev) : Prop := match e with Reap | Sendfile _ _ _ _ _ => False | _ => True end.
Lemma act_still N s e s' o : not_reap e -> act N s e = Ok s' o -> still s s' o.
Proof.
  assert (forall x y, nsf x = nsf s -> sfs x = sfs s -> Forall nopipe y -> still s x y) as Hst by done.
  destruct e as [o1|o1|o1|o1 d b main att sub|o1 d sub|o1 d|o1 f sub1 pok sub2|sub ok|n v| |o1 aw sw ar sr]; cbn [not_reap act]; intros Hn; try done.
  - case_decide; [done|]. intros [= <- <-]. apply Hst; [done|done|repeat constructor].
  - intros [= <- <-]. apply Hst; [done|done|repeat constructor].
  - destruct (slots s !! (o1, R)) as [x|], (slots s !! (o1, W)) as [y|]; try done. destruct (_ || _); [done|]. intros [= <- <-].
    apply Hst; [done|done|repeat constructor].
  - unfold start_rw. destruct (slots s !! (o1, d)) as [sl|]; [|done]. destruct (busy sl); [done|]. destruct (decide _).
    + destruct main; [intros [= <- <-]; apply Hst; [done|done|repeat constructor]|].
      match goal with |- context [try_event N ?x o1 d att sub] => destruct (try_event N x o1 d att sub) as [| |s2 o2] eqn:E end; [done|done|].
      intros [= <- <-]. apply try_still in E as (E1 & E2 & E3). apply Hst; [done|done|by constructor].
    + match goal with |- context [arm N ?x o1 d ?k sl b sub] => pose proof (arm_still N x o1 d k sl b sub) as (E1 & E2 & E3) end.
      intros [= <- <-]. apply Hst; [done|done|by constructor].
  - unfold start_plain. destruct (slots s !! (o1, d)) as [sl|]; [|done]. destruct (busy sl); [done|].
    destruct (get_seq N _ sub) as [s1|] eqn:E.
    + apply gs_still in E as [E1 E2]. intros [= <- <-]. apply Hst; [done|done|repeat constructor].
    + intros [= <- <-]. apply Hst; [done|done|repeat constructor].
  - unfold start_next. destruct (slots s !! (o1, d)) as [sl|]; [|done]. destruct (_ || _); [done|]. intros [= <- <-]. apply Hst; [done|done|repeat constructor].
  - destruct (get_seq N s sub) as [s1|] eqn:E; [|done]. apply gs_still in E as [E1 E2]. destruct ok; intros [= <- <-]; apply Hst; [done|done|constructor|done|done|constructor].
  - destruct (infl s !! n) as [x|]; [|done]. intros [= <- <-]. apply Hst; [done|done|]. destruct x; repeat constructor.
  - case_decide; [|done]. unfold pump. set (s0 := set_ready _ _).
    destruct (if fires s0 o1 W then try_event N s0 o1 W aw sw else Ok s0 []) as [| |s1 ow] eqn:E1; [done|done|].
    assert (still s s1 ow) as (A1 & A2 & A3).
    { destruct (fires s0 o1 W); [|injection E1 as <- <-; apply Hst; [done|done|constructor]]. by apply try_still in E1. }
    destruct (if fires s0 o1 R then try_event N s1 o1 R ar sr else Ok s1 []) as [| |s2 or] eqn:E2; [done|done|]. intros [= <- <-].
    assert (still s1 s2 or) as (B1 & B2 & B3).
    { destruct (fires s0 o1 R); [by apply try_still in E2|]. injection E2 as <- <-. split_and!; [done|done|constructor]. }
    apply Hst; [congruence|congruence|]. by apply Forall_app.
Qed.

Lemma pp_sendfile N h s o f sub1 s' ob : Pp h s -> (forall i, is_Some (sfs s !! i) -> (i < nsf s)%nat) ->
  sendfile N s o f sub1 true true = Ok s' ob -> N <> 0%nat -> Pp (h ++ ob) s'.
Proof.
  intros Hp Hlt Hs HN. unfold sendfile in Hs.
  destruct (slots s !! (o, W)) as [so|]; [|done]. destruct (slots s !! (f, R)) as [fr|]; [|done]. destruct (slots s !! (f, W)) as [fw|]; [|done].
  destruct (get_seq N (set_next s (S (next s))) sub1) as [s1|] eqn:E1; cbn [negb] in Hs.
  2:{ injection Hs as <- <-. apply (pp_still h s); [done|]. split_and!; [done|done|repeat constructor]. }
  apply gs_still in E1 as [A1 A2]. cbn in A1, A2.
  match type of Hs with context [get_seq N ?x true] => destruct (get_seq N x true) as [s5|] eqn:E2 end.
  2:{ unfold get_seq in E2. destruct (decide _); [done|]. destruct (decide _); [done|]. lia. }
  apply gs_still in E2 as [B1 B2]. cbn in B1, B2. injection Hs as <- <-.
  destruct Hp as [H1 H2 H3]. set (i := nsf s) in *. rewrite A1 in *.
  assert (sfs s !! i = None) as Hi by (destruct (sfs s !! i) eqn:E; [|done]; assert (i < nsf s)%nat by (apply Hlt; by rewrite E); unfold i in *; lia).
  split.
  - rewrite pcl_app. cbn. by rewrite app_nil_r.
  - intros j. cbn. rewrite B1, elem_of_app, H2, !elem_of_cons, elem_of_nil. unfold i. split.
    + intros [H|[H|[[= H]|[]]]]; [lia|done|lia].
    + intros H. destruct (decide (j = nsf s)) as [->|Hne]; [tauto|]. left. lia.
  - intros j b. rewrite pcl_app. cbn. rewrite app_nil_r, B1, B2, A2, H3. destruct (decide (j = i)) as [->|Hne].
    + rewrite Hi, lookup_insert. unfold i. destruct b; cbn; split; try lia; intros [? ?]; done.
    + rewrite lookup_insert_ne by done. unfold i in *. split; intros [? ?]; (split; [lia|done]).
Qed.

Lemma pp_half h s i xf sock v s' ob : Pp h s -> sfs s !! i = Some xf -> half_open xf sock = true -> f_skip xf = false ->
  f_refs xf = ((if f_p0 xf then 1 else 0) + (if f_p1 xf then 1 else 0))%nat -> (i < nsf s)%nat ->
  sf_result s i sock v = Ok s' ob -> Pp (h ++ ob) s'.
Proof.
  intros [H1 H2 H3] Hi Hop Hsk Href Hlt Hr. unfold sf_result in Hr. rewrite Hi in Hr.
  assert ((i, negb sock) ∉ pcl h) as Hnew.
  { rewrite H3, Hi. intros [_ H]. destruct sock; cbn in *; congruence. }
  destruct (half_open xf (negb sock)) eqn:Hoo.
  - assert (f_refs xf = 2%nat) as E by (rewrite Href; destruct sock; cbn in Hop, Hoo; by rewrite Hop, Hoo).
    assert (Ok (set_sfs s (<[i := if sock then Sf (f_st xf) (f_file xf) false (f_p1 xf) 1 v (f_skip xf) (f_call xf)
        else Sf (f_st xf) (f_file xf) (f_p0 xf) false 1 (f_got xf) (f_skip xf) (f_call xf)]> (sfs s))) [PClose i (negb sock)] = Ok s' ob) as Hr'.
    { rewrite <- Hr. destruct sock; cbn; rewrite E; done. }
    clear Hr. injection Hr' as <- <-. split.
    + rewrite pcl_app. cbn. apply NoDup_app. split_and!; [done| |apply NoDup_singleton]. intros x Hx Hx'. apply elem_of_list_singleton in Hx' as ->. done.
    + intros j. cbn. rewrite elem_of_app, H2, elem_of_list_singleton. naive_solver.
    + intros j b. rewrite pcl_app. cbn. rewrite elem_of_app, elem_of_list_singleton, H3. destruct (decide (j = i)) as [->|Hne].
      * rewrite Hi, lookup_insert. destruct sock, b; cbn in *; naive_solver.
      * rewrite lookup_insert_ne by done. naive_solver.
  - assert (f_refs xf = 1%nat) as E by (rewrite Href; destruct sock; cbn in Hop, Hoo; by rewrite Hop, Hoo).
    assert (exists k g, s' = set_sfs s (delete i (sfs s)) /\ ob = [PClose i (negb sock); Cb k g]) as (k & g & -> & ->).
    { rewrite Hsk in Hr.
      destruct sock; cbn [f_st f_file f_p0 f_p1 f_refs f_got f_skip f_call half_open negb] in *; rewrite E, Hoo in Hr; (destruct (decide _); [lia|]);
        (destruct (slots s !! (f_file xf, W)) as [fw|]; [|done]); (destruct (cbk fw) as [k| |]; [|done..]); injection Hr as <- <-; cbn; eauto. }
    assert ((i, sock) ∈ pcl h) as Hold.
    { rewrite H3, Hi. split; [done|]. destruct sock; done. }
    split.
    + rewrite pcl_app. cbn. apply NoDup_app. split_and!; [done| |apply NoDup_singleton]. intros x Hx Hx'. apply elem_of_list_singleton in Hx' as ->. done.
    + intros j. cbn. rewrite elem_of_app, H2, !elem_of_cons, elem_of_nil. naive_solver.
    + intros j b. rewrite pcl_app. cbn. rewrite elem_of_app, elem_of_list_singleton. destruct (decide (j = i)) as [->|Hne].
      * rewrite lookup_delete. split; [done|]. intros _. destruct (decide (b = sock)) as [->|Hb]; [by left|right]. f_equal. by destruct b, sock.
      * rewrite lookup_delete_ne by done. rewrite H3. naive_solver.
Qed.

Lemma pp_same h s s' : Pp h s -> nsf s' = nsf s -> sfs s' = sfs s -> Pp h s'.
Proof. intros [H1 H2 H3] E1 E2. split; [done| |]; intros; rewrite ?E1, ?E2; auto. Qed.
Lemma pp_reap N h s s' ob : Inv h s -> Pp h s -> act N s Reap = Ok s' ob -> Pp (h ++ ob) s'.
Proof.
  intros HI Hp Ha. cbn [act] in Ha. destruct (cq s) as [|[e v] c] eqn:Hc; [done|]. destruct e as [| |o d k]; [|done|].
  { injection Ha as <- <-. apply (pp_still h s); [done|]. split_and!; [done|done|constructor]. }
  pose proof (Inv_lean _ _ HI) as Hl. destruct (pop_ents s o d k v c Hl Hc) as (He & He0 & Hey).
  pose proof (v_key _ _ HI (o, d)) as Hk. unfold PK in Hk. unfold handle in Ha. cbn [slots set_cq] in Ha.
  destruct (slots s !! (o, d)) as [sl|] eqn:Hsl; [|done]. destruct (slots s !! (o, other d)) as [sl'|]; [|done].
  destruct Hk as (Hok & _).
  match type of Ha with context [negb (busy sl)] => idtac end.
  set (s1 := if busy sl && busy sl' then _ else _) in Ha.
  assert (nsf s1 = nsf s /\ sfs s1 = sfs s) as [E1 E2] by (unfold s1; by destruct (busy sl && busy sl'), (rdy2 sl || rdy2 sl')).
  destruct (negb (busy sl)); [done|]. destruct (decide (o ∈ poll s1)).
  { injection Ha as <- <-. apply (pp_still h s); [done|]. split_and!; [done|done|constructor]. }
  destruct (rdy sl || rdy2 sl); [done|].
  destruct Hok as [r0 c0 b H1|k0 b H1 H2 H3|k0 H1 H2 H3 H4|k0 b H1 H2 H3|k0 r0 H1 H2 H3|i xf b H1 H2 H3 H4 H5|i xf b H1 H2 H3 H4]; try congruence; cbn [cbk] in Ha.
  - injection Ha as <- <-. apply (pp_still h s); [done|]. split_and!; [done|done|repeat constructor].
  - injection Ha as <- <-. apply (pp_still h s); [done|]. split_and!; [done|done|repeat constructor].
  - destruct (v_sf _ _ HI i xf H2) as (P1 & P2 & P3 & P4 & P5 & P6 & P7 & P8 & P9 & P10 & P11 & P12).
    match type of Ha with sf_result ?x i ?b ?g = _ => eapply (pp_half h x i xf b g) end; [|cbn; rewrite E2; done|exact H4|done|done|cbn; rewrite E1; done|exact Ha]. by eapply (pp_same h s).
  - destruct (v_sf _ _ HI i xf H2) as (P1 & P2 & P3 & P4 & P5 & P6 & P7 & P8 & P9 & P10 & P11 & P12).
    match type of Ha with sf_result ?x i ?b ?g = _ => eapply (pp_half h x i xf b g) end; [|cbn; rewrite E2; done|exact H4|done|done|cbn; rewrite E1; done|exact Ha]. by eapply (pp_same h s).
Qed.

Lemma pp_step N s e s' o : (0 < N)%nat -> J s -> Pp (hist s) s -> permitted (hist s) e -> step N s e = Ok s' o -> Pp (hist s') s'.
Proof.
  intros HN [HI HR] Hp Hpe Hst. unfold step in Hst. destruct (act N s e) as [| |s1 o1] eqn:Ha; [done|done|]. injection Hst as <- <-.
  eapply (pp_same _ s1); [|done|done]. cbn [hist set_hist].
  destruct e; try (eapply (pp_still _ s); [done|]; refine (act_still N s _ s1 o1 _ Ha); exact I).
  - cbn [permitted] in Hpe. destruct Hpe as (_ & _ & _ & _ & _ & _ & _ & _ & _ & -> & ->). eapply pp_sendfile; [done| |exact Ha|lia].
    intros i [xf Hi]. by destruct (v_sf _ _ HI i xf Hi) as (P1 & P2 & P3 & P4 & P5 & P6 & P7 & P8 & P9 & P10 & P11 & P12).
  - by eapply pp_reap.
Qed.
