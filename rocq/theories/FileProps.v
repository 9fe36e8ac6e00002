(** C69: files: what each mode of kfopen may do, appending, kfread_all, positions, sizes and times. *)
From Verif Require Import FileModel.
Local Open Scope Z_scope.

(** * Specification *)
(** what a mode stands for *)
Definition creates (m : mode) : bool := match m with MRead | MReadWrite => false | _ => true end.
Definition truncates (m : mode) : bool := match m with MWrite | MWriteRead => true | _ => false end.
Definition can_read (m : mode) : bool := match m with MRead | MReadWrite | MWriteRead => true | _ => false end.
Definition can_write (m : mode) : bool := match m with MRead => false | _ => true end.
Definition appends (m : mode) : bool := match m with MAppend => true | _ => false end.
Inductive reachf (win : bool) (s0 : st) : list ev -> st -> Prop :=
| reach_nil : reachf win s0 [] s0
| reach_snoc tr s e s' o : reachf win s0 tr s -> step win s e = Ok s' o -> reachf win s0 (tr ++ [e]) s'.
Notation reach win t0 := (reachf win (init t0)).

(** * Invariant *)
Record hok (win : bool) (s : st) (x : handle) : Prop := mkhok {
  k_file : is_Some (files s !! hi x); k_rd : rd x = can_read (hm x); k_wr : wr x = can_write (hm x); k_app : app_ x = appends (hm x);
  k_posix : win = false -> excl x = false /\ del x = false /\ inh x = false }.
Record inv (win : bool) (s : st) : Prop := mkinv {
  i_h : forall h x, hs s !! h = Some x -> hok win s x;
  i_n : forall p i, names s !! p = Some i -> is_Some (files s !! i);
  i_f : forall i, is_Some (files s !! i) -> (i < nx s)%nat;
  i_l : forall t l, lps s !! t = Some l -> (length (l_buf l) + l_left l = l_cap l /\ 0 < l_left l)%nat }.
Ltac sm := cbn [names files nx hs lps clk wlog s_names s_files s_hs s_lps s_clk dat mtime btime hp hi pos rd wr app_ excl del inh hm s_pos s_inh l_h l_left l_buf l_cap l_off] in *.
Lemma inv_init win t0 : inv win (init t0).
Proof. constructor; cbn [init hs names files lps]; intros *; rewrite ?lookup_empty; try done. by intros [? ?]. Qed.

(** what opening does, on both systems *)
Definition opened (s : st) (h p : nat) (m : mode) (x : handle) : st :=
  let s1 := match names s !! p with Some i => open_old (truncates m) i s | None => create p s end in s_hs (<[h := x]> (hs s1)) s1.
Lemma open_spec win s h p m temp s' o : step win s (EOpen h p m temp true) = Ok s' o ->
  hs s !! h = None /\ ((o = RFail /\ s' = s /\ (names s !! p = None /\ creates m = false \/ win = true /\ exists i y, names s !! p = Some i /\ y ∈ on_file i s /\ (excl y = true \/ temp = true))) \/
  (o = ROpened /\ (is_Some (names s !! p) \/ creates m = true) /\ (win = true -> forall i y, names s !! p = Some i -> y ∈ on_file i s -> excl y = false /\ temp = false) /\
   exists x, s' = opened s h p m x /\ hp x = p /\ hi x = file_at p s /\ pos x = 0%nat /\ rd x = can_read m /\ wr x = can_write m /\ app_ x = appends m /\ inh x = false /\ hm x = m /\
     excl x = (if win then temp else false) /\ del x = (if win then temp else false))).
Proof.
  cbn [step]. intros E. destruct (hs s !! h); [done|]. split; [done|]. destruct win.
  - unfold create_file in E. destruct (names s !! p) as [i|] eqn:Hn.
    + match type of E with context [if ?b then _ else _] => destruct b eqn:B end; injection E as <- <-.
      * right. split; [done|]. split; [left; done|]. split.
        { intros _ i' y [= <-] Hy. rewrite forallb_forall in B. apply elem_of_list_In, B in Hy. apply andb_prop in Hy as [Hy1 Hy2]. destruct m; cbn in Hy2; destruct (excl y), temp; done. }
        eexists. split; [|split_and!]; [unfold opened; rewrite Hn; f_equal; by destruct m|..]; destruct m; try done; cbn; by rewrite negb_involutive.
      * left. split_and!; try done. right. split; [done|]. exists i.
        assert (X: exists y, y ∈ on_file i s /\ negb (excl y) && w_share (win_flags m temp) = false).
        { clear Hn. induction (on_file i s) as [|y l IH]; [done|]. cbn [forallb] in B. apply andb_false_iff in B as [B|B]; [exists y; split; [by left|done]|]. destruct (IH B) as (z & Hz & Ez). exists z. split; [by right|done]. }
        destruct X as (y & Hy & Ey). exists y. split_and!; try done. destruct m; cbn in Ey; destruct (excl y), temp; auto; done.
    + destruct (creates m) eqn:C.
      * rewrite bool_decide_true in E by (clear E; destruct m; cbn in *; congruence). injection E as <- <-. right. split; [done|]. split; [by right|]. split; [done|].
        eexists. split; [|split_and!]; [unfold opened; rewrite Hn; f_equal|..]; destruct m; try done; cbn; by rewrite negb_involutive.
      * rewrite bool_decide_false in E by (clear E; destruct m; cbn in *; congruence). injection E as <- <-. left. auto.
  - unfold sys_open in E. destruct (bool_decide (is_Some (names s !! p)) || o_creat (posix_flags m)) eqn:B.
    + injection E as <- <-. right. split; [done|]. split; [apply orb_prop in B as [B|B]; [left; by apply bool_decide_eq_true in B|right; by destruct m]|]. split; [done|].
      eexists. split; [|split_and!]; [unfold opened; destruct (names s !! p); f_equal; by destruct m|..]; by destruct m.
    + injection E as <- <-. left. split_and!; try done. left. apply orb_false_elim in B as [B1 B2]. apply bool_decide_eq_false in B1. apply eq_None_not_Some in B1. split; [done|]. by destruct m.
Qed.
Lemma hok_mono win s s' x : (forall i, is_Some (files s !! i) -> is_Some (files s' !! i)) -> hok win s x -> hok win s' x.
Proof. intros H [A B C D F]. constructor; auto. Qed.
Lemma alter_some {A} (f : A -> A) (m : gmap nat A) i j : is_Some (alter f i m !! j) <-> is_Some (m !! j).
Proof. destruct (decide (i = j)) as [->|]; [rewrite lookup_alter; by rewrite fmap_is_Some|by rewrite lookup_alter_ne]. Qed.
Lemma hok_pos win s x k : hok win s x -> hok win s (s_pos k x).
Proof. intros [A B C D F]. constructor; sm; auto. Qed.
Lemma inv_files win s v : inv win s -> (forall i, is_Some (v !! i) <-> is_Some (files s !! i)) -> inv win (s_files v s).
Proof.
  intros [A B C D] H. constructor; sm.
  - intros h x Hx. eapply hok_mono; [|by eapply A]. sm. intros i. by rewrite H.
  - intros p i Hp. rewrite H. by eapply B.
  - intros i. rewrite H. apply C.
  - done.
Qed.
Lemma inv_hs win s v : inv win s -> (forall h x, v !! h = Some x -> hok win s x) -> inv win (s_hs v s).
Proof. intros [A B C D] H. constructor; sm; try done. intros h x Hx. eapply hok_mono; [|by eapply H]. done. Qed.
Lemma inv_lps win s v : inv win s -> (forall t l, v !! t = Some l -> (length (l_buf l) + l_left l = l_cap l /\ 0 < l_left l)%nat) -> inv win (s_lps v s).
Proof. intros [A B C D] H. constructor; sm; try done. intros h x Hx. eapply hok_mono; [|by eapply A]. done. Qed.
Lemma inv_names win s v : inv win s -> (forall p i, v !! p = Some i -> names s !! p = Some i) -> inv win (s_names v s).
Proof. intros [A B C D] H. constructor; sm; try done. - intros h x Hx. eapply hok_mono; [|by eapply A]. done. - intros p i Hp. apply H in Hp. by eapply B. Qed.
Lemma inv_other win s s' : inv win s -> names s' = names s -> files s' = files s -> nx s' = nx s -> hs s' = hs s -> lps s' = lps s -> inv win s'.
Proof. intros [A B C D] E1 E2 E3 E4 E5. constructor; rewrite ?E1, ?E2, ?E3, ?E4, ?E5; try done. intros h x Hx. eapply hok_mono; [|by eapply A]. by rewrite E2. Qed.
Lemma inv_create win s p : inv win s -> inv win (create p s).
Proof.
  intros [A B C D]. constructor; unfold create; sm.
  - intros h x Hx. eapply hok_mono; [|by eapply A]. sm. intros i Hi. destruct (decide (i = nx s)) as [->|]; [by rewrite lookup_insert|by rewrite lookup_insert_ne].
  - intros q i Hq. destruct (decide (p = q)) as [->|Hpq]; [rewrite lookup_insert in Hq; injection Hq as <-; by rewrite lookup_insert|]. rewrite lookup_insert_ne in Hq by done. apply B in Hq.
    destruct (decide (i = nx s)) as [->|]; [by rewrite lookup_insert|by rewrite lookup_insert_ne].
  - intros i Hi. destruct (decide (i = nx s)) as [->|]; [lia|]. rewrite lookup_insert_ne in Hi by done. apply C in Hi. lia.
  - done.
Qed.
Lemma inv_hput win s h x : inv win s -> hok win s x -> inv win (s_hs (<[h := x]> (hs s)) s).
Proof. intros HI Hx. apply inv_hs; [done|]. intros k y. destruct (decide (h = k)) as [->|]; [rewrite lookup_insert; by intros [= <-]|]. rewrite lookup_insert_ne by done. apply (i_h _ _ HI). Qed.
Lemma inv_opened win s h p m x : inv win s -> rd x = can_read m -> wr x = can_write m -> app_ x = appends m -> hm x = m -> hi x = file_at p s ->
  (win = false -> excl x = false /\ del x = false /\ inh x = false) -> inv win (opened s h p m x).
Proof.
  intros HI E1 E2 E3 E4 E5 E6. unfold opened.
  assert (H1: inv win (match names s !! p with Some i => open_old (truncates m) i s | None => create p s end)).
  { destruct (names s !! p); [|by apply inv_create]. unfold open_old. destruct (truncates m); [|done]. apply inv_files; [done|]. intros i. by rewrite alter_some. }
  apply inv_hput; [done|]. constructor; rewrite ?E4; try done. rewrite E5. unfold file_at. destruct (names s !! p) as [i|] eqn:Hn.
  - unfold open_old. destruct (truncates m); sm; rewrite ?alter_some; by eapply (i_n _ _ HI).
  - unfold create. sm. by rewrite lookup_insert.
Qed.
Lemma sys_read_spec s x n r bs : sys_read s x n r = Some (Some bs) -> rd x = true /\ bs = take (length bs) (drop (pos x) (data s (hi x))) /\ (length bs <= n)%nat /\ r = Some (length bs) /\
  ((0 < n)%nat -> (pos x < length (data s (hi x)))%nat -> (0 < length bs)%nat).
Proof.
  unfold sys_read. destruct r as [k|]; [|done]. destruct (rd x); [|done]. cbn [negb]. case_bool_decide as B; [|done]. intros [= <-]. destruct B as (B1 & B2 & B3). rewrite take_length, Nat.min_l by done. split_and!; try done.
  intros Hn Hp. apply B3; [done|]. rewrite drop_length. lia.
Qed.
Lemma inv_step win s e s' o : inv win s -> step win s e = Ok s' o -> inv win s'.
Proof.
  intros HI E. destruct e as [h p m temp ok|h n r|h bs r|t h n|t r|h z w|h|h t|h|h|h b|p| |d].
  - destruct ok; [|cbn [step] in E; destruct (hs s !! h); [done|]; by injection E as <- _].
    apply open_spec in E as (_ & [(_ & -> & _)|(_ & _ & _ & x & -> & A1 & A2 & A3 & A4 & A5 & A6 & A7 & A8 & A9 & A10)]); [done|]. apply inv_opened; try done. intros ->. done.
  - cbn [step] in E. destruct (hs s !! h) as [x|] eqn:Hx; [|done]. destruct (sys_read s x n r) as [[bs|]|]; [|by injection E as <- _|done]. injection E as <- _. apply inv_hput; [done|]. by eapply hok_pos, (i_h _ _ HI).
  - cbn [step] in E. destruct (hs s !! h) as [x|] eqn:Hx; [|done]. destruct r as [k|]; [|by injection E as <- _]. destruct (_ || _); [done|]. injection E as <- _.
    eapply (inv_other _ (s_hs (<[h:=s_pos ((if app_ x then length (data s (hi x)) else pos x) + k) x]> (hs s)) (if bool_decide (k = 0%nat) then s else _))); [|sm; by destruct (bool_decide (k = 0%nat))..].
    assert (G: inv win (if bool_decide (k = 0%nat) then s else s_files (alter (fun f => mkfile (splice (if app_ x then length (data s (hi x)) else pos x) (take k bs) (dat f)) (clk s) (btime f)) (hi x) (files s)) s)).
    { destruct (bool_decide _); [done|]. apply inv_files; [done|]. intros i. by rewrite alter_some. }
    replace (hs s) with (hs (if bool_decide (k = 0%nat) then s else s_files (alter (fun f => mkfile (splice (if app_ x then length (data s (hi x)) else pos x) (take k bs) (dat f)) (clk s) (btime f)) (hi x) (files s)) s)) by (by destruct (bool_decide _)).
    apply inv_hput; [done|]. apply hok_pos. apply (i_h _ _ G h). by destruct (bool_decide _).
  - cbn [step] in E. destruct (lps s !! t) eqn:Ht; [done|]. destruct (hs s !! h) as [x|] eqn:Hx; [|done]. case_bool_decide; injection E as <- _; [|done]. apply inv_lps; [done|]. intros u l. destruct (decide (t = u)) as [->|]; [rewrite lookup_insert; intros [= <-]; sm; cbn; lia|]. rewrite lookup_insert_ne by done. apply (i_l _ _ HI).
  - cbn [step] in E. destruct (lps s !! t) as [l|] eqn:Ht; [|done]. destruct (hs s !! l_h l) as [x|] eqn:Hx; [|done]. destruct (i_l _ _ HI _ _ Ht) as [L1 L2].
    assert (Dl: forall s1, inv win s1 -> lps s1 = lps s -> inv win (s_lps (delete t (lps s)) s1)). { intros s1 H1 E1. apply inv_lps; [done|]. intros u l'. rewrite lookup_delete_Some. intros [_ Hl]. by apply (i_l _ _ HI u). }
    destruct (sys_read s x (l_left l) r) as [[bs|]|] eqn:R; [|injection E as <- _; by apply Dl|done]. apply sys_read_spec in R as (_ & _ & R1 & _). cbv zeta in E. case_bool_decide as B1; [done|].
    assert (G: inv win (s_hs (<[l_h l := s_pos (pos x + length bs) x]> (hs s)) s)). { apply inv_hput; [done|]. by eapply hok_pos, (i_h _ _ HI). }
    case_bool_decide as B2; [injection E as <- _; by apply Dl|]. case_bool_decide as B3; injection E as <- _; [by apply Dl|]. apply inv_lps; [done|]. intros u l'.
    destruct (decide (t = u)) as [->|]; [rewrite lookup_insert; intros [= <-]; sm; rewrite app_length in *; lia|]. rewrite lookup_insert_ne by done. apply (i_l _ _ HI).
  - cbn [step] in E. destruct (hs s !! h) as [x|] eqn:Hx; [|done]. cbv zeta in E. case_bool_decide; injection E as <- _; [|done]. apply inv_hput; [done|]. by eapply hok_pos, (i_h _ _ HI).
  - cbn [step] in E. destruct (hs s !! h); [|done]. by injection E as <- _.
  - cbn [step] in E. destruct (hs s !! h); [|done]. destruct (_ && _); injection E as <- _; [done|]. apply inv_files; [done|]. intros i. by rewrite alter_some.
  - cbn [step] in E. destruct (hs s !! h) as [x|]; [|done]. destruct (files s !! hi x); [|done]. by injection E as <- _.
  - cbn [step] in E. destruct (hs s !! h) as [x|] eqn:Hx; [|done]. injection E as <- _.
    assert (G: inv win (s_hs (delete h (hs s)) s)). { apply inv_hs; [done|]. intros k y. rewrite lookup_delete_Some. intros [_ Hy]. by eapply (i_h _ _ HI). }
    destruct (_ && _); [|done]. apply inv_names; [done|]. intros p i. sm. rewrite lookup_delete_Some. by intros [_ ?].
  - cbn [step] in E. destruct (hs s !! h) as [x|] eqn:Hx; [|done]. destruct win; injection E as <- _; [|done]. apply inv_hput; [done|]. destruct (i_h _ _ HI h x Hx). by constructor.
  - cbn [step] in E. destruct (names s !! p) as [i|]; [|done]. destruct (_ && _); injection E as <- _; [done|]. apply inv_names; [done|]. intros q j. rewrite lookup_delete_Some. by intros [_ ?].
  - cbn [step] in E. by injection E as <- _.
  - cbn [step] in E. injection E as <- _. by eapply inv_other.
Qed.
Lemma reach_inv' win t0 tr s : reach win t0 tr s -> inv win s.
Proof. intros H. remember (init t0) as s0 eqn:E0. induction H as [|tr s e s' o H IH E]; [subst; apply inv_init|]. eapply inv_step; eauto. Qed.

(** * Theorems *)
(** no call writes outside its buffer *)
Theorem C69_safe win t0 tr s e : reach win t0 tr s -> step win s e <> Crash.
Proof.
  intros H E. apply reach_inv' in H as HI. destruct e as [h p m temp ok|h n r|h bs r|t h n|t r|h z w|h|h t|h|h|h b|p| |d]; cbn [step] in E; try done.
  - destruct (hs s !! h); [done|]. by destruct (if ok then _ else _).
  - destruct (hs s !! h) as [x|]; [|done]. by destruct (sys_read s x n r) as [[]|].
  - destruct (hs s !! h) as [x|]; [|done]. destruct r; [|done]. by destruct (_ || _).
  - destruct (lps s !! t); [done|]. destruct (hs s !! h); [|done]. by destruct (bool_decide _).
  - destruct (lps s !! t) as [l|] eqn:Ht; [|done]. destruct (hs s !! l_h l) as [x|] eqn:Hx; [|done]. destruct (i_l _ _ HI _ _ Ht) as [L1 L2].
    destruct (sys_read s x (l_left l) r) as [[bs|]|] eqn:R; [|done..]. apply sys_read_spec in R as (_ & _ & R1 & _). cbv zeta in E. rewrite bool_decide_false in E by (rewrite app_length; lia).
    destruct (bool_decide (length bs = 0%nat)); [done|]. by destruct (bool_decide _).
  - destruct (hs s !! h) as [x|]; [|done]. cbv zeta in E. by destruct (bool_decide _).
  - by destruct (hs s !! h).
  - destruct (hs s !! h) as [x|]; [|done]. by destruct (_ && _).
  - destruct (hs s !! h) as [x|] eqn:Hx; [|done]. destruct (k_file _ _ _ (i_h _ _ HI h x Hx)) as [f Hf]. by rewrite Hf in E.
  - by destruct (hs s !! h).
  - destruct (hs s !! h); [|done]. by destruct win.
  - destruct (names s !! p); [|done]. by destruct (_ && _).
Qed.

Lemma data_alter s (g : file -> file) i j : (forall f, files s !! i = Some f -> i = j -> dat (g f) = dat f) -> data (s_files (alter g i (files s)) s) j = data s j.
Proof.
  intros H. unfold data. sm. destruct (decide (i = j)) as [->|]; [|by rewrite lookup_alter_ne]. rewrite lookup_alter. destruct (files s !! j) as [f|] eqn:Hf; [|done]. cbn. by apply H.
Qed.
Lemma opened_files s h p m x : files (opened s h p m x) = match names s !! p with Some i => if truncates m then alter (fun f => mkfile [] (clk s) (btime f)) i (files s) else files s | None => <[nx s := mkfile [] (clk s) (clk s)]> (files s) end.
Proof. unfold opened, open_old, create. destruct (names s !! p); [|done]. by destruct (truncates m). Qed.
Lemma opened_names s h p m x : names (opened s h p m x) = match names s !! p with Some i => names s | None => <[p := nx s]> (names s) end.
Proof. unfold opened, open_old, create. destruct (names s !! p); [|done]. by destruct (truncates m). Qed.
Lemma opened_hs s h p m x : hs (opened s h p m x) = <[h := x]> (hs s).
Proof. unfold opened, open_old, create. destruct (names s !! p); [|done]. by destruct (truncates m). Qed.
(** kfopen, unless the system fails or (on Windows) a temporary file is in the way: it succeeds iff the file exists or the mode
    creates it; the file keeps its content unless the mode truncates it; a created file is new and empty; nothing else changes;
    the handle starts at position 0 with this mode *)
Theorem C69_open win t0 tr s h p m temp s' o : reach win t0 tr s -> step win s (EOpen h p m temp true) = Ok s' o ->
  (win = true -> temp = false /\ forall k y, hs s !! k = Some y -> excl y = false) ->
  (names s !! p = None /\ creates m = false /\ o = RFail /\ s' = s) \/
  ((is_Some (names s !! p) \/ creates m = true) /\ o = ROpened /\ exists i x, names s' !! p = Some i /\ hs s' = <[h := x]> (hs s) /\ hi x = i /\ pos x = 0%nat /\ hm x = m /\
    (forall j, names s !! p = Some j -> i = j /\ data s' i = if truncates m then [] else data s i) /\
    (names s !! p = None -> data s' i = [] /\ (forall q, names s !! q <> Some i) /\ forall k y, hs s !! k = Some y -> hi y <> i) /\
    (forall q, q <> p -> names s' !! q = names s !! q) /\ forall j, j <> i -> files s' !! j = files s !! j).
Proof.
  intros H E W. apply reach_inv' in H as HI. apply open_spec in E as (Hh & [(-> & -> & [[A B]|(Hw & i & y & A & B & C)])|(-> & A & _ & x & -> & A1 & A2 & A3 & A4 & A5 & A6 & A7 & A8 & A9 & A10)]).
  - by left.
  - destruct (W Hw) as [-> W2]. destruct C as [C|C]; [|done]. unfold on_file in B. apply elem_of_list_filter in B as [_ B]. apply elem_of_list_fmap in B as ([k y'] & -> & B). apply elem_of_map_to_list in B. apply W2 in B. cbn in C. congruence.
  - right. split; [done|]. split; [done|]. exists (file_at p s), x. rewrite opened_names, opened_hs. unfold file_at in *. unfold data. rewrite opened_files. destruct (names s !! p) as [i|] eqn:Hn; split_and!; try done.
    + intros j [= <-]. split; [done|]. destruct (truncates m); [|done]. rewrite lookup_alter. by destruct (files s !! i).
    + intros j Hj. destruct (truncates m); [|done]. by rewrite lookup_alter_ne.
    + by rewrite lookup_insert.
    + rewrite lookup_insert. split; [done|]. split; [intros q Hq; apply (i_n _ _ HI), (i_f _ _ HI) in Hq; lia|]. intros k y Hy Hi. pose proof (k_file _ _ _ (i_h _ _ HI k y Hy)) as F. apply (i_f _ _ HI) in F. lia.
    + intros q Hq. by rewrite lookup_insert_ne.
    + intros j Hj. by rewrite lookup_insert_ne.
Qed.
(** reading and writing with a mode that does not allow it fails and changes nothing *)
Theorem C69_rights win t0 tr s h x : reach win t0 tr s -> hs s !! h = Some x ->
  (can_read (hm x) = false -> forall n r s' o, step win s (ERead h n r) = Ok s' o -> o = RFail /\ s' = s) /\
  (can_write (hm x) = false -> forall bs r s' o, step win s (EWrite h bs r) = Ok s' o -> o = RFail /\ s' = s) /\
  (can_read (hm x) = true -> forall n, exists k s' bs, step win s (ERead h n (Some k)) = Ok s' (RBytes bs)) /\
  (can_write (hm x) = true -> forall bs, exists s', step win s (EWrite h bs (Some (length bs))) = Ok s' (RNum (Z.of_nat (length bs)))).
Proof.
  intros H Hx. apply reach_inv' in H as HI. destruct (i_h _ _ HI h x Hx) as [_ K1 K2 _ _]. cbn [step]. rewrite Hx. split_and!.
  - intros C n r s' o. unfold sys_read. destruct r; [|by intros [= <- <-]]. rewrite K1, C. done.
  - intros C bs r s' o. destruct r; [|by intros [= <- <-]]. rewrite K2, C. done.
  - intros C n. exists (Nat.min n (length (drop (pos x) (data s (hi x))))). unfold sys_read. rewrite K1, C. cbn [negb]. rewrite bool_decide_true by lia. by eauto.
  - intros C bs. rewrite K2, C. cbn [negb orb]. rewrite bool_decide_true by done. by eauto.
Qed.
(** kfread gives the bytes at the handle's position and moves it behind them; nothing means end of file (or nothing asked for) *)
Theorem C69_read win t0 tr s h x n r s' bs : reach win t0 tr s -> hs s !! h = Some x -> step win s (ERead h n r) = Ok s' (RBytes bs) ->
  (length bs <= n)%nat /\ (forall i v, bs !! i = Some v -> data s (hi x) !! (pos x + i)%nat = Some v) /\ ((0 < n)%nat -> bs = [] -> (length (data s (hi x)) <= pos x)%nat) /\
  hs s' = <[h := s_pos (pos x + length bs) x]> (hs s) /\ files s' = files s /\ names s' = names s.
Proof.
  intros H Hx E. cbn [step] in E. rewrite Hx in E. destruct (sys_read s x n r) as [[bs'|]|] eqn:R; try done. injection E as <- <-. apply sys_read_spec in R as (R1 & R2 & R3 & _ & R4). split_and!; try done.
  - intros i v Hv. rewrite R2 in Hv. assert (i < length bs')%nat by (apply lookup_lt_Some in Hv; rewrite take_length in Hv; lia). rewrite lookup_take in Hv by done. by rewrite lookup_drop in Hv.
  - intros Hn ->. destruct (decide (length (data s (hi x)) <= pos x)%nat); [done|]. cbn in R4. lia.
Qed.
Lemma splice_lookup n bs l j : splice n bs l !! j = if decide (n <= j < n + length bs)%nat then bs !! (j - n)%nat else if decide (j < length l)%nat then l !! j else if decide (j < n)%nat then Some 0 else None.
Proof.
  unfold splice. destruct (decide (j < length (take n l)))%nat as [H|H].
  - rewrite lookup_app_l by done. rewrite take_length in H. rewrite lookup_take by lia. rewrite decide_False by lia. by rewrite decide_True by lia.
  - rewrite lookup_app_r by lia. rewrite take_length in *. destruct (decide (j < n)%nat) as [H1|H1].
    + rewrite lookup_app_l by (rewrite replicate_length; lia). rewrite lookup_replicate_2 by lia. rewrite decide_False by lia. by rewrite decide_False by lia.
    + rewrite lookup_app_r by (rewrite replicate_length; lia). rewrite replicate_length. replace (j - n `min` length l - (n - length l))%nat with (j - n)%nat by lia. destruct (decide (j < n + length bs)%nat) as [H2|H2].
      * rewrite lookup_app_l by lia. by rewrite decide_True by lia.
      * rewrite lookup_app_r by lia. rewrite lookup_drop. rewrite (decide_False (P := (n <= j < n + length bs)%nat)) by lia. replace (n + length bs + (j - n - length bs))%nat with j by lia. destruct (decide (j < length l)%nat); [done|]. apply lookup_ge_None. lia.
Qed.
Lemma splice_end bs l : splice (length l) bs l = l ++ bs.
Proof. unfold splice. rewrite take_ge by done. rewrite Nat.sub_diag. cbn [replicate app]. by rewrite drop_ge, app_nil_r by lia. Qed.
Lemma write_spec win s h x bs k s' o : inv win s -> hs s !! h = Some x -> step win s (EWrite h bs (Some k)) = Ok s' o ->
  let at_ := if appends (hm x) then length (data s (hi x)) else pos x in
  can_write (hm x) = true /\ (k <= length bs)%nat /\ o = RNum (Z.of_nat k) /\ names s' = names s /\ hs s' = <[h := s_pos (at_ + k) x]> (hs s) /\ lps s' = lps s /\ nx s' = nx s /\ wlog s' = wlog s ++ [(hi x, take k bs)] /\
  (forall j, j <> hi x -> files s' !! j = files s !! j) /\ (k = 0%nat -> files s' = files s) /\
  ((0 < k)%nat -> exists f, files s !! hi x = Some f /\ files s' !! hi x = Some (mkfile (splice at_ (take k bs) (dat f)) (clk s) (btime f))).
Proof.
  intros HI Hx E. destruct (i_h _ _ HI h x Hx) as [[f Hf] K1 K2 K3 _]. cbn [step] in E. rewrite Hx in E. destruct (negb (wr x) || _) eqn:B; [done|]. apply orb_false_elim in B as [B1 B2]. apply negb_false_iff in B1, B2. apply bool_decide_eq_true in B2. cbv zeta in E. rewrite K3 in E. injection E as <- <-. cbv zeta. rewrite <- K2. sm.
  destruct (decide (k = 0%nat)) as [->|Hk]; [rewrite bool_decide_true by done|rewrite bool_decide_false by done]; sm; split_and!; try done; try lia.
  - intros j Hj. by rewrite lookup_alter_ne.
  - intros _. exists f. split; [done|]. by rewrite lookup_alter, Hf.
Qed.
Lemma data_some s i f : files s !! i = Some f -> data s i = dat f. Proof. unfold data. by intros ->. Qed.
(** kfwrite puts the bytes it reports at the handle's position (for fileAppend: at the end), leaves every other byte and file alone,
    fills a gap with zeros, and moves the position behind what it wrote *)
Theorem C69_write win t0 tr s h x bs r s' k : reach win t0 tr s -> hs s !! h = Some x -> step win s (EWrite h bs r) = Ok s' (RNum k) ->
  let at_ := if appends (hm x) then length (data s (hi x)) else pos x in
  let n := Z.to_nat k in
  0 <= k <= Z.of_nat (length bs) /\ hs s' = <[h := s_pos (at_ + n) x]> (hs s) /\ names s' = names s /\ (forall j, j <> hi x -> files s' !! j = files s !! j) /\
  (n = 0%nat -> files s' = files s) /\
  ((0 < n)%nat -> forall j, data s' (hi x) !! j = if decide (at_ <= j < at_ + n)%nat then bs !! (j - at_)%nat else if decide (j < length (data s (hi x)))%nat then data s (hi x) !! j else if decide (j < at_)%nat then Some 0 else None).
Proof.
  intros H Hx E. apply reach_inv' in H as HI. destruct r as [k'|]; [|cbn [step] in E; rewrite Hx in E; by injection E].
  apply (write_spec win s h x) in E as (W1 & W2 & W3 & W4 & W5 & W6 & W7 & W8 & W9 & W10 & W11); [|done..]. injection W3 as ->. cbv zeta in *. rewrite Nat2Z.id. split_and!; try done; try lia.
  intros Hk j. destruct (W11 Hk) as (f & F1 & F2). rewrite (data_some _ _ _ F1) in *. rewrite (data_some _ _ _ F2). cbn [dat]. rewrite splice_lookup. rewrite take_length, Nat.min_l by done.
  destruct (decide _); [|done]. rewrite lookup_take by lia. done.
Qed.
(** the content of a file changes only by writing to a handle that was opened on it for writing, or by opening it with a truncating mode *)
Theorem C69_who_changes win t0 tr s e s' o i : reach win t0 tr s -> step win s e = Ok s' o -> is_Some (files s !! i) -> data s' i <> data s i ->
  (exists h x bs k, e = EWrite h bs (Some k) /\ hs s !! h = Some x /\ hi x = i /\ can_write (hm x) = true /\ (0 < k)%nat) \/
  (exists h p m temp, e = EOpen h p m temp true /\ names s !! p = Some i /\ truncates m = true).
Proof.
  intros H E Hi D. apply reach_inv' in H as HI. destruct e as [h p m temp ok|h n r|h bs r|t h n|t r|h z w|h|h t|h|h|h b|p| |d]; cbn [step] in E.
  - destruct ok; [|destruct (hs s !! h); [done|]; by injection E as <- _]. apply (open_spec win s h p m temp) in E as (_ & [(_ & -> & _)|(_ & _ & _ & x & -> & _)]); [done|].
    unfold data in D. rewrite opened_files in D. destruct (names s !! p) as [j|] eqn:Hn.
    + destruct (truncates m) eqn:T; [|done]. destruct (decide (j = i)) as [->|]; [|by rewrite lookup_alter_ne in D]. right. by exists h, p, m, temp.
    + rewrite lookup_insert_ne in D; [done|]. apply (i_f _ _ HI) in Hi. lia.
  - destruct (hs s !! h) as [x|]; [|done]. destruct (sys_read s x n r) as [[bs|]|]; by try injection E as <- _.
  - destruct (hs s !! h) as [x|] eqn:Hx; [|done]. destruct r as [k|]; [|by injection E as <- _]. assert (E': step win s (EWrite h bs (Some k)) = Ok s' o) by (cbn [step]; by rewrite Hx). apply (write_spec win s h x) in E' as (W1 & W2 & W3 & W4 & W5 & W6 & W7 & W8 & W9 & W10 & W11); [|done..].
    left. exists h, x, bs, k. split_and!; try done.
    + destruct (decide (hi x = i)) as [|Hn]; [done|]. destruct D. unfold data. by rewrite W9.
    + destruct k; [|lia]. destruct D. unfold data. by rewrite W10.
  - destruct (lps s !! t); [done|]. destruct (hs s !! h); [|done]. destruct (bool_decide _); by injection E as <- _.
  - destruct (lps s !! t) as [l|]; [|done]. destruct (hs s !! l_h l) as [x|]; [|done]. destruct (sys_read s x _ r) as [[bs|]|]; [|by injection E as <- _|done]. cbv zeta in E. destruct (bool_decide _); [done|]. destruct (bool_decide _); [by injection E as <- _|]. destruct (bool_decide _); by injection E as <- _.
  - destruct (hs s !! h) as [x|]; [|done]. cbv zeta in E. destruct (bool_decide _); by injection E as <- _.
  - destruct (hs s !! h) as [x|]; [|done]. by injection E as <- _.
  - destruct (hs s !! h) as [x|]; [|done]. destruct (_ && _); injection E as <- _; [done|]. destruct D. by apply data_alter.
  - destruct (hs s !! h) as [x|]; [|done]. destruct (files s !! hi x); [|done]. by injection E as <- _.
  - destruct (hs s !! h) as [x|]; [|done]. destruct (_ && _); by injection E as <- _.
  - destruct (hs s !! h) as [x|]; [|done]. destruct win; by injection E as <- _.
  - destruct (names s !! p) as [j|]; [|done]. destruct (_ && _); by injection E as <- _.
  - by injection E as <- _.
  - by injection E as <- _.
Qed.
(** the modes that leave existing bytes alone *)
Definition tame (m : mode) : Prop := m = MRead \/ m = MAppend.
(** what was written to file i, in order *)
Definition written (i : nat) (w : list (nat * list Z)) : list Z := concat (snd <$> filter (fun y => y.1 = i) w).
Lemma written_app i a b : written i (a ++ b) = written i a ++ written i b.
Proof. unfold written. by rewrite filter_app, fmap_app, concat_app. Qed.
Lemma written_one i j bs : written i [(j, bs)] = if decide (j = i) then bs else [].
Proof. unfold written. destruct (decide (j = i)); [rewrite filter_cons_True by done|rewrite filter_cons_False by done]; cbn; by rewrite ?app_nil_r. Qed.
(** one step with only tame handles on file i *)
Lemma tame_step win s e s' o i : inv win s -> step win s e = Ok s' o -> is_Some (files s !! i) -> (forall h x, hs s !! h = Some x -> hi x = i -> tame (hm x)) ->
  (forall h p m temp ok, e = EOpen h p m temp ok -> names s !! p = Some i -> tame m) ->
  is_Some (files s' !! i) /\ (forall h x, hs s' !! h = Some x -> hi x = i -> tame (hm x)) /\ (forall p, names s' !! p = Some i -> names s !! p = Some i) /\
  exists w, wlog s' = wlog s ++ w /\ data s' i = data s i ++ written i w.
Proof.
  intros HI E Hi Ht He.
  assert (Same: files s' = files s -> names s' = names s -> wlog s' = wlog s -> (forall h x, hs s' !! h = Some x -> exists y, hs s !! h = Some y /\ hi y = hi x /\ hm y = hm x) -> is_Some (files s' !! i) /\ (forall h x, hs s' !! h = Some x -> hi x = i -> tame (hm x)) /\ (forall p, names s' !! p = Some i -> names s !! p = Some i) /\
    exists w, wlog s' = wlog s ++ w /\ data s' i = data s i ++ written i w).
  { intros E1 E2 E3 E4. rewrite E1, E2, E3. split_and!; try done; [|exists []; unfold data; rewrite E1; cbn; by rewrite !app_nil_r]. intros h x Hx Hxi. destruct (E4 h x Hx) as (y & Hy & Ey & <-). eapply Ht; [done|congruence]. }
  assert (Put: forall h x k (m : gmap nat handle), hs s !! h = Some x -> m = <[h := s_pos k x]> (hs s) -> forall h2 x2, m !! h2 = Some x2 -> exists y, hs s !! h2 = Some y /\ hi y = hi x2 /\ hm y = hm x2).
  { intros h x k m Hx -> h2 x2 H2. destruct (decide (h = h2)) as [->|]; [rewrite lookup_insert in H2; injection H2 as <-; eauto|rewrite lookup_insert_ne in H2 by done; eauto]. }
  assert (Id: forall h x, hs s !! h = Some x -> exists y, hs s !! h = Some y /\ hi y = hi x /\ hm y = hm x) by eauto.
  destruct e as [h p m temp ok|h n r|h bs r|t h n|t r|h z w|h|h t|h|h|h b|p| |d]; cbn [step] in E.
  - destruct ok; [|destruct (hs s !! h); [done|]; injection E as <- _; by apply Same]. apply (open_spec win s h p m temp) in E as (_ & [(_ & -> & _)|(_ & _ & _ & x & -> & _ & X1 & _ & _ & _ & _ & _ & X2 & _)]); [by apply Same|].
    rewrite opened_files, opened_hs, opened_names. unfold data. rewrite opened_files. unfold file_at in X1. pose proof (i_f _ _ HI i Hi) as Li. destruct (names s !! p) as [j|] eqn:Hn.
    + assert (L: wlog (opened s h p m x) = wlog s). { unfold opened, open_old. rewrite Hn. by destruct (truncates m). } split_and!.
      * destruct (truncates m); [by rewrite alter_some|done].
      * intros k y. destruct (decide (h = k)) as [->|]; [rewrite lookup_insert; intros [= <-] Hy; rewrite X2; eapply He; [done|]; congruence|]. rewrite lookup_insert_ne by done. apply Ht.
      * done.
      * exists []. rewrite L. cbn. rewrite !app_nil_r. split; [done|]. destruct (decide (j = i)) as [->|]; [|destruct (truncates m); [by rewrite lookup_alter_ne|done]]. assert (T: tame m) by (by eapply He). destruct T as [-> | ->]; done.
    + assert (L: wlog (opened s h p m x) = wlog s). { unfold opened, create. by rewrite Hn. } split_and!.
      * rewrite lookup_insert_ne by lia. done.
      * intros k y. destruct (decide (h = k)) as [->|]; [rewrite lookup_insert; intros [= <-] Hy; lia|]. rewrite lookup_insert_ne by done. apply Ht.
      * intros q. destruct (decide (p = q)) as [->|]; [rewrite lookup_insert; intros [= <-]; lia|]. by rewrite lookup_insert_ne.
      * exists []. rewrite L. cbn. rewrite !app_nil_r. split; [done|]. by rewrite lookup_insert_ne by lia.
  - destruct (hs s !! h) as [x|] eqn:Hx; [|done]. destruct (sys_read s x n r) as [[bs|]|]; [|injection E as <- _; by apply Same|done]. injection E as <- _. apply Same; try done. by eapply Put.
  - destruct (hs s !! h) as [x|] eqn:Hx; [|done]. destruct r as [k|]; [|injection E as <- _; by apply Same]. assert (E': step win s (EWrite h bs (Some k)) = Ok s' o) by (cbn [step]; by rewrite Hx). apply (write_spec win s h x) in E' as (W1 & W2 & W3 & W4 & W5 & W6 & W7 & W8 & W9 & W10 & W11); [|done..]. clear E. cbv zeta in *.
    rewrite W4, W8. assert (Hd: data s' i = data s i ++ written i [(hi x, take k bs)]).
    { rewrite written_one. destruct (decide (hi x = i)) as [Hxi|Hxi]; [|rewrite app_nil_r; unfold data; by rewrite W9 by done]. destruct k as [|k]; [unfold data; rewrite W10 by done; by rewrite app_nil_r|]. destruct W11 as (f & F1 & F2); [lia|]. rewrite Hxi in F1, F2.
      assert (T: tame (hm x)) by (by eapply Ht). destruct T as [T|T]; rewrite T in *; [done|]. cbn [appends] in F2. rewrite (data_some _ _ _ F2). cbn [dat]. rewrite (data_some _ _ _ F1). by rewrite splice_end. }
    split_and!; try done; [| |by eauto].
    + destruct (decide (hi x = i)) as [<-|]; [|by rewrite W9]. destruct k; [by rewrite W10|]. destruct W11 as (f & F1 & F2); [lia|]. by rewrite F2.
    + rewrite W5. intros k2 y Hy Hyi. destruct (Put h x _ _ Hx eq_refl k2 y Hy) as (y2 & Hy2 & Ey2 & <-). eapply Ht; [done|congruence].
  - destruct (lps s !! t); [done|]. destruct (hs s !! h); [|done]. destruct (bool_decide _); injection E as <- _; by apply Same.
  - destruct (lps s !! t) as [l|]; [|done]. destruct (hs s !! l_h l) as [x|] eqn:Hx; [|done]. destruct (sys_read s x _ r) as [[bs|]|]; [|injection E as <- _; by apply Same|done]. cbv zeta in E. destruct (bool_decide _); [done|].
    destruct (bool_decide _); [injection E as <- _; apply Same; try done; by eapply Put|]. destruct (bool_decide _); injection E as <- _; apply Same; try done; by eapply Put.
  - destruct (hs s !! h) as [x|] eqn:Hx; [|done]. cbv zeta in E. destruct (bool_decide _); injection E as <- _; apply Same; try done; by eapply Put.
  - destruct (hs s !! h) as [x|]; [|done]. injection E as <- _. by apply Same.
  - destruct (hs s !! h) as [x|]; [|done]. destruct (_ && _); injection E as <- _; [by apply Same|]. sm. rewrite alter_some. split_and!; try done. exists []. cbn. rewrite !app_nil_r. split; [done|]. by apply data_alter.
  - destruct (hs s !! h) as [x|]; [|done]. destruct (files s !! hi x); [|done]. injection E as <- _. by apply Same.
  - destruct (hs s !! h) as [x|]; [|done]. injection E as <- _. destruct (_ && _); sm; (split_and!; [done|intros k y; rewrite lookup_delete_Some; intros [_ Hy]; by eapply Ht|try done|exists []; cbn; by rewrite !app_nil_r]). intros q. rewrite lookup_delete_Some. by intros [_ ?].
  - destruct (hs s !! h) as [x|] eqn:Hx; [|done]. destruct win; injection E as <- _; [|by apply Same]. apply Same; try done. sm. intros h2 x2 H2. destruct (decide (h = h2)) as [->|]; [rewrite lookup_insert in H2; injection H2 as <-; eauto|rewrite lookup_insert_ne in H2 by done; eauto].
  - destruct (names s !! p) as [j|]; [|done]. destruct (_ && _); injection E as <- _; [by apply Same|]. sm. split_and!; try done; [|exists []; cbn; by rewrite !app_nil_r]. intros q. rewrite lookup_delete_Some. by intros [_ ?].
  - injection E as <- _. by apply Same.
  - injection E as <- _. by apply Same.
Qed.
(** fileAppend never overwrites: as long as a file is opened with fileRead and fileAppend only, by any number of handles and
    threads, its content is what it was, then the bytes of every kfwrite in the order of the calls, each in one piece *)
Theorem C69_append win t0 tr0 s i es s' : reach win t0 tr0 s -> is_Some (files s !! i) -> (forall h x, hs s !! h = Some x -> hi x = i -> tame (hm x)) ->
  (forall h p m temp ok, EOpen h p m temp ok ∈ es -> names s !! p = Some i -> tame m) -> reachf win s es s' -> exists w, wlog s' = wlog s ++ w /\ data s' i = data s i ++ written i w.
Proof.
  intros H Hi Ht He R. apply reach_inv' in H as HI.
  assert (G: inv win s' /\ is_Some (files s' !! i) /\ (forall h x, hs s' !! h = Some x -> hi x = i -> tame (hm x)) /\ (forall p, names s' !! p = Some i -> names s !! p = Some i) /\ exists w, wlog s' = wlog s ++ w /\ data s' i = data s i ++ written i w); [|naive_solver].
  induction R as [|es s1 e s2 o R IH E]; [split_and!; try done; exists []; cbn; by rewrite !app_nil_r|].
  destruct IH as (I1 & I2 & I3 & I4 & w & I5 & I6); [intros h p m temp ok Hin; apply (He h p m temp ok); apply elem_of_app; by left|].
  destruct (tame_step win s1 e s2 o i) as (J2 & J3 & J4 & w2 & J5 & J6); try done.
  { intros h p m temp ok -> Hp. apply (He h p m temp ok); [apply elem_of_app; right; by left|by apply I4]. }
  split_and!; try done; [by eapply inv_step|by auto|]. exists (w ++ w2). rewrite J5, I5, J6, I6, written_app, !app_assoc. done.
Qed.

(** ** kfread_all *)
(** an event that is no use of handle h other than thread t's kfread_all *)
Definition quiet (t h : nat) (e : ev) : Prop :=
  match e with ERead k _ _ | EWrite k _ _ | ESeek k _ _ | EClose k => k <> h | EAll u k _ => k <> h /\ u <> t | _ => True end.
(** nobody (else) is in kfread_all on handle h *)
Definition alone (s : st) (t h : nat) : Prop := forall u l, u <> t -> lps s !! u = Some l -> l_h l <> h.
Fixpoint steps (t : nat) (es : list ev) : nat := match es with [] => 0 | EStep u _ :: es => (if decide (u = t) then 1 else 0) + steps t es | _ :: es => steps t es end.
Lemma steps_app t a b : steps t (a ++ b) = (steps t a + steps t b)%nat.
Proof. induction a as [|e a IH]; [done|]. cbn [steps app]. destruct e; rewrite ?IH; lia. Qed.
Lemma quiet_step win s e s' o t h y : step win s e = Ok s' o -> quiet t h e -> (forall r, e <> EStep t r) -> alone s t h -> hs s !! h = Some y ->
  alone s' t h /\ lps s' !! t = lps s !! t /\ exists z, hs s' !! h = Some z /\ hi z = hi y /\ pos z = pos y.
Proof.
  intros E Q Hn A Hy. assert (Idn: alone s t h /\ lps s !! t = lps s !! t /\ exists z, hs s !! h = Some z /\ hi z = hi y /\ pos z = pos y) by (split_and!; [done|done|by exists y]). destruct e as [k p m temp ok|k n r|k bs r|u k n|u r|k z w|k|k u|k|k|k b|p| |d]; cbn [step quiet] in E, Q.
  - destruct (decide (k = h)) as [->|Hk]; [by rewrite Hy in E|]. destruct ok; [|destruct (hs s !! k); [done|]; injection E as <- _; exact Idn]. apply (open_spec win s k p m temp) in E as (_ & [(_ & -> & _)|(_ & _ & _ & x & -> & _)]); [exact Idn|].
    rewrite opened_hs. assert (L: lps (opened s k p m x) = lps s). { unfold opened, open_old, create. destruct (names s !! p); [|done]. by destruct (truncates m). } unfold alone. rewrite L. split_and!; try done. exists y. by rewrite lookup_insert_ne.
  - destruct (hs s !! k) as [x|]; [|done]. destruct (sys_read s x n r) as [[bs|]|]; [|injection E as <- _; exact Idn|done]. injection E as <- _. split_and!; try done. exists y. sm. by rewrite lookup_insert_ne.
  - destruct (hs s !! k) as [x|]; [|done]. destruct r as [j|]; [|injection E as <- _; exact Idn]. destruct (_ || _); [done|]. cbv zeta in E. injection E as <- _. unfold alone. sm. destruct (bool_decide _); sm; (split_and!; try done; exists y; by rewrite lookup_insert_ne).
  - destruct Q as [Q1 Q2]. destruct (lps s !! u); [done|]. destruct (hs s !! k) as [x|]; [|done]. destruct (bool_decide _); injection E as <- _; [|exact Idn]. unfold alone. sm. split_and!; [|by rewrite lookup_insert_ne|apply Idn].
    intros v l Hv. destruct (decide (u = v)) as [->|]; [rewrite lookup_insert; by intros [= <-]|]. rewrite lookup_insert_ne by done. by apply A.
  - assert (Hu: u <> t) by (intros ->; by eapply Hn). destruct (lps s !! u) as [l|] eqn:Hl; [|done]. pose proof (A u l Hu Hl) as Al. destruct (hs s !! l_h l) as [x|]; [|done].
    assert (D: forall s1, lps s1 = delete u (lps s) -> alone s1 t h /\ lps s1 !! t = lps s !! t). { intros s1 E1. unfold alone. rewrite E1. split; [|by rewrite lookup_delete_ne]. intros v l' Hv. rewrite lookup_delete_Some. intros [_ Hl']. by eapply A. }
    destruct (sys_read s x _ r) as [[bs|]|]; [|injection E as <- _; split_and!; try (by apply D); apply Idn|done]. cbv zeta in E. destruct (bool_decide _); [done|].
    destruct (bool_decide _); [injection E as <- _; split_and!; try (by apply D); exists y; sm; by rewrite lookup_insert_ne|]. destruct (bool_decide _); injection E as <- _; [split_and!; try (by apply D); exists y; sm; by rewrite lookup_insert_ne|].
    unfold alone. sm. split_and!; [|by rewrite lookup_insert_ne|exists y; by rewrite lookup_insert_ne]. intros v l' Hv. destruct (decide (u = v)) as [->|]; [rewrite lookup_insert; by intros [= <-]|]. rewrite lookup_insert_ne by done. by apply A.
  - destruct (hs s !! k) as [x|]; [|done]. cbv zeta in E. destruct (bool_decide _); injection E as <- _; [|exact Idn]. split_and!; try done. exists y. sm. by rewrite lookup_insert_ne.
  - destruct (hs s !! k) as [x|]; [|done]. injection E as <- _. exact Idn.
  - destruct (hs s !! k) as [x|]; [|done]. destruct (_ && _); injection E as <- _; exact Idn.
  - destruct (hs s !! k) as [x|]; [|done]. destruct (files s !! hi x); [|done]. injection E as <- _; exact Idn.
  - destruct (hs s !! k) as [x|]; [|done]. injection E as <- _. unfold alone. destruct (_ && _); sm; (split_and!; try done; exists y; by rewrite lookup_delete_ne).
  - destruct (hs s !! k) as [x|] eqn:Hx; [|done]. destruct win; injection E as <- _; [|exact Idn]. split_and!; try done. sm. destruct (decide (k = h)) as [->|]; [|exists y; by rewrite lookup_insert_ne]. rewrite lookup_insert. eexists. split; [done|]. assert (x = y) as -> by congruence. done.
  - destruct (names s !! p) as [j|]; [|done]. destruct (_ && _); injection E as <- _; exact Idn.
  - injection E as <- _. exact Idn.
  - injection E as <- _. exact Idn.
Qed.
Section rall.
Context (win : bool) (s1 : st) (t h N ino off : nat).
(** the bytes in the buffer were at the right place of the file at some moment since the call *)
Definition seen (es : list ev) (s : st) (bs : list Z) : Prop := forall i v, bs !! i = Some v ->
  exists es1 es2 sm, es = es1 ++ es2 /\ reachf win s1 es1 sm /\ reachf win sm es2 s /\ data sm ino !! (off + i)%nat = Some v.
Lemma seen_snoc es s bs e s' o : seen es s bs -> step win s e = Ok s' o -> seen (es ++ [e]) s' bs.
Proof. intros H E i v Hv. destruct (H i v Hv) as (es1 & es2 & sm & -> & R1 & R2 & D). exists es1, (es2 ++ [e]), sm. rewrite app_assoc. split_and!; try done. by econstructor. Qed.
Definition Q (es : list ev) (s : st) : Prop := reachf win s1 es s /\ alone s t h /\ exists y, hs s !! h = Some y /\ hi y = ino /\
  forall l, lps s !! t = Some l -> l_h l = h /\ pos y = (off + length (l_buf l))%nat /\ l_cap l = N /\ (length (l_buf l) + l_left l = N)%nat /\ (0 < l_left l)%nat /\ (steps t es + l_left l <= N)%nat /\ seen es s (l_buf l).
Lemma seen_more es s x l r bs : hs s !! h = Some x -> hi x = ino -> pos x = (off + length (l_buf l))%nat -> reachf win s1 es s -> seen es s (l_buf l) -> sys_read s x (l_left l) r = Some (Some bs) -> seen es s (l_buf l ++ bs).
Proof.
  intros Hx Hi Hp R S E i v Hv. apply sys_read_spec in E as (_ & E & _). apply lookup_app_Some in Hv as [Hv|[Hge Hv]]; [by apply S|].
  exists es, [], s. rewrite app_nil_r. split_and!; try done; [constructor|]. rewrite E in Hv. assert (i - length (l_buf l) < length bs)%nat by (apply lookup_lt_Some in Hv; rewrite take_length in Hv; lia).
  rewrite lookup_take in Hv by done. rewrite lookup_drop, Hi, Hp in Hv. by replace (off + i)%nat with (off + length (l_buf l) + (i - length (l_buf l)))%nat by lia.
Qed.
Lemma Q_step es s e s' o : Q es s -> step win s e = Ok s' o -> quiet t h e -> Q (es ++ [e]) s'.
Proof.
  intros (R & A & y & Hy & Hi & HL) E Hq. assert (Dec: (exists r, e = EStep t r) \/ forall r, e <> EStep t r). { destruct e as [| | | |u r| | | | | | | | |]; try (by right). destruct (decide (u = t)) as [->|]; [left; by eexists|right; congruence]. } destruct Dec as [[r ->]|Hn2].
  - split; [by econstructor|]. cbn [step] in E. destruct (lps s !! t) as [l|] eqn:Hl; [|done]. destruct (HL l eq_refl) as (L1 & L2 & L3 & L4 & L5 & L6 & L7). rewrite L1, Hy in E.
    assert (D: forall s2, lps s2 = delete t (lps s) -> alone s2 t h /\ lps s2 !! t = None). { intros s2 E2. unfold alone. rewrite E2. split; [|by rewrite lookup_delete]. intros v l' Hv. rewrite lookup_delete_Some. intros [_ Hl']. by eapply A. }
    destruct (sys_read s y (l_left l) r) as [[bs|]|] eqn:Rd; [|injection E as <- _|done].
    + cbv zeta in E. case_bool_decide as B1; [done|].
      assert (F: forall s2, lps s2 = delete t (lps s) -> hs s2 = <[h := s_pos (pos y + length bs) y]> (hs s) -> alone s2 t h /\ exists z, hs s2 !! h = Some z /\ hi z = ino /\ forall l, lps s2 !! t = Some l -> l_h l = h /\ pos z = (off + length (l_buf l))%nat /\ l_cap l = N /\ (length (l_buf l) + l_left l = N)%nat /\ (0 < l_left l)%nat /\ (steps t (es ++ [EStep t r]) + l_left l <= N)%nat /\ seen (es ++ [EStep t r]) s2 (l_buf l)).
      { intros s2 E2 E3. destruct (D s2 E2) as [D1 D2]. split; [done|]. rewrite E3, lookup_insert. eexists. split; [done|]. split; [done|]. intros l'. by rewrite D2. }
      case_bool_decide as B2; [injection E as <- _; by apply F|]. case_bool_decide as B3; [injection E as <- _; by apply F|]. assert (E': step win s (EStep t r) = Ok s' o). { cbn [step]. rewrite Hl, L1, Hy, Rd. cbv zeta. by rewrite bool_decide_false, bool_decide_false, bool_decide_false by done. } injection E as <- _.
      split; [unfold alone; sm; intros v l' Hv; rewrite lookup_insert_ne by done; by eapply A|]. sm. rewrite lookup_insert. eexists. split; [done|]. split; [done|]. rewrite lookup_insert. intros l' [= <-]. sm. pose proof Rd as Rd2. apply sys_read_spec in Rd2 as (_ & _ & R3 & _).
      rewrite steps_app. cbn [steps]. rewrite decide_True by done. rewrite !app_length in *. split_and!; try done; try lia. eapply seen_snoc; [|exact E']. by eapply seen_more.
    + destruct (D (s_lps (delete t (lps s)) s) eq_refl) as [D1 D2]. split; [done|]. exists y. split_and!; try done. intros l'. sm. by rewrite lookup_delete.
  - destruct (quiet_step _ _ _ _ _ t h y E Hq Hn2 A Hy) as (A' & L' & z & Hz & Ez1 & Ez2). split; [by econstructor|]. split; [done|]. exists z. split; [done|]. split; [congruence|]. intros l Hl. rewrite L' in Hl. destruct (HL l Hl) as (L1 & L2 & L3 & L4 & L5 & L6 & L7).
    split_and!; try done; [congruence| |by eapply seen_snoc]. rewrite steps_app. assert (steps t [e] = 0%nat) as ->; [|lia]. destruct e; try done. cbn. destruct (decide _) as [->|]; [|done]. by destruct (Hn2 r).
Qed.
Lemma Q_run es s es2 s2 : Q es s -> reachf win s es2 s2 -> Forall (quiet t h) es2 -> Q (es ++ es2) s2.
Proof.
  intros H R. induction R as [|tr s3 e s4 o R IH E]; [by rewrite app_nil_r|]. intros [F1 F2]%Forall_app. apply Forall_cons in F2 as [F2 _]. rewrite app_assoc. eapply Q_step; eauto.
Qed.
End rall.
Lemma all_Q win s t h x n s1 : hs s !! h = Some x -> (forall u l, lps s !! u = Some l -> l_h l <> h) -> step win s (EAll t h n) = Ok s1 RMore -> Q win s1 t h (Z.to_nat n) (hi x) (pos x) [] s1 /\ lps s1 !! t = Some (mklp h (Z.to_nat n) [] (Z.to_nat n) (pos x)).
Proof.
  intros Hx Ha E. cbn [step] in E. rewrite Hx in E. destruct (lps s !! t); [done|]. case_bool_decide as B; [|done]. injection E as <-. split; [|sm; by rewrite lookup_insert]. split; [constructor|]. split; [intros u l Hu; sm; rewrite lookup_insert_ne by done; by apply Ha|].
  exists x. sm. split; [done|]. split; [done|]. intros l. rewrite lookup_insert. intros [= <-]. sm. cbn [length steps]. split_and!; try done; try lia.
Qed.
(** kfread_all, while nobody else uses the handle, whatever others do to the file: it returns true iff the whole buffer was filled;
    every byte it delivers was at its place in the file at some moment of the call; the position moves by what was delivered; it
    fails only if a read failed or the file ended *)
Theorem C69_read_all win t0 tr0 s t h x n s1 es s2 r s3 b bs : reach win t0 tr0 s -> hs s !! h = Some x -> (forall u l, lps s !! u = Some l -> l_h l <> h) ->
  step win s (EAll t h n) = Ok s1 RMore -> Forall (quiet t h) es -> reachf win s1 es s2 -> step win s2 (EStep t r) = Ok s3 (RAll b bs) ->
  Z.of_nat (length bs) <= n /\ (b = true <-> Z.of_nat (length bs) = n) /\
  (forall i v, bs !! i = Some v -> exists es1 es2 sm, es = es1 ++ es2 /\ reachf win s1 es1 sm /\ reachf win sm es2 s2 /\ data sm (hi x) !! (pos x + i)%nat = Some v) /\
  (exists y, hs s3 !! h = Some y /\ hi y = hi x /\ pos y = (pos x + length bs)%nat) /\ files s3 = files s2 /\
  (b = false -> r = None \/ (length (data s2 (hi x)) <= pos x + length bs)%nat).
Proof.
  intros H Hx Ha E1 F R E. destruct (all_Q win s t h x n s1 Hx Ha E1) as [Q0 _]. eapply Q_run in Q0; [|exact R|exact F]. cbn [app] in Q0. destruct Q0 as (_ & A & y & Hy & Hi & HL).
  assert (Hn: 0 < n). { cbn [step] in E1. destruct (lps s !! t); [done|]. rewrite Hx in E1. by case_bool_decide. }
  cbn [step] in E. destruct (lps s2 !! t) as [l|] eqn:Hl; [|done]. destruct (HL l eq_refl) as (L1 & L2 & L3 & L4 & L5 & L6 & L7). rewrite L1, Hy in E.
  destruct (sys_read s2 y (l_left l) r) as [[bs'|]|] eqn:Rd; [| |done].
  - pose proof (seen_more _ _ _ _ _ _ _ _ _ _ _ Hy Hi L2 R L7 Rd) as S. apply sys_read_spec in Rd as (_ & _ & R3 & R4 & R5). cbv zeta in E. case_bool_decide as B1; [done|].
    assert (P: exists z, <[h:=s_pos (pos y + length bs') y]> (hs s2) !! h = Some z /\ hi z = hi x /\ pos z = (pos x + length (l_buf l ++ bs'))%nat). { rewrite lookup_insert. eexists. split; [done|]. sm. rewrite app_length. split; [done|lia]. }
    case_bool_decide as B2; [|case_bool_decide as B3; [|done]]; injection E as <- <- <-; sm; rewrite app_length in *.
    + split_and!; try done; try lia. intros _. right. destruct (decide (pos y < length (data s2 (hi y)))%nat) as [Hlt|Hge]; [specialize (R5 ltac:(lia) Hlt); lia|]. rewrite Hi in Hge. lia.
    + split_and!; try done; try lia.
  - injection E as <- <- <-. sm. split_and!; try done; try lia. + exists y. split_and!; try done. + intros _. left. unfold sys_read in Rd. destruct r; [|done]. destruct (negb (rd y)); [done|]. by case_bool_decide.
Qed.
(** ... so when the file is only appended to meanwhile, the buffer holds exactly the bytes of the file from the position on *)
Theorem C69_read_all_exact win t0 tr0 s t h x n s1 es s2 r s3 b bs : reach win t0 tr0 s -> hs s !! h = Some x -> (forall u l, lps s !! u = Some l -> l_h l <> h) ->
  step win s (EAll t h n) = Ok s1 RMore -> Forall (quiet t h) es -> reachf win s1 es s2 -> step win s2 (EStep t r) = Ok s3 (RAll b bs) ->
  (forall k y, hs s !! k = Some y -> hi y = hi x -> tame (hm y)) -> (forall k p m temp ok, EOpen k p m temp ok ∈ es -> names s !! p = Some (hi x) -> tame m) ->
  bs = take (length bs) (drop (pos x) (data s2 (hi x))).
Proof.
  intros H Hx Ha E1 F R E Ht He. destruct (C69_read_all _ _ _ _ _ _ _ _ _ _ _ _ _ _ _ H Hx Ha E1 F R E) as (_ & _ & S & _).
  assert (R1: reach win t0 (tr0 ++ [EAll t h n]) s1) by (by econstructor). assert (Hf: is_Some (files s !! hi x)) by (apply reach_inv' in H; by apply (k_file _ _ _ (i_h _ _ H h x Hx))).
  assert (N1: names s1 = names s /\ files s1 = files s /\ hs s1 = hs s). { cbn [step] in E1. destruct (lps s !! t); [done|]. rewrite Hx in E1. destruct (bool_decide _); by injection E1 as <-. } destruct N1 as (N1 & N2 & N3).
  apply list_eq. intros i. destruct (bs !! i) as [v|] eqn:Hv.
  - destruct (S i v Hv) as (es1 & es2 & sm & -> & Ra & Rb & D). pose proof (lookup_lt_Some _ _ _ Hv). rewrite lookup_take, lookup_drop by done. symmetry.
    assert (G: inv win sm /\ is_Some (files sm !! hi x) /\ (forall k y, hs sm !! k = Some y -> hi y = hi x -> tame (hm y)) /\ forall p, names sm !! p = Some (hi x) -> names s !! p = Some (hi x)).
    { assert (He1: forall k p m temp ok, EOpen k p m temp ok ∈ es1 -> names s !! p = Some (hi x) -> tame m) by (intros k p m temp ok Hin; apply (He k p m temp ok), elem_of_app; by left). clear - Ra He1 R1 Hf N1 N2 N3 Ht. apply reach_inv' in R1. induction Ra as [|es1 sa e sb o Ra IH Es]; [rewrite N1, N2, N3; by split_and!|].
      destruct IH as (I1 & I2 & I3 & I4); [intros k p m temp ok Hin; apply (He1 k p m temp ok), elem_of_app; by left|]. destruct (tame_step win sa e sb o (hi x)) as (J2 & J3 & J4 & _); try done.
      { intros k p m temp ok -> Hp. apply (He1 k p m temp ok); [apply elem_of_app; right; by left|by apply I4]. }
      split_and!; try done; [by eapply inv_step|by auto]. }
    destruct G as (G1 & G2 & G3 & G4). assert (Rs: exists tr, reach win t0 tr sm). { clear - R1 Ra. induction Ra as [|es1 sa e sb o Ra [tr IH] Es]; [by eexists|]. exists (tr ++ [e]). by econstructor. } destruct Rs as [tr Rs].
    destruct (C69_append win t0 tr sm (hi x) es2 s2) as (w & _ & ->); try done. { intros k p m temp ok Hin Hp. apply (He k p m temp ok); [apply elem_of_app; by right|by apply G4]. } by apply lookup_app_l_Some.
  - symmetry. apply lookup_ge_None in Hv. apply lookup_ge_None. rewrite take_length. lia.
Qed.
(** kfread_all ends: after n kfreads at the latest *)
Theorem C69_read_all_ends win t0 tr0 s t h x n s1 es s2 : reach win t0 tr0 s -> hs s !! h = Some x -> (forall u l, lps s !! u = Some l -> l_h l <> h) ->
  step win s (EAll t h n) = Ok s1 RMore -> Forall (quiet t h) es -> reachf win s1 es s2 -> is_Some (lps s2 !! t) -> Z.of_nat (steps t es) < n.
Proof.
  intros H Hx Ha E1 F R [l Hl]. destruct (all_Q win s t h x n s1 Hx Ha E1) as [Q0 _]. eapply Q_run in Q0; [|exact R|exact F]. destruct Q0 as (_ & A & y & Hy & Hi & HL). destruct (HL l Hl) as (L1 & L2 & L3 & L4 & L5 & L6 & L7). cbn [app] in L6. lia.
Qed.
(** nothing asked for: true at once *)
Theorem C69_read_all_none win s t h n s1 o : step win s (EAll t h n) = Ok s1 o -> (n <= 0 <-> o = RAll true []) /\ (n <= 0 -> s1 = s).
Proof. cbn [step]. destruct (lps s !! t); [done|]. destruct (hs s !! h); [|done]. case_bool_decide; intros [= <- <-]; split; try lia; [split; [lia|done]|split; [done|lia]|done]. Qed.

(** ** positions, sizes, times, children *)
(** kfseek: from the beginning, the end or the position; a position before the beginning is refused and nothing changes *)
Theorem C69_seek win s h x z w s' o : hs s !! h = Some x -> step win s (ESeek h z w) = Ok s' o ->
  let y := match w with seekBegin => z | seekEnd => Z.of_nat (length (data s (hi x))) + z | seekCur => Z.of_nat (pos x) + z end in
  (0 <= y < 2 ^ 63 -> o = RBool true /\ s' = s_hs (<[h := s_pos (Z.to_nat y) x]> (hs s)) s) /\ (~ 0 <= y < 2 ^ 63 -> o = RBool false /\ s' = s).
Proof. intros Hx. cbn [step]. rewrite Hx. cbv zeta. unfold seek_to, LIM. case_bool_decide as B; intros [= <- <-]; split; intros H; try done. Qed.
(** kfsize: the number of bytes of the file *)
Theorem C69_size win s h x s' o : hs s !! h = Some x -> step win s (ESize h) = Ok s' o -> o = RNum (Z.of_nat (length (data s (hi x)))) /\ s' = s.
Proof. intros Hx. cbn [step]. rewrite Hx. by intros [= <- <-]. Qed.
(** an event after which the modification time of a file may be another: a write, a truncating kfopen, kfutime *)
Definition touches (e : ev) : Prop := match e with EWrite _ _ _ | EUtime _ _ => True | EOpen _ _ m _ _ => truncates m = true | _ => False end.
Lemma untouched_step win s e s' o i : inv win s -> step win s e = Ok s' o -> ~ touches e -> is_Some (files s !! i) -> files s' !! i = files s !! i.
Proof.
  intros HI E T Hi. destruct e as [h p m temp ok|h n r|h bs r|t h n|t r|h z w|h|h t|h|h|h b|p| |d]; cbn [step touches] in E, T; try done.
  - destruct ok; [|destruct (hs s !! h); [done|]; by injection E as <- _]. apply (open_spec win s h p m temp) in E as (_ & [(_ & -> & _)|(_ & _ & _ & x & -> & _)]); [done|].
    rewrite opened_files. destruct (names s !! p) as [j|]; [by destruct (truncates m)|]. rewrite lookup_insert_ne; [done|]. apply (i_f _ _ HI) in Hi. lia.
  - destruct (hs s !! h) as [x|]; [|done]. destruct (sys_read s x n r) as [[bs|]|]; by try injection E as <- _.
  - destruct (lps s !! t); [done|]. destruct (hs s !! h); [|done]. destruct (bool_decide _); by injection E as <- _.
  - destruct (lps s !! t) as [l|]; [|done]. destruct (hs s !! l_h l) as [x|]; [|done]. destruct (sys_read s x _ r) as [[bs|]|]; [|by injection E as <- _|done]. cbv zeta in E. destruct (bool_decide _); [done|]. destruct (bool_decide _); [by injection E as <- _|]. destruct (bool_decide _); by injection E as <- _.
  - destruct (hs s !! h) as [x|]; [|done]. cbv zeta in E. destruct (bool_decide _); by injection E as <- _.
  - destruct (hs s !! h) as [x|]; [|done]. by injection E as <- _.
  - destruct (hs s !! h) as [x|]; [|done]. destruct (files s !! hi x); [|done]. by injection E as <- _.
  - destruct (hs s !! h) as [x|]; [|done]. destruct (_ && _); by injection E as <- _.
  - destruct (hs s !! h) as [x|]; [|done]. destruct win; by injection E as <- _.
  - destruct (names s !! p) as [j|]; [|done]. destruct (_ && _); by injection E as <- _.
  - by injection E as <- _.
  - by injection E as <- _.
Qed.
(** POSIX: kftime gives the time kfutime set, through any handle on the file, until somebody writes, truncates or sets it again *)
Theorem C69_time t0 tr0 s h x t s1 es s2 k y s3 o : reach false t0 tr0 s -> hs s !! h = Some x -> step false s (EUtime h t) = Ok s1 (RBool true) -> Forall (fun e => ~ touches e) es -> reachf false s1 es s2 ->
  hs s2 !! k = Some y -> hi y = hi x -> step false s2 (ETime k) = Ok s3 o -> o = RNum t /\ s3 = s2.
Proof.
  intros H Hx E F R Hy Hi Et. assert (H1: reach false t0 (tr0 ++ [EUtime h t]) s1) by (by econstructor). apply reach_inv' in H1. apply reach_inv' in H as HI. destruct (k_file _ _ _ (i_h _ _ HI h x Hx)) as [f Hf].
  cbn [step] in E. rewrite Hx in E. cbn [andb] in E. injection E as <-. assert (G: inv false s2 /\ files s2 !! hi x = Some (mkfile (dat f) t (btime f))).
  { clear - R F H1 Hf. induction R as [|es sa e sb o R IH Es]; [split; [done|]; sm; by rewrite lookup_alter, Hf|]. apply Forall_app in F as [F1 F2]. apply Forall_cons in F2 as [F2 _]. destruct (IH F1) as [I1 I2]. split; [by eapply inv_step|]. by rewrite (untouched_step _ _ _ _ _ _ I1 Es F2) by (by rewrite I2). }
  destruct G as [_ G]. cbn [step] in Et. rewrite Hy, Hi, G in Et. by injection Et as <- <-.
Qed.
Lemma inh_run win s tr s' : reachf win s tr s' -> (forall h, ECloexec h false ∉ tr) -> (forall h x, hs s !! h = Some x -> inh x = false) -> forall h x, hs s' !! h = Some x -> inh x = false.
Proof.
  intros R. induction R as [|tr s1 e s2 o R IH E]; [done|]. intros Hc H0. assert (Hc1: forall h, ECloexec h false ∉ tr) by (intros h Hin; apply (Hc h), elem_of_app; by left). specialize (IH Hc1 H0).
  assert (Hc2: forall h, e <> ECloexec h false) by (intros h ->; apply (Hc h), elem_of_app; right; by left). clear Hc Hc1 H0 R.
  assert (Put: forall k x (m : gmap nat handle), inh x = false -> m = <[k := x]> (hs s1) -> forall h y, m !! h = Some y -> inh y = false). { intros k x m Hx -> h y. destruct (decide (k = h)) as [->|]; [rewrite lookup_insert; by intros [= <-]|]. rewrite lookup_insert_ne by done. apply IH. }
  destruct e as [h p m temp ok|h n r|h bs r|t h n|t r|h z w|h|h t|h|h|h b|p| |d]; cbn [step] in E.
  - destruct ok; [|destruct (hs s1 !! h); [done|]; by injection E as <- _]. apply (open_spec win s1 h p m temp) in E as (_ & [(_ & -> & _)|(_ & _ & _ & x & -> & _ & _ & _ & _ & _ & _ & X & _)]); [done|]. rewrite opened_hs. by eapply Put.
  - destruct (hs s1 !! h) as [x|] eqn:Hx; [|done]. destruct (sys_read s1 x n r) as [[bs|]|]; [|by injection E as <- _|done]. injection E as <- _. eapply (Put h); [|done]. by apply (IH h x).
  - destruct (hs s1 !! h) as [x|] eqn:Hx; [|done]. destruct r as [k|]; [|by injection E as <- _]. destruct (_ || _); [done|]. injection E as <- _. sm. eapply (Put h (s_pos ((if app_ x then length (data s1 (hi x)) else pos x) + k) x)); [by apply (IH h x)|]. by destruct (bool_decide _).
  - destruct (lps s1 !! t); [done|]. destruct (hs s1 !! h); [|done]. destruct (bool_decide _); by injection E as <- _.
  - destruct (lps s1 !! t) as [l|]; [|done]. destruct (hs s1 !! l_h l) as [x|] eqn:Hx; [|done]. destruct (sys_read s1 x _ r) as [[bs|]|]; [|by injection E as <- _|done]. cbv zeta in E. destruct (bool_decide _); [done|].
    destruct (bool_decide _); [|destruct (bool_decide _)]; injection E as <- _; sm; (eapply (Put (l_h l)); [|done]; by apply (IH (l_h l) x)).
  - destruct (hs s1 !! h) as [x|] eqn:Hx; [|done]. cbv zeta in E. destruct (bool_decide _); injection E as <- _; [|done]. eapply (Put h); [|done]. by apply (IH h x).
  - destruct (hs s1 !! h) as [x|]; [|done]. by injection E as <- _.
  - destruct (hs s1 !! h) as [x|]; [|done]. destruct (_ && _); by injection E as <- _.
  - destruct (hs s1 !! h) as [x|]; [|done]. destruct (files s1 !! hi x); [|done]. by injection E as <- _.
  - destruct (hs s1 !! h) as [x|]; [|done]. injection E as <- _. destruct (_ && _); sm; intros k y; rewrite lookup_delete_Some; intros [_ Hy]; by eapply IH.
  - destruct (hs s1 !! h) as [x|] eqn:Hx; [|done]. destruct win; injection E as <- _; [|done]. destruct b; [|by destruct (Hc2 h)]. eapply (Put h); [|done]. done.
  - destruct (names s1 !! p) as [j|]; [|done]. destruct (_ && _); by injection E as <- _.
  - by injection E as <- _.
  - by injection E as <- _.
Qed.
(** no child process inherits a handle of kfopen, unless kfile_close_on_exec was told to allow it *)
Theorem C69_exec win t0 tr s s' o : reach win t0 tr s -> (forall h, ECloexec h false ∉ tr) -> step win s EExec = Ok s' o -> o = RKids [] /\ s' = s.
Proof.
  intros H Hc. cbn [step]. intros [= <- <-]. split; [|done]. f_equal.
  assert (G: forall h x, hs s !! h = Some x -> inh x = false) by (eapply inh_run; [done..|]; cbn [init hs]; intros h x; by rewrite lookup_empty).
  induction (map_to_list (hs s)).*1 as [|h l IH]; [done|]. rewrite filter_cons_False; [done|]. destruct (hs s !! h) as [x|] eqn:Hx; cbn; [|done]. by rewrite (G h x Hx).
Qed.
(** the same program does the same on POSIX and on Windows, except for temporary files, times, removing an open file and
    kfile_close_on_exec *)
Definition portable (e : ev) : Prop := match e with EOpen _ _ _ temp _ => temp = false | EUtime _ _ | ETime _ | EUnlink _ | ECloexec _ _ => False | _ => True end.
Theorem C69_portable s e : (forall h x, hs s !! h = Some x -> excl x = false) -> portable e -> step true s e = step false s e.
Proof.
  intros Hx P. destruct e as [h p m temp ok|h n r|h bs r|t h n|t r|h z w|h|h t|h|h|h b|p| |d]; cbn [portable] in P; try done. subst temp. cbn [step]. destruct (hs s !! h); [done|]. destruct ok; [|done].
  assert (E: create_file (win_flags m false) p h m s = sys_open (posix_flags m) p h m s); [|by rewrite E]. unfold create_file, sys_open. destruct (names s !! p) as [i|].
  - assert (F: forallb (fun x => negb (excl x) && w_share (win_flags m false)) (on_file i s) = true).
    { apply forallb_forall. intros y Hy. apply elem_of_list_In in Hy. unfold on_file in Hy. apply elem_of_list_filter in Hy as [_ Hy]. apply elem_of_list_fmap in Hy as ([k y'] & -> & Hy). apply elem_of_map_to_list in Hy. apply Hx in Hy. cbn. rewrite Hy. by destruct m. }
    rewrite F. rewrite (bool_decide_true (is_Some (Some i))) by (by eexists). cbn [orb]. by destruct m.
  - rewrite (bool_decide_false (is_Some (@None nat))) by (by intros [? ?]). by destruct m.
Qed.

(** * Cases that meet the hypotheses *)
Lemma run_reachf win s0 es tr s s' os : reachf win s0 tr s -> run (step win) s es = Ok s' os -> reachf win s0 (tr ++ es) s'.
Proof.
  revert tr s os. induction es as [|e es IH]; intros tr s os R E; cbn [run] in E; [injection E as <- <-; by rewrite app_nil_r|].
  destruct (step win s e) as [| |s1 o] eqn:E1; try done. destruct (run (step win) s1 es) as [| |s2 os2] eqn:E2; try done. injection E as <- <-. rewrite (cons_middle e tr es), app_assoc. eapply IH; [|done]. by econstructor.
Qed.
(** a log file: two appenders and a reader that reads it with kfread_all in pieces while it grows *)
Definition demo : list ev := [EOpen 3 1 MWrite false true; EWrite 3 [10; 11] (Some 2%nat); EClose 3; EOpen 3 1 MAppend false true; EOpen 4 1 MAppend false true; EOpen 5 1 MRead false true; EWrite 3 [12; 13; 14] (Some 2%nat);
  EAll 0 5 5; EStep 0 (Some 3%nat); EWrite 4 [20; 21] (Some 2%nat); EWrite 3 [14] (Some 1%nat)].
Example C69_demo win : match run (step win) (init 7) (demo ++ [EStep 0 (Some 2%nat)]) with
  | Ok s os => last os = Some (RAll true [10; 11; 12; 13; 20]) /\ data s 0 = [10; 11; 12; 13; 20; 21; 14] /\ reach win 7 (demo ++ [EStep 0 (Some 2%nat)]) s | _ => False end.
Proof.
  destruct (run (step win) (init 7) (demo ++ [EStep 0 (Some 2%nat)])) as [| |s os] eqn:E; [by destruct win; vm_compute in E..|]. split; [|split; [|by eapply (run_reachf win (init 7) (demo ++ [EStep 0 (Some 2%nat)]) []); [constructor|]]]; destruct win; vm_compute in E; by injection E as <- <-.
Qed.

(** * What does not hold *)
(** POSIX: kfile_close_on_exec(h, false) says true and does nothing *)
Theorem C69_inherit_refuted : match run (step false) (init 0) [EOpen 3 1 MWrite false true; ECloexec 3 false; EExec] with Ok _ os => os = [ROpened; RBool true; RKids []] | _ => False end.
Proof. by vm_compute. Qed.
(** Windows: it does what it should and says it failed *)
Theorem C69_inherit_windows_refuted : match run (step true) (init 0) [EOpen 3 1 MWrite false true; ECloexec 3 false; EExec] with Ok _ os => os = [ROpened; RBool false; RKids [3%nat]] | _ => False end.
Proof. by vm_compute. Qed.
(** Windows: kftime is not the time of the last modification, not even the one kfutime set *)
Theorem C69_time_windows_refuted : match run (step true) (init 100) [EOpen 3 1 MWrite false true; ETick 50; EWrite 3 [1] (Some 1%nat); ETime 3; EUtime 3 999; ETime 3] with Ok _ os => os = [ROpened; RNone; RNum 1; RNum 100; RBool true; RNum 100] | _ => False end.
Proof. by vm_compute. Qed.
(** POSIX: a temporary file stays, and others can open it *)
Theorem C69_temp_refuted : match run (step false) (init 0) [EOpen 3 1 MWriteRead true true; EWrite 3 [7] (Some 1%nat); EOpen 4 1 MRead false true; ERead 4 5 (Some 1%nat); EClose 3; EClose 4; EOpen 5 1 MRead false true; ESize 5] with Ok _ os => os = [ROpened; RNum 1; ROpened; RBytes [7]; RNone; RNone; ROpened; RNum 1] | _ => False end.
Proof. by vm_compute. Qed.
(** ... unlike on Windows *)
Theorem C69_temp_windows : match run (step true) (init 0) [EOpen 3 1 MWriteRead true true; EWrite 3 [7] (Some 1%nat); EOpen 4 1 MRead false true; EClose 3; EOpen 5 1 MRead false true] with Ok _ os => os = [ROpened; RNum 1; RFail; RNone; RFail] | _ => False end.
Proof. by vm_compute. Qed.
(** an interrupted kfread (EINTR) makes kfread_all fail although the file has all the bytes, and the position is lost *)
Theorem C69_interrupt_refuted : match run (step false) (init 0) [EOpen 3 1 MWriteRead false true; EWrite 3 [1; 2; 3; 4] (Some 4%nat); ESeek 3 0 seekBegin; EAll 0 3 4; EStep 0 (Some 3%nat); EStep 0 None; ERead 3 4 (Some 1%nat)] with Ok _ os => os = [ROpened; RNum 4; RBool true; RMore; RMore; RAll false [1; 2; 3]; RBytes [4]] | _ => False end.
Proof. by vm_compute. Qed.
(** two threads in kfread_all on one handle share its position: both succeed with bytes that are not together in the file *)
Theorem C69_shared_refuted : match run (step false) (init 0) [EOpen 3 1 MWriteRead false true; EWrite 3 [1; 2; 3; 4] (Some 4%nat); ESeek 3 0 seekBegin; EAll 0 3 2; EAll 1 3 2; EStep 0 (Some 1%nat); EStep 1 (Some 1%nat); EStep 0 (Some 1%nat); EStep 1 (Some 1%nat)] with Ok _ os => os = [ROpened; RNum 4; RBool true; RMore; RMore; RMore; RMore; RAll true [1; 3]; RAll true [2; 4]] | _ => False end.
Proof. by vm_compute. Qed.
