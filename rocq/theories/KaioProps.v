(** C77: fiber file I/O with POSIX AIO on kqueue.  Every call returns what the kernel did for it, at the position of the call; the position moves by
    what was transferred; a file whose calls have returned is on no list of the selector, so it may be closed. *)
From stdpp Require Import list list_numbers.
From Verif Require Import Lts KaioModel.
Local Open Scope Z_scope.

(** * Specification *)
(** the position after a history *)
Definition pos1 (p : Z) (h : hev) : Z := match h with HSeek q => q | HRet _ _ r _ => p + Z.max 0 r | _ => p end.
Definition pos (h : list hev) : Z := foldl pos1 0 h.
Definition cont1 (c : list Z) (h : hev) : list Z := match h with HExec _ _ _ after => after | _ => c end.
Definition contents (c0 : list Z) (h : list hev) : list Z := foldl cont1 c0 h.
Definition calls (h : list hev) : list nat := omap (fun x => match x with HCall id _ _ _ _ => Some id | _ => None end) h.
Definition execs (h : list hev) : list nat := omap (fun x => match x with HExec id _ _ _ => Some id | _ => None end) h.
Definition rets (h : list hev) : list nat := omap (fun x => match x with HRet id _ _ _ => Some id | _ => None end) h.
Definition byte (c : list Z) (i : nat) : Z := nth i c 0.
(** [after] is [before] with the bytes b written at p *)
Definition written (before : list Z) (p : nat) (b after : list Z) : Prop :=
  length after = (match b with [] => length before | _ => Nat.max (length before) (p + length b) end) /\
  forall i, byte after i = if decide (p <= i < p + length b)%nat then byte b (i - p) else byte before i.
(** what an operation may do: nothing (-1), or r bytes at p *)
Definition did (o : op) (p r : Z) (before after : list Z) : Prop :=
  r = -1 /\ after = before \/ 0 <= p /\ 0 <= r /\
  match o with
  | ORd len => after = before /\ (Z.to_nat r <= len)%nat /\ (Z.to_nat r <= length before - Z.to_nat p)%nat
  | OWr b => (Z.to_nat r <= length b)%nat /\ written before (Z.to_nat p) (take (Z.to_nat r) b) after
  end.
(** the caller's buffer after a read of r bytes *)
Definition got (o : op) (p r : Z) (before bytes : list Z) : Prop :=
  match o with
  | ORd _ => 0 <= r -> length bytes = Z.to_nat r /\ forall i, (i < Z.to_nat r)%nat -> byte bytes i = byte before (Z.to_nat p + i)
  | OWr _ => True
  end.
Definition ret_ok (h : list hev) (id t : nat) (r : Z) (bytes : list Z) : Prop :=
  exists o p before after, HCall id t o p true ∈ h /\ HExec id r before after ∈ h /\ did o p r before after /\ got o p r before bytes.

(** * Lemmas *)
Lemma pos_snoc h x : pos (h ++ [x]) = pos1 (pos h) x.
Proof. unfold pos. rewrite foldl_app. done. Qed.
Lemma contents_snoc c0 h x : contents c0 (h ++ [x]) = cont1 (contents c0 h) x.
Proof. unfold contents. rewrite foldl_app. done. Qed.
Lemma nth_take (l : list Z) k i : nth i (take k l) 0 = if decide (i < k)%nat then nth i l 0 else 0.
Proof.
  revert l i. induction k as [|k IH]; intros l i; cbn.
  - destruct i; done.
  - destruct l as [|a l]; cbn; [destruct i, (decide _); done|]. destruct i as [|i]; cbn; [done|]. rewrite IH.
    destruct (decide (i < k)%nat), (decide (S i < S k)%nat); try done; lia.
Qed.
Lemma nth_drop (l : list Z) k i : nth i (drop k l) 0 = nth (k + i) l 0.
Proof. revert l. induction k as [|k IH]; intros l; cbn; [done|]. destruct l as [|a l]; [destruct i; done|]. apply IH. Qed.
Lemma nth_repl k i : nth i (replicate k 0) 0 = 0.
Proof. revert i. induction k as [|k IH]; intros [|i]; cbn; try done. Qed.
Lemma pread_ok c p r : (r <= length c - p)%nat -> length (pread c (Z.of_nat p) r) = r /\
  forall i, (i < r)%nat -> byte (pread c (Z.of_nat p) r) i = byte c (p + i).
Proof.
  intros Hr. unfold pread, byte. rewrite Nat2Z.id. split; [rewrite take_length, drop_length; lia|].
  intros i Hi. rewrite nth_take, nth_drop. rewrite decide_True by done. done.
Qed.
Lemma pwrite_ok c p b : written c p b (pwrite c (Z.of_nat p) b).
Proof.
  unfold written, pwrite. rewrite Nat2Z.id. destruct b as [|x b]; [split; [done|]; intros i; rewrite decide_False by (cbn; lia); done|].
  set (l := x :: b). assert (Hl : (0 < length l)%nat) by (cbn; lia). clearbody l. split.
  - rewrite !app_length, take_length, replicate_length, drop_length. lia.
  - intros i. unfold byte. destruct (decide (i < p)%nat) as [H1|H1].
    + rewrite decide_False by lia. destruct (decide (i < length c)%nat) as [H2|H2].
      * rewrite app_nth1 by (rewrite take_length; lia). rewrite nth_take, decide_True by done. done.
      * rewrite app_nth2 by (rewrite take_length; lia). rewrite app_nth1 by (rewrite take_length, replicate_length; lia).
        rewrite nth_repl. symmetry. apply nth_overflow. lia.
    + rewrite app_nth2 by (rewrite take_length; lia). rewrite app_nth2 by (rewrite take_length, replicate_length; lia).
      rewrite take_length, replicate_length. replace (i - p `min` length c - (p - length c))%nat with (i - p)%nat by lia.
      destruct (decide (p <= i < p + length l)%nat) as [H2|H2]; [rewrite app_nth1 by lia; done|].
      rewrite app_nth2 by lia. rewrite nth_drop. f_equal. lia.
Qed.

(** * What holds in every run *)
Definition fired (s : st) : Prop := evq s = 1%nat /\ inq s <> LReady \/
  evq s = 0%nat /\ inq s = LReady /\ (if fR s then rr s else fW s && wr s) = true.
Definition quiet (s : st) : Prop := cb s = Unknown /\ evq s = 0%nat /\ inq s <> LReady.
Definition call_ok (s : st) : Prop :=
  match call s with
  | None => quiet s /\ off s = pos (hist s)
  | Some (id, t, Waiting) => data s = t /\ S id = nid s /\ id ∉ rets (hist s) /\ off s = pos (hist s) /\ fR s || fW s = true /\
      exists o, HCall id t o (off s) true ∈ hist s /\
        (cb s = InProg o (off s) /\ evq s = 0%nat /\ inq s <> LReady /\ id ∉ execs (hist s) /\ buf s = [] \/
         exists r before after, cb s = Fin r /\ fired s /\ HExec id r before after ∈ hist s /\ did o (off s) r before after /\
           got o (off s) r before (buf s))
  | Some (id, t, Woken r) => quiet s /\ S id = nid s /\ id ∉ rets (hist s) /\ off s = pos (hist s) + Z.max 0 r /\ ret_ok (hist s) id t r (buf s)
  end.
Record W (c0 : list Z) (s : st) : Prop := {
  w_job : job s = None /\ posted s = None;
  w_call : call_ok s;
  w_cont : cont s = contents c0 (hist s);
  w_calls : calls (hist s) = seq 0 (nid s);
  w_lt : forall id, id ∈ execs (hist s) \/ id ∈ rets (hist s) -> (id < nid s)%nat;
  w_nd : NoDup (execs (hist s)) /\ NoDup (rets (hist s));
  w_pos : forall h1 h2 id t o p acc, hist s = h1 ++ HCall id t o p acc :: h2 -> p = pos h1;
  w_before : forall h1 h2 id r before after, hist s = h1 ++ HExec id r before after :: h2 -> before = contents c0 h1;
  w_ret : forall id t r bytes, HRet id t r bytes ∈ hist s -> ret_ok (hist s) id t r bytes }.

Lemma ret_ok_mono h x id t r bytes : ret_ok h id t r bytes -> ret_ok (h ++ [x]) id t r bytes.
Proof. intros (o & p & b & a & A & B & C). exists o, p, b, a. split; [apply elem_of_app; by left|]. split; [apply elem_of_app; by left|done]. Qed.
Lemma snoc_split {A} (h h1 h2 : list A) x y : h ++ [x] = h1 ++ y :: h2 -> h2 = [] /\ x = y /\ h = h1 \/ exists h3, h2 = h3 ++ [x] /\ h = h1 ++ y :: h3.
Proof.
  intros H. destruct h2 as [|z h2 _] using rev_ind.
  - apply app_inj_tail in H as [-> ->]. left; done.
  - rewrite app_comm_cons, app_assoc in H. apply app_inj_tail in H as [-> ->]. right. eauto.
Qed.
(** an event that only touches other fields *)
Lemma W_same c0 s s' : W c0 s -> hist s' = hist s -> nid s' = nid s -> cont s' = cont s -> job s' = None -> posted s' = None -> call_ok s' -> W c0 s'.
Proof.
  intros [] Hh Hn Hc Hj Hp Hk. constructor; rewrite ?Hh, ?Hn, ?Hc; try done.
Qed.
Lemma W_log c0 s s' x : W c0 s -> hist s' = hist s ++ [x] -> job s' = None -> posted s' = None -> call_ok s' ->
  match x with
  | HCall id t o p acc => id = nid s /\ nid s' = S (nid s) /\ p = pos (hist s) /\ cont s' = cont s
  | HExec id r before after => nid s' = nid s /\ (id < nid s)%nat /\ id ∉ execs (hist s) /\ before = cont s /\ cont s' = after
  | HRet id t r bytes => nid s' = nid s /\ (id < nid s)%nat /\ id ∉ rets (hist s) /\ ret_ok (hist s) id t r bytes /\ cont s' = cont s
  | HSeek _ => nid s' = nid s /\ cont s' = cont s
  end -> W c0 s'.
Proof.
  intros [Wj Wc Wct Wcs Wl Wn Wp Wb Wr] Hh Hj Hp Hk Hx.
  assert (Hcs : calls (hist s ++ [x]) = calls (hist s) ++ calls [x]) by apply omap_app.
  assert (Hes : execs (hist s ++ [x]) = execs (hist s) ++ execs [x]) by apply omap_app.
  assert (Hrs : rets (hist s ++ [x]) = rets (hist s) ++ rets [x]) by apply omap_app.
  destruct x as [id t o p acc|id r before after|id t r bytes|q]; cbn in Hcs, Hes, Hrs; rewrite ?app_nil_r in Hcs; rewrite ?app_nil_r in Hes; rewrite ?app_nil_r in Hrs.
  - destruct Hx as (-> & Hn & -> & Hc). constructor; rewrite ?Hh; try done.
    + rewrite contents_snoc, Hc. done.
    + rewrite Hcs, Hn, Wcs. change (S (nid s)) with (1 + nid s)%nat. rewrite (Nat.add_comm 1), seq_app. done.
    + rewrite Hes, Hrs, Hn. intros id Hi. specialize (Wl _ Hi). lia.
    + rewrite Hes, Hrs. done.
    + intros h1 h2 id' t' o' p' acc' He. apply snoc_split in He as [(-> & Heq & <-)|(h3 & -> & He)]; [by injection Heq as <- <- <- <- <-|eauto].
    + intros h1 h2 id' r' b' a' He. apply snoc_split in He as [(-> & Heq & <-)|(h3 & -> & He)]; [done|eauto].
    + intros id' t' r' b' Hi. apply elem_of_app in Hi as [Hi|Hi%elem_of_list_singleton]; [|done]. apply ret_ok_mono. eauto.
  - destruct Hx as (Hn & Hlt & Hni & -> & Hc). constructor; rewrite ?Hh; try done.
    + rewrite contents_snoc. done.
    + rewrite Hcs, Hn. done.
    + rewrite Hes, Hrs, Hn. intros i [Hi|Hi]; [|eauto]. apply elem_of_app in Hi as [Hi|Hi%elem_of_list_singleton]; [eauto|by subst].
    + rewrite Hes, Hrs. split; [|apply Wn]. apply NoDup_app. split; [apply Wn|]. split; [|apply NoDup_singleton].
      intros i Hi Hi'%elem_of_list_singleton. by subst.
    + intros h1 h2 id' t' o' p' acc' He. apply snoc_split in He as [(-> & Heq & <-)|(h3 & -> & He)]; [done|eauto].
    + intros h1 h2 id' r' b' a' He. apply snoc_split in He as [(-> & Heq & <-)|(h3 & -> & He)]; [injection Heq as <- <- <- <-; done|eauto].
    + intros id' t' r' b' Hi. apply elem_of_app in Hi as [Hi|Hi%elem_of_list_singleton]; [|done]. apply ret_ok_mono. eauto.
  - destruct Hx as (Hn & Hlt & Hni & Hro & Hc). constructor; rewrite ?Hh; try done.
    + rewrite contents_snoc, Hc. done.
    + rewrite Hcs, Hn. done.
    + rewrite Hes, Hrs, Hn. intros i [Hi|Hi]; [eauto|]. apply elem_of_app in Hi as [Hi|Hi%elem_of_list_singleton]; [eauto|by subst].
    + rewrite Hes, Hrs. split; [apply Wn|]. apply NoDup_app. split; [apply Wn|]. split; [|apply NoDup_singleton].
      intros i Hi Hi'%elem_of_list_singleton. by subst.
    + intros h1 h2 id' t' o' p' acc' He. apply snoc_split in He as [(-> & Heq & <-)|(h3 & -> & He)]; [done|eauto].
    + intros h1 h2 id' r' b' a' He. apply snoc_split in He as [(-> & Heq & <-)|(h3 & -> & He)]; [done|eauto].
    + intros id' t' r' b' Hi. apply elem_of_app in Hi as [Hi|Hi%elem_of_list_singleton]; [|injection Hi as -> -> -> ->]; apply ret_ok_mono; eauto.
  - destruct Hx as (Hn & Hc). constructor; rewrite ?Hh; try done.
    + rewrite contents_snoc, Hc. done.
    + rewrite Hcs, Hn. done.
    + rewrite Hes, Hrs, Hn. eauto.
    + rewrite Hes, Hrs. done.
    + intros h1 h2 id' t' o' p' acc' He. apply snoc_split in He as [(-> & Heq & <-)|(h3 & -> & He)]; [done|eauto].
    + intros h1 h2 id' r' b' a' He. apply snoc_split in He as [(-> & Heq & <-)|(h3 & -> & He)]; [done|eauto].
    + intros id' t' r' b' Hi. apply elem_of_app in Hi as [Hi|Hi%elem_of_list_singleton]; [|done]. apply ret_ok_mono. eauto.
Qed.
Lemma callback_inv s s' : callback s = Ok s' tt -> exists id, call s = Some (id, data s, Waiting) /\
  let len := match cb s with Fin r => r | _ => -1 end in
  s' = set_call (Some (id, data s, Woken len)) (set_off (off s + Z.max 0 len) (set_cb (match cb s with Fin _ => Unknown | c => c end) (evq s) s)).
Proof.
  unfold callback. intros H. destruct (call (if _ : bool then _ else _)) as [[[id t] [|r]]|] eqn:Ec; [|done|done].
  assert (Ec' : call s = Some (id, t, Waiting)) by (destruct (0 <? _); done). clear Ec.
  assert (Ed : data (if 0 <? match cb s with Fin r => r | _ => -1 end
     then set_off (off (set_cb (match cb s with Fin _ => Unknown | c => c end) (evq s) s) + match cb s with Fin r => r | _ => -1 end)
       (set_cb (match cb s with Fin _ => Unknown | c => c end) (evq s) s) else set_cb (match cb s with Fin _ => Unknown | c => c end) (evq s) s) = data s)
    by (destruct (0 <? _); done).
  rewrite Ed in H. destruct (decide (t = data s)) as [->|]; [|done]. injection H as <-. exists id. split; [done|]. cbn zeta.
  destruct (0 <? _) eqn:El.
  - apply Z.ltb_lt in El. rewrite Z.max_r by lia. done.
  - apply Z.ltb_ge in El. rewrite Z.max_l by lia. destruct s; cbn. rewrite Z.add_0_r. done.
Qed.
Lemma callback_ok s id r : call s = Some (id, data s, Waiting) -> cb s = Fin r ->
  callback s = Ok (set_call (Some (id, data s, Woken r)) (set_off (off s + Z.max 0 r) (set_cb Unknown (evq s) s))) tt.
Proof.
  intros Hc Hb. unfold callback. rewrite Hb. destruct (0 <? r) eqn:El; cbn; rewrite Hc, decide_True by done.
  - apply Z.ltb_lt in El. rewrite Z.max_r by lia. done.
  - apply Z.ltb_ge in El. rewrite Z.max_l, Z.add_0_r by lia. done.
Qed.
Lemma callback_woken s id t r : call s = Some (id, t, Woken r) -> callback s = Crash.
Proof. intros Hc. unfold callback. destruct (0 <? _); cbn; rewrite Hc; done. Qed.
(** the READY list hands over the result exactly once, or crashes *)
Lemma ready_inv s s' id r : call s = Some (id, data s, Waiting) -> cb s = Fin r -> (if fR s then rr s else fW s && wr s) = true ->
  ready s = Ok s' tt -> exists a b q, q <> LReady /\
    s' = set_call (Some (id, data s, Woken r)) (set_off (off s + Z.max 0 r) (set_cb Unknown (evq s) (set_flags a b (rr s) (wr s) (set_inq q s)))).
Proof.
  intros Hc Hb Hf. unfold ready. cbn -[callback]. destruct (fW s && wr s) eqn:Ew.
  - destruct (eW s); [|done]. rewrite (callback_ok _ id r) by done. cbn -[callback].
    destruct (fR s && rr s) eqn:Er.
    + destruct (eR s); [|done]. rewrite (callback_woken _ id (data s) r) by done. done.
    + intros H. injection H as <-. destruct (_ || _).
      * exists (fR s), false, LRw. split; [done|]. destruct s; reflexivity.
      * exists (fR s), false, Nowhere. split; [done|]. destruct s; reflexivity.
  - assert (Er : fR s && rr s = true) by (destruct (fR s); done). rewrite Er. cbn -[callback]. destruct (eR s); [|done].
    rewrite (callback_ok _ id r) by done. intros H. injection H as <-. destruct (_ || _).
    + exists false, (fW s), LRw. split; [done|]. destruct s; reflexivity.
    + exists false, (fW s), Nowhere. split; [done|]. destruct s; reflexivity.
Qed.

Lemma step_finish c0 s id t o r c b : W c0 s -> call s = Some (id, t, Waiting) -> HCall id t o (off s) true ∈ hist s -> cb s = InProg o (off s) ->
  id ∉ execs (hist s) -> evq s = 0%nat -> inq s <> LReady -> did o (off s) r (cont s) c -> got o (off s) r (cont s) b -> W c0 (finish r c b s).
Proof.
  intros HW Hc Hh Hb Hx He Hq Hd Hg. pose proof (w_job _ _ HW) as [Hj Hp]. pose proof (w_call _ _ HW) as Hk.
  unfold call_ok in Hk. rewrite Hc in Hk. destruct Hk as (Hda & Hid & Hr & Ho & Hf & _).
  unfold finish. rewrite Hc. cbn [job set_mem log]. rewrite Hj.
  eapply (W_log c0 s _ (HExec id r (cont s) c)); [done|done|done|done| |].
  - unfold call_ok. cbn. rewrite Hc. unfold rets. rewrite omap_app, app_nil_r. split_and!; try done.
    { rewrite pos_snoc. done. }
    exists o. split; [apply elem_of_app; by left|]. right. exists r, (cont s), c. split; [done|]. split; [left; cbn; by rewrite He|].
    split; [apply elem_of_app; right; by apply elem_of_list_singleton|]. done.
  - cbn. split_and!; try done. lia.
Qed.
Lemma W_step c0 s e s' o : W c0 s -> step false s e = Ok s' o -> W c0 s'.
Proof.
  intros HW Hs. pose proof (w_job _ _ HW) as [Hj Hp]. pose proof (w_call _ _ HW) as Hk. destruct o. destruct e as [t o ok|k|err| | |tmo| |p x|]; cbn [step] in Hs.
  - destruct (call s) eqn:Ec; [done|]. destruct (freed s); [done|]. injection Hs as <-. unfold call_ok in Hk. rewrite Ec in Hk. destruct Hk as [(Q1 & Q2 & Q3) Ho].
    eapply (W_log c0 s _ (HCall (nid s) t o (off s) ok)); [done|cbn; rewrite orb_false_r; done|done|done| |].
    + unfold call_ok. cbn. rewrite orb_false_r. destruct ok; [|split; [done|rewrite pos_snoc; done]].
      split_and!; try done.
      * unfold rets. rewrite omap_app, app_nil_r. intros Hi. pose proof (w_lt _ _ HW (nid s) (or_intror Hi)). lia.
      * rewrite pos_snoc. done.
      * destruct o; cbn; rewrite ?orb_true_r; done.
      * exists o. split; [apply elem_of_app; right; by apply elem_of_list_singleton|]. left. split_and!; try done.
        unfold execs. rewrite omap_app, app_nil_r. intros Hi. pose proof (w_lt _ _ HW (nid s) (or_introl Hi)). lia.
    + cbn. done.
  - unfold pending in Hs. rewrite Hj in Hs. unfold call_ok in Hk. destruct (cb s) as [|o p|] eqn:Eb; [done| |done].
    destruct (call s) as [[[id t] [|r]]|] eqn:Ec; [|by destruct Hk as [(? & _) _]; congruence|by destruct Hk as [(? & _) _]; congruence].
    destruct Hk as (Hda & Hid & Hr & Ho & Hf & o' & Hh & [(Hb & He & Hq & Hx & Hbu)|(r & b & a & Hb & _)]); [|congruence].
    injection Hb as <- ->. destruct o as [len|b].
    + destruct (decide _) as [(H1 & H2 & H3)|]; [|done]. injection Hs as <-. eapply step_finish; try done.
      * right. rewrite Nat2Z.id. split_and!; try done; lia.
      * cbn. intros _. rewrite Nat2Z.id. pose proof (pread_ok (cont s) (Z.to_nat (off s)) k H3) as Hr'. rewrite Z2Nat.id in Hr' by lia. done.
    + destruct (decide _) as [(H1 & H2)|]; [|done]. injection Hs as <-. eapply step_finish; try done.
      right. rewrite Nat2Z.id. split_and!; try done; try lia. pose proof (pwrite_ok (cont s) (Z.to_nat (off s)) (take k b)) as Hw.
      rewrite Z2Nat.id in Hw by lia. done.
  - unfold pending in Hs. rewrite Hj in Hs. unfold call_ok in Hk. destruct (cb s) as [|o p|] eqn:Eb; [done| |done].
    destruct (call s) as [[[id t] [|r]]|] eqn:Ec; [|by destruct Hk as [(? & _) _]; congruence|by destruct Hk as [(? & _) _]; congruence].
    destruct Hk as (Hda & Hid & Hr & Ho & Hf & o' & Hh & [(Hb & He & Hq & Hx & Hbu)|(r & b & a & Hb & _)]); [|congruence].
    injection Hb as <- ->. injection Hs as <-. eapply step_finish; try done; [by left|]. destruct o; cbn; [lia|done].
  - rewrite Hp in Hs. destruct (evq s) as [|n] eqn:Ee; [done|]. destruct (freed s); [done|]. injection Hs as <-. unfold call_ok in Hk.
    destruct (call s) as [[[id t] [|r]]|] eqn:Ec; [|by destruct Hk as [(_ & ? & _) _]; congruence|by destruct Hk as [(_ & ? & _) _]; congruence].
    destruct Hk as (Hda & Hid & Hr & Ho & Hf & o' & Hh & [(Hb & He & _)|(r & b & a & Hb & [[He Hq]|[? _]] & Hk)]); [congruence| |congruence].
    assert (n = 0%nat) as -> by congruence.
    assert (Hw : forall s1, hist s1 = hist s -> nid s1 = nid s -> cont s1 = cont s -> job s1 = None -> posted s1 = None -> call s1 = call s -> data s1 = data s ->
      off s1 = off s -> cb s1 = cb s -> evq s1 = 0%nat -> inq s1 = LReady -> fR s1 = fR s -> fW s1 = fW s -> buf s1 = buf s ->
      (if fR s1 then rr s1 else fW s1 && wr s1) = true -> W c0 s1).
    { intros s1 E1 E2 E3 E4 E5 E6 E7 E8 E9 E10 E11 E12 E13 E14 E15. eapply W_same; try done. unfold call_ok. rewrite E6, Ec, E1, E2, E7, E8, E12, E13. split_and!; try done.
      exists o'. split; [done|]. right. exists r, b, a. rewrite E9, E14. split; [done|]. split; [right; rewrite E12, E13 in *; done|done]. }
    unfold aio_event. cbn. destruct (fR s) eqn:ER; cbn.
    + apply Hw; cbn; try done.
    + cbn in Hf. rewrite Hf. apply Hw; cbn; rewrite ?ER, ?Hf; done.
  - destruct (inq s) eqn:Eq; [done| |done]. destruct (freed s); [done|]. unfold call_ok in Hk.
    destruct (call s) as [[[id t] [|r]]|] eqn:Ec; [|by destruct Hk as [(_ & _ & ?) _]; congruence|by destruct Hk as [(_ & _ & ?) _]; congruence].
    destruct Hk as (Hda & Hid & Hr & Ho & Hf & o' & Hh & [(Hb & _ & ? & _)|(r & b & a & Hb & [[He Hq]|(He & _ & Hfl)] & Hx & Hd & Hg)]); [congruence|congruence|].
    subst t. destruct (ready_inv s s' id r Ec Hb Hfl Hs) as (fa & fb & q & Hq & ->).
    eapply W_same; try done. unfold call_ok. cbn. split; [split_and!; done|]. split; [done|]. split; [done|]. split; [rewrite Ho; done|].
    exists o', (off s), b, a. done.
  - destruct (inq s) eqn:Eq; [done|done|]. destruct (freed s); [done|]. destruct tmo; injection Hs as <-; [|done].
    eapply W_same; try done. unfold call_ok in *. cbn. destruct (call s) as [[[id t] [|r]]|].
    + destruct Hk as (Hda & Hid & Hr & Ho & Hf & o' & Hh & [(Hb & He & Hq & Hx)|(r & b & a & Hb & Hfi & Hx)]); split_and!; try done; exists o'; (split; [done|]).
      * left. done.
      * right. exists r, b, a. split; [done|]. split; [|done]. destruct Hfi as [[? ?]|(_ & ? & _)]; [by left|congruence].
    + destruct Hk as ((? & ? & ?) & Hk). split; [split_and!; done|done].
    + destruct Hk as ((? & ? & ?) & Hk). split; [split_and!; done|done].
  - destruct (call s) as [[[id t] [|r]]|] eqn:Ec; [done| |done]. injection Hs as <-. unfold call_ok in Hk. rewrite Ec in Hk. destruct Hk as (Hq & Hid & Hr & Ho & Hro).
    eapply (W_log c0 s _ (HRet id t r (buf s))); try done.
    + unfold call_ok. cbn. split; [done|]. rewrite pos_snoc. done.
    + cbn. split_and!; try done; lia.
  - destruct (call s) eqn:Ec; [done|]. destruct (freed s); [done|]. unfold call_ok in Hk. rewrite Ec in Hk. destruct Hk as [Hq Ho]. destruct p; injection Hs as <-; [| |done].
    + eapply (W_log c0 s _ (HSeek x)); try done. unfold call_ok. cbn. rewrite Ec, pos_snoc. done.
    + eapply (W_log c0 s _ (HSeek (off s + x))); try done. unfold call_ok. cbn. rewrite Ec, pos_snoc. done.
  - destruct (call s) eqn:Ec; [done|]. destruct (freed s); [done|]. injection Hs as <-. unfold call_ok in Hk. rewrite Ec in Hk. eapply W_same; done.
Qed.
Lemma W_init c0 : W c0 (init c0).
Proof.
  constructor; try done; cbn.
  - intros id [H|H]; by apply elem_of_nil in H.
  - split; constructor.
  - intros h1 h2 ? ? ? ? ? H. by destruct h1.
  - intros h1 h2 ? ? ? ? H. by destruct h1.
  - intros ? ? ? ? H. by apply elem_of_nil in H.
Qed.
Definition reach (c0 : list Z) (s : st) : Prop := reachable (step false) (init c0) s.
Lemma reach_W c0 s : reach c0 s -> W c0 s.
Proof. apply reach_inv; [apply W_init|]. intros. eapply W_step; done. Qed.

(** * Theorems *)
(** (result) A call returns what the kernel did for exactly this call, at the position of the call; a read finds these bytes in its buffer *)
Theorem C77_result c0 s id t r bytes : reach c0 s -> HRet id t r bytes ∈ hist s ->
  exists o p before after, HCall id t o p true ∈ hist s /\ HExec id r before after ∈ hist s /\ did o p r before after /\ got o p r before bytes.
Proof. intros H. apply (w_ret _ _ (reach_W _ _ H)). Qed.
(** (position) Every call is made at the position the history gives: the last seek plus what was transferred since *)
Theorem C77_position c0 s h1 h2 id t o p acc : reach c0 s -> hist s = h1 ++ HCall id t o p acc :: h2 -> p = pos h1.
Proof. intros H. apply (w_pos _ _ (reach_W _ _ H)). Qed.
(** kfiber_file_tell *)
Theorem C77_tell c0 s : reach c0 s -> call s = None -> off s = pos (hist s).
Proof. intros H Hc. pose proof (w_call _ _ (reach_W _ _ H)) as Hk. unfold call_ok in Hk. rewrite Hc in Hk. apply Hk. Qed.
(** the contents an operation works on are those the previous one left *)
Theorem C77_contents c0 s h1 h2 id r before after : reach c0 s -> hist s = h1 ++ HExec id r before after :: h2 -> before = contents c0 h1.
Proof. intros H. apply (w_before _ _ (reach_W _ _ H)). Qed.
(** (exactly once) *)
Theorem C77_once c0 s : reach c0 s -> NoDup (calls (hist s)) /\ NoDup (execs (hist s)) /\ NoDup (rets (hist s)).
Proof. intros H%reach_W. rewrite (w_calls _ _ H). split; [apply NoDup_seq|apply H]. Qed.

(** * When submissions do not fail, or all calls are of one kind *)
Inductive mode := NoFail | OnlyRd | OnlyWr.
Definition fits (m : mode) (e : ev) : Prop :=
  match e with
  | Call _ o ok => match m with NoFail => ok = true | OnlyRd => exists n, o = ORd n | OnlyWr => exists b, o = OWr b end
  | _ => True
  end.
Definition waiting (s : st) : bool := match call s with Some (_, _, Waiting) => true | _ => false end.
Record P (m : mode) (s : st) : Prop := {
  p_er : fR s = true -> eR s = true;
  p_ew : fW s = true -> eW s = true;
  p_rw : inq s <> LRw;
  p_one : fR s && fW s = false;
  p_idle : match m with NoFail => waiting s = true \/ fR s = false /\ fW s = false | OnlyRd => fW s = false | OnlyWr => fR s = false end;
  p_freed : freed s = true -> call s = None }.
Lemma ready_good s id r : call s = Some (id, data s, Waiting) -> cb s = Fin r -> (if fR s then rr s else fW s && wr s) = true ->
  (fR s = true -> eR s = true) -> (fW s = true -> eW s = true) -> fR s && fW s = false ->
  ready s = Ok (set_call (Some (id, data s, Woken r)) (set_off (off s + Z.max 0 r) (set_cb Unknown (evq s)
    (set_flags false false (rr s) (wr s) (set_inq Nowhere s))))) tt.
Proof.
  intros Hc Hb Hf He1 He2 H1. unfold ready. cbn -[callback]. destruct (fR s) eqn:ER; cbn in H1.
  - rewrite H1. cbn -[callback]. rewrite Hf, He1 by done. cbn -[callback]. rewrite (callback_ok _ id r) by done. cbn. done.
  - rewrite Hf. apply andb_true_iff in Hf as [Hf1 Hf2]. rewrite He2 by done. cbn -[callback]. rewrite (callback_ok _ id r) by done. cbn.
    rewrite Hf1. done.
Qed.
Lemma W_ready c0 s : W c0 s -> inq s = LReady -> exists id r, call s = Some (id, data s, Waiting) /\ cb s = Fin r /\ evq s = 0%nat /\
  (if fR s then rr s else fW s && wr s) = true.
Proof.
  intros HW Hq. pose proof (w_call _ _ HW) as Hk. unfold call_ok in Hk.
  destruct (call s) as [[[id t] [|r]]|]; [|by destruct Hk as [(_ & _ & ?) _]|by destruct Hk as [(_ & _ & ?) _]].
  destruct Hk as (<- & _ & _ & _ & _ & o & _ & [(_ & _ & ? & _)|(r & b & a & Hb & [[_ ?]|(? & _ & ?)] & _)]); try done. eauto 10.
Qed.
Lemma W_evq c0 s : W c0 s -> evq s <> 0%nat -> exists id r, call s = Some (id, data s, Waiting) /\ cb s = Fin r /\ evq s = 1%nat /\ fR s || fW s = true.
Proof.
  intros HW Hq. pose proof (w_call _ _ HW) as Hk. unfold call_ok in Hk.
  destruct (call s) as [[[id t] [|r]]|]; [|by destruct Hk as [(_ & ? & _) _]|by destruct Hk as [(_ & ? & _) _]].
  destruct Hk as (<- & _ & _ & _ & ? & o & _ & [(_ & ? & _)|(r & b & a & Hb & [[? _]|(? & _)] & _)]); try done. eauto 10.
Qed.
Lemma P_nocrash c0 m s e : W c0 s -> P m s -> step false s e <> Crash.
Proof.
  intros HW HP. pose proof (w_job _ _ HW) as [Hj Hp]. destruct e as [t o ok|k|err| | |tmo| |p x|]; cbn [step].
  - destruct (call s); [done|]. destruct (freed s); done.
  - destruct (pending s) as [[[len|b] p]|]; [| |done]; destruct (decide _); done.
  - destruct (pending s); done.
  - rewrite Hp. destruct (evq s) as [|n] eqn:Ee; [done|]. destruct (freed s) eqn:Ef; [|done]. apply (p_freed _ _ HP) in Ef.
    destruct (W_evq c0 s HW) as (id & r & Hc & _); congruence.
  - destruct (inq s) eqn:Eq; [done| |done]. destruct (W_ready _ _ HW Eq) as (id & r & Hc & Hb & _ & Hf).
    destruct (freed s) eqn:Ef; [apply (p_freed _ _ HP) in Ef; congruence|].
    rewrite (ready_good s id r) by (try done; apply HP). done.
  - destruct (inq s) eqn:Eq; [done|done|]. by destruct (p_rw _ _ HP).
  - destruct (call s) as [[[id t] [|r]]|]; done.
  - destruct (call s); [done|]. destruct (freed s); [done|]. destruct p; done.
  - destruct (call s); [done|]. destruct (freed s); done.
Qed.
Lemma P_same m s s' : P m s -> fR s' = fR s -> fW s' = fW s -> eR s' = eR s -> eW s' = eW s -> inq s' <> LRw -> freed s' = freed s -> call s' = call s -> P m s'.
Proof. intros [] E1 E2 E3 E4 E5 E6 E7. constructor; unfold waiting in *; rewrite ?E1, ?E2, ?E3, ?E4, ?E6, ?E7; done. Qed.
Lemma P_idle m s s' : P m s -> waiting s = false -> fR s' = fR s -> fW s' = fW s -> eR s' = eR s -> eW s' = eW s -> inq s' = inq s ->
  (freed s' = true -> call s' = None) -> P m s'.
Proof.
  intros [] Hw E1 E2 E3 E4 E5 E6. constructor; rewrite ?E1, ?E2, ?E3, ?E4, ?E5; try done. rewrite Hw in *. destruct m; try done.
  right. destruct p_idle0 as [?|?]; done.
Qed.
Lemma finish_same r c b s : job s = None -> fR (finish r c b s) = fR s /\ fW (finish r c b s) = fW s /\ eR (finish r c b s) = eR s /\ eW (finish r c b s) = eW s /\
  inq (finish r c b s) = inq s /\ freed (finish r c b s) = freed s /\ call (finish r c b s) = call s.
Proof. intros Hj. unfold finish. cbn [job set_mem log]. rewrite Hj. done. Qed.
Lemma P_step c0 m s e s' o : W c0 s -> P m s -> fits m e -> step false s e = Ok s' o -> P m s'.
Proof.
  intros HW HP Hm Hs. pose proof (w_job _ _ HW) as [Hj Hp]. destruct o.
  assert (Hfin : forall r c b, P m (finish r c b s)).
  { intros r c b. destruct (finish_same r c b s Hj) as (A1 & A2 & A3 & A4 & A5 & A6 & A7). eapply P_same; try done. rewrite A5. apply HP. }
  destruct e as [t o ok|k|err| | |tmo| |p x|]; cbn [step] in Hs.
  - destruct (call s) eqn:Ec; [done|]. destruct (freed s) eqn:Ef; [done|]. injection Hs as <-. destruct HP as [P1 P2 P3 P4 P5 P6].
    unfold waiting in P5. rewrite Ec in P5. cbn in Hm. destruct o as [len|b], m; cbn in *.
    + subst ok. destruct P5 as [?|[Ha Hb]]; [done|]. constructor; cbn; rewrite ?Ha, ?Hb, ?Ef; try done. left; done.
    + constructor; cbn; rewrite ?P5, ?Ef; try done.
    + by destruct Hm.
    + subst ok. destruct P5 as [?|[Ha Hb]]; [done|]. constructor; cbn; rewrite ?Ha, ?Hb, ?Ef; try done. left; done.
    + by destruct Hm.
    + constructor; cbn; rewrite ?P5, ?Ef; try done.
  - destruct (pending s) as [[[len|b] p]|]; [| |done]; destruct (decide _); try done; injection Hs as <-; apply Hfin.
  - destruct (pending s); [|done]. injection Hs as <-. apply Hfin.
  - rewrite Hp in Hs. destruct (evq s) as [|n] eqn:Ee; [done|]. destruct (freed s) eqn:Ef; [done|]. injection Hs as <-.
    unfold aio_event. cbn. destruct (fR s) eqn:E1; [|destruct (fW s) eqn:E2]; (eapply P_same; [done|..]; cbn; congruence).
  - destruct (inq s) eqn:Eq; [done| |done]. destruct (W_ready _ _ HW Eq) as (id & r & Hc & Hb & _ & Hf). destruct (freed s) eqn:Ef; [done|].
    rewrite (ready_good s id r) in Hs by (try done; apply HP). injection Hs as <-. constructor; cbn; try done; [|by rewrite Ef]. destruct m; try done. by right.
  - destruct (inq s) eqn:Eq; [done|done|]. by destruct (p_rw _ _ HP).
  - destruct (call s) as [[[id t] [|r]]|] eqn:Ec; [done| |done]. injection Hs as <-. eapply P_idle; try done. unfold waiting. rewrite Ec. done.
  - destruct (call s) eqn:Ec; [done|]. destruct (freed s) eqn:Ef; [done|]. destruct p; injection Hs as <-; [| |done]; (eapply P_idle; try done; [unfold waiting; by rewrite Ec]).
  - destruct (call s) eqn:Ec; [done|]. destruct (freed s) eqn:Ef; [done|]. injection Hs as <-. eapply P_idle; try done. unfold waiting; by rewrite Ec.
Qed.
Lemma P_init m c0 : P m (init c0).
Proof. constructor; cbn; try done. destruct m; auto. Qed.
Definition good_run (c0 : list Z) (l : list ev) : Prop := exists m, Forall (fits m) l.
Lemma run_WP c0 m l : forall s s' os, W c0 s -> P m s -> Forall (fits m) l -> run (step false) s l = Ok s' os -> W c0 s' /\ P m s'.
Proof.
  induction l as [|e l IH]; intros s s' os HW HP Hl Hr; cbn in Hr; [by injection Hr as <- <-|]. apply Forall_cons in Hl as [He Hl].
  destruct (step false s e) as [| |s1 o1] eqn:E1; try done. destruct (run (step false) s1 l) as [| |s2 os2] eqn:E2; try done. injection Hr as -> <-.
  eapply IH; [| |done|done]; [by eapply W_step|by eapply P_step].
Qed.
(** no assertion fails and no freed file is touched, through the life of the file and after close *)
Theorem C77_safe_partial c0 l : good_run c0 l -> run (step false) (init c0) l <> Crash.
Proof.
  intros [m Hl]. generalize (W_init c0), (P_init m c0). generalize (init c0). induction Hl as [|e l He Hl IH]; intros s HW HP; cbn; [done|].
  destruct (step false s e) as [| |s1 o1] eqn:E1; try done; [by destruct (P_nocrash c0 m s e HW HP)|].
  specialize (IH s1 (W_step _ _ _ _ _ HW E1) (P_step _ _ _ _ _ _ HW HP He E1)). by destruct (run (step false) s1 l).
Qed.
(** between calls, and after close, no list of the selector and no event of the kernel refers to the file *)
Theorem C77_unlisted_partial c0 l s os : good_run c0 l -> run (step false) (init c0) l = Ok s os -> call s = None -> inq s = Nowhere /\ evq s = 0%nat.
Proof.
  intros [m Hl] Hr Hc. destruct (run_WP c0 m l _ _ _ (W_init c0) (P_init m c0) Hl Hr) as [HW HP]. pose proof (w_call _ _ HW) as Hk.
  unfold call_ok in Hk. rewrite Hc in Hk. destruct Hk as [(_ & ? & ?) _]. pose proof (p_rw _ _ HP). split; [|done]. destruct (inq s); done.
Qed.
(** an operation the kernel has performed makes its call return, with its result *)
Theorem C77_returns_partial c0 l s os id t o p r before after : good_run c0 l -> run (step false) (init c0) l = Ok s os ->
  call s = Some (id, t, Waiting) -> HCall id t o p true ∈ hist s -> HExec id r before after ∈ hist s ->
  exists es s' os' bytes, es `sublist_of` [Poll; Ready; Resume] /\ run (step false) s es = Ok s' os' /\ hist s' = hist s ++ [HRet id t r bytes].
Proof.
  intros [m Hl] Hr Hc Hca Hex. destruct (run_WP c0 m l _ _ _ (W_init c0) (P_init m c0) Hl Hr) as [HW HP]. pose proof (w_call _ _ HW) as Hk.
  pose proof (w_job _ _ HW) as [Hj Hp].
  assert (Hfr : freed s = false) by (destruct (freed s) eqn:Ef; [apply (p_freed _ _ HP) in Ef; congruence|done]).
  unfold call_ok in Hk. rewrite Hc in Hk.
  assert (Hinj : forall r' b' a', HExec id r' b' a' ∈ hist s -> r' = r).
  { intros r' b' a' Hi. pose proof (proj1 (w_nd _ _ HW)) as Hnd. clear -Hex Hi Hnd. apply elem_of_list_split in Hex as (h1 & h2 & E). rewrite E in *.
    unfold execs in Hnd. rewrite omap_app in Hnd. cbn in Hnd. apply NoDup_app in Hnd as (_ & Hd & Hnd). apply NoDup_cons in Hnd as [Hnd _].
    apply elem_of_app in Hi as [Hi|[Hi|Hi]%elem_of_cons].
    - exfalso. apply (Hd id); [|by left]. apply elem_of_list_omap. eauto.
    - congruence.
    - exfalso. apply Hnd. apply elem_of_list_omap. eauto. }
  destruct Hk as (<- & Hid & Hnr & Ho & Hf & o' & Hh & [(_ & _ & _ & Hx & _)|(r0 & b0 & a0 & Hb & Hfi & Hx & _)]).
  { exfalso. apply Hx. apply elem_of_list_omap. eauto. }
  apply Hinj in Hx as ->.
  assert (Hlast : forall s1, call s1 = call s -> data s1 = data s -> cb s1 = cb s -> fR s1 = fR s -> fW s1 = fW s -> eR s1 = eR s -> eW s1 = eW s -> inq s1 = LReady ->
    freed s1 = false -> hist s1 = hist s -> (if fR s1 then rr s1 else fW s1 && wr s1) = true ->
    exists s' os' bytes, run (step false) s1 [Ready; Resume] = Ok s' os' /\ hist s' = hist s ++ [HRet id (data s) r bytes]).
  { intros s1 E1 E2 E3 E4 E5 E6 E7 E8 E9 E10 E11. cbn [run step]. rewrite E8, E9.
    rewrite (ready_good s1 id r) by (rewrite ?E1, ?E2, ?E3, ?E4, ?E5, ?E6, ?E7; first [done|apply HP|rewrite E4, E5 in E11; done]).
    cbn. eexists _, _, _. split; [reflexivity|]. cbn. rewrite E2, E10. done. }
  destruct Hfi as [[He Hq]|(He & Hq & Hfl)].
  - cut (exists s' os' bytes, run (step false) s [Poll; Ready; Resume] = Ok s' os' /\ hist s' = hist s ++ [HRet id (data s) r bytes]).
    { intros (s' & os' & b & A & B). exists [Poll; Ready; Resume], s', os', b. done. }
    assert (Hst : exists s1, step false s Poll = Ok s1 tt /\ call s1 = call s /\ data s1 = data s /\ cb s1 = cb s /\ fR s1 = fR s /\ fW s1 = fW s /\ eR s1 = eR s /\
      eW s1 = eW s /\ inq s1 = LReady /\ freed s1 = false /\ hist s1 = hist s /\ (if fR s1 then rr s1 else fW s1 && wr s1) = true).
    { cbn [step]. rewrite He, Hfr. eexists. split; [reflexivity|]. unfold aio_event. cbn. destruct (fR s) eqn:ER; cbn.
      - done.
      - cbn in Hf. rewrite Hf. cbn. rewrite ?ER, ?Hf. done. }
    destruct Hst as (s1 & Hs1 & E1 & E2 & E3 & E4 & E5 & E6 & E7 & E8 & E9 & E10 & E11).
    destruct (Hlast s1 E1 E2 E3 E4 E5 E6 E7 E8 E9 E10 E11) as (s' & os' & b & A & B).
    cbn [run]. rewrite Hs1. cbn [run] in A. rewrite A. eauto.
  - destruct (Hlast s) as (s' & os' & b & A & B); try done. exists [Ready; Resume], s', os', b. split; [|done]. apply sublist_cons. done.
Qed.

(** * What does not hold *)
(** a read that could not be submitted leaves STF_READ set: the next write leaves the file on the RW list for good; after kfiber_file_close the
    selector walks into freed memory *)
Definition ex_list : list ev := [Call 1 (ORd 3) false; Call 1 (OWr [7;8]) true; Exec 2; Poll; Ready; Resume; Close].
Theorem C77_failed_submit_refuted : exists s os, run (step false) (init [1;2;3]) ex_list = Ok s os /\ inq s = LRw /\ freed s = true /\
  run (step false) (init [1;2;3]) (ex_list ++ [Walk false]) = Crash.
Proof. eexists _, _. split; [vm_compute; reflexivity|]. split_and!; vm_compute; reflexivity. Qed.
(** or the fiber is woken twice for one operation *)
Theorem C77_woken_twice_refuted : run (step false) (init [1;2;3])
  [Call 1 (OWr [7]) true; Exec 1; Poll; Ready; Resume; Call 1 (OWr [8]) false; Call 1 (ORd 1) true; Exec 1; Poll; Ready] = Crash.
Proof. vm_compute. reflexivity. Qed.
(** macOS: kfiber_file_callback replaces the worker's result by aio_return of a control block the kernel never saw; every call returns -1 *)
Lemma darwin_inv c0 s : reachable (step true) (init c0) s -> cb s = Unknown /\ evq s = 0%nat /\
  (forall id t r, call s = Some (id, t, Woken r) -> r = -1) /\ (forall id t r b, HRet id t r b ∈ hist s -> r = -1) /\ inq s = Nowhere.
Proof.
  apply (reach_inv (step true) (fun s => cb s = Unknown /\ evq s = 0%nat /\
    (forall id t r, call s = Some (id, t, Woken r) -> r = -1) /\ (forall id t r b, HRet id t r b ∈ hist s -> r = -1) /\ inq s = Nowhere)).
  { cbn. split_and!; try done. intros id t r b H. by apply elem_of_nil in H. }
  clear s. intros s e s' o (Hb & He & Hw & Hr & Hq) Hs. destruct o. destruct e as [t o ok|k|err| | |tmo| |p x|]; cbn [step] in Hs.
  - destruct (call s) eqn:Ec; [done|]. destruct (freed s); [done|]. injection Hs as <-. cbn. rewrite orb_true_r. split_and!; try done.
    intros id' t' r' b' [H|H%elem_of_list_singleton]%elem_of_app; [eauto|done].
  - assert (Hf : forall r c b s', job s <> None -> finish r c b s = s' -> cb s' = Unknown /\ evq s' = 0%nat /\
      (forall id t r, call s' = Some (id, t, Woken r) -> r = -1) /\ (forall id t r b, HRet id t r b ∈ hist s' -> r = -1) /\ inq s' = Nowhere).
    { intros r c b s2 Hj <-. unfold finish. cbn [job set_mem log]. destruct (job s); [|done]. cbn. split_and!; try done.
      intros id' t' r' b' [H|H%elem_of_list_singleton]%elem_of_app; [eauto|done]. }
    unfold pending in Hs. destruct (job s) as [o|] eqn:Ej; [|by rewrite Hb in Hs].
    destruct o; destruct (decide _); try done; injection Hs as Hs; by eapply Hf.
  - unfold pending in Hs. destruct (job s) as [o|] eqn:Ej; [|by rewrite Hb in Hs]. injection Hs as <-. unfold finish. cbn [job set_mem log].
    rewrite Ej. cbn. split_and!; try done. intros id' t' r' b' [H|H%elem_of_list_singleton]%elem_of_app; [eauto|done].
  - rewrite He in Hs. destruct (posted s); [|done]. destruct (freed s); [done|]. apply callback_inv in Hs as (id & Hc & ->). cbn in *. rewrite Hb.
    split_and!; try done. intros id' t' r' H. injection H as _ _ <-. done.
  - rewrite Hq in Hs. done.
  - rewrite Hq in Hs. done.
  - destruct (call s) as [[[id t] [|r]]|] eqn:Ec; [done| |done]. injection Hs as <-. cbn. split_and!; try done.
    intros id' t' r' b' [H|H%elem_of_list_singleton]%elem_of_app; [eauto|]. injection H as -> -> -> ->. eauto.
  - destruct (call s) eqn:Ec; [done|]. destruct (freed s); [done|]. destruct p; injection Hs as <-; cbn; rewrite ?Ec; split_and!; try done;
      intros id' t' r' b' [H|H%elem_of_list_singleton]%elem_of_app; eauto; done.
  - destruct (call s) eqn:Ec; [done|]. destruct (freed s); [done|]. injection Hs as <-. cbn. done.
Qed.
Theorem C77_darwin_refuted : (forall c0 s id t r b, reachable (step true) (init c0) s -> HRet id t r b ∈ hist s -> r = -1) /\
  exists s os, run (step true) (init [1;2;3]) [Call 1 (ORd 2) true; Exec 2; Poll; Resume] = Ok s os /\
    hist s = [HCall 0 1 (ORd 2) 0 true; HExec 0 2 [1;2;3] [1;2;3]; HRet 0 1 (-1) [1;2]].
Proof.
  split.
  - intros c0 s id t r b H Hi. destruct (darwin_inv _ _ H) as (_ & _ & _ & Hr & _). eauto.
  - eexists _, _. split; [vm_compute; reflexivity|]. vm_compute. reflexivity.
Qed.
(** read two bytes, write two at the position, fail, seek back, read four *)
Theorem C77_example : exists s os, run (step false) (init [1;2;3])
  [Call 1 (ORd 2) true; Exec 2; Poll; Ready; Resume; Call 2 (OWr [7;8]) true; Exec 2; Poll; Ready; Resume; Call 1 (ORd 1) true; Fail 5; Poll; Ready; Resume;
   Seek seekBegin 1; Call 1 (ORd 9) true; Exec 3; Poll; Ready; Resume; Close] = Ok s os /\
  (forall id t r b, HRet id t r b ∈ hist s <-> HRet id t r b ∈ [HRet 0 1 2 [1;2]; HRet 1 2 2 []; HRet 2 1 (-1) []; HRet 3 1 3 [2;7;8]]) /\
  cont s = [1;2;7;8] /\ off s = 4.
Proof.
  eexists _, _. split; [vm_compute; reflexivity|]. cbn [hist cont off]. split_and!; try (vm_compute; reflexivity).
  intros id t r b. rewrite !elem_of_cons, elem_of_nil. split; intros H; repeat (destruct H as [H|H]; [try done; tauto|]); done.
Qed.
