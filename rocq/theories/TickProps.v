(** C85: the ticks of a selector.  Model: TickModel.v *)
From Verif Require Import TickModel.
From Coq Require Import Lia.
Local Open Scope Z_scope.

(** ** Specification *)

(** The ticks called, in order. *)
Definition calls (os : list tout) : list nat :=
  omap (fun o => match o with OCall t _ => Some t | _ => None end) os.
(** The ticks registered, in order. *)
Definition regs (es : list tev) : list nat :=
  omap (fun e => match e with EReg true t => Some t | _ => None end) es.
(** The values the callbacks return. *)
Definition rets (es : list tev) : list Z :=
  omap (fun e => match e with EReturn r => Some r | _ => None end) es.
(** Events of one pass: no other pass begins or ends. *)
Definition within (e : tev) : Prop :=
  match e with EBegin _ | EEnd => False | _ => True end.

(** What a user must keep to: only ticks which exist are used, a tick is not
    registered while it is, and a callback does not close the tick which is
    after its own. *)
Definition proper (s : tst) (e : tev) : Prop :=
  match e with
  | EReg true t => t ∈ alive s /\ t ∉ ticks s
  | EClose true t => t ∈ alive s /\ (forall u nx, ph s = PIn u nx -> nx <> Some t)
  | _ => True
  end.
Fixpoint all_proper (s : tst) (es : list tev) : Prop :=
  match es with
  | [] => True
  | e :: es' => proper s e /\ (forall s1 o1, tstep s e = Ok s1 o1 -> all_proper s1 es')
  end.

(** ** Lists *)
Lemma from_in c l : c ∈ l -> exists pre post, l = pre ++ c :: post /\ from c l = c :: post /\ c ∉ pre.
Proof.
  induction l as [|y l IH]; [by intros ?%elem_of_nil|].
  intros H. cbn [from]. destruct (decide (y = c)) as [->|Hne].
  - exists [], l. split; [done|]. split; [done|]. apply not_elem_of_nil.
  - apply elem_of_cons in H as [->|H]; [done|]. destruct (IH H) as (pre & post & -> & Hf & Hn).
    exists (y :: pre), post. split; [done|]. split; [done|]. rewrite elem_of_cons. intros [->|?]; done.
Qed.
Lemma from_notin c l : c ∉ l -> from c l = [].
Proof.
  induction l as [|y l IH]; [done|]. rewrite not_elem_of_cons. intros [H1 H2]. cbn [from].
  rewrite decide_False by congruence. auto.
Qed.
Lemma from_sub c l x : x ∈ from c l -> x ∈ l.
Proof.
  destruct (decide (c ∈ l)) as [H|H].
  - destruct (from_in c l H) as (pre & post & -> & -> & _). rewrite elem_of_app. tauto.
  - rewrite from_notin by done. by intros ?%elem_of_nil.
Qed.
Lemma from_app c l l2 : c ∈ l -> from c (l ++ l2) = from c l ++ l2.
Proof.
  induction l as [|y l IH]; [by intros ?%elem_of_nil|]. rewrite elem_of_cons. cbn [app from].
  destruct (decide (y = c)) as [->|Hne]; [done|]. intros [->|H]; [done|]. auto.
Qed.
Lemma from_head c l : c ∈ l -> head (from c l) = Some c.
Proof. intros H. destruct (from_in c l H) as (pre & post & _ & -> & _). done. Qed.
Lemma from_self l c : head l = Some c -> from c l = l.
Proof. destruct l as [|y l]; [done|]. cbn. intros [= ->]. by rewrite decide_True. Qed.
Lemma from_next c l x : NoDup l -> c ∈ l -> next_of c l = Some x -> from c l = c :: from x l /\ x ∈ l.
Proof.
  intros Hn Hc Hx. unfold next_of in Hx. destruct (from_in c l Hc) as (pre & post & E & Ef & Hp).
  rewrite Ef in Hx |- *. cbn in Hx. destruct post as [|y post]; [done|]. cbn in Hx. injection Hx as ->.
  assert (Hxl : x ∈ l). { rewrite E, elem_of_app. right. apply elem_of_list_further, elem_of_list_here. }
  split; [|done]. f_equal. rewrite E. rewrite E in Hn.
  apply NoDup_app in Hn as (_ & Hd & Hn2). apply NoDup_cons in Hn2 as [Hcx _].
  assert (Hxp : x ∉ pre). { intros H. apply (Hd _ H). apply elem_of_list_further, elem_of_list_here. }
  clear -Hxp Hcx. induction pre as [|z pre IH]; cbn [app from].
  - rewrite decide_False by (intros ->; apply Hcx, elem_of_list_here). by rewrite decide_True.
  - apply not_elem_of_cons in Hxp as [H1 H2]. rewrite decide_False by congruence. by apply IH.
Qed.
Lemma from_last c l : c ∈ l -> next_of c l = None -> from c l = [c].
Proof.
  intros Hc Hx. unfold next_of in Hx. destruct (from_in c l Hc) as (pre & post & E & Ef & Hp).
  rewrite Ef in Hx |- *. destruct post; done.
Qed.
Lemma unlink_in c l x : NoDup l -> x ∈ unlink c l <-> x ∈ l /\ x <> c.
Proof.
  induction l as [|y l IH]; intros Hn; cbn [unlink].
  - rewrite elem_of_nil. tauto.
  - apply NoDup_cons in Hn as [H1 H2]. specialize (IH H2). destruct (decide (y = c)) as [->|Hne].
    + rewrite elem_of_cons. split.
      * intros H. split; [auto|]. intros ->. done.
      * intros [[->|H] Hx]; done.
    + rewrite !elem_of_cons, IH. split; [|tauto]. intros [->|[? ?]]; auto.
Qed.
Lemma unlink_nodup c l : NoDup l -> NoDup (unlink c l).
Proof.
  induction l as [|y l IH]; intros Hn; cbn [unlink]; [done|].
  pose proof Hn as Hn0. apply NoDup_cons in Hn as [H1 H2]. destruct (decide (y = c)); [done|].
  apply NoDup_cons. split; [|auto]. rewrite unlink_in by done. tauto.
Qed.
Lemma unlink_from c x l : NoDup l -> c <> x -> from x (unlink c l) = unlink c (from x l).
Proof.
  intros Hn Hne. induction l as [|y l IH]; cbn [unlink from]; [done|].
  apply NoDup_cons in Hn as [H1 H2]. specialize (IH H2).
  destruct (decide (y = c)) as [->|Hy].
  - rewrite decide_False by done.
    destruct (decide (c ∈ from x l)) as [Hc|Hc]; [by apply from_sub in Hc|].
    clear -Hc. revert Hc. generalize (from x l). intros k. induction k as [|z k IH]; [done|].
    rewrite not_elem_of_cons. intros [H1 H2]. cbn [unlink]. rewrite decide_False by congruence. f_equal. auto.
  - cbn [from]. destruct (decide (y = x)) as [->|Hx].
    + cbn [unlink]. by rewrite decide_False by congruence.
    + done.
Qed.
Lemma unlink_sublist c l : unlink c l `sublist_of` l.
Proof.
  induction l as [|y l IH]; cbn [unlink]; [done|]. destruct (decide (y = c)); [by constructor|by constructor].
Qed.

Lemma sublist_in (l k : list nat) x : l `sublist_of` k -> x ∈ l -> x ∈ k.
Proof.
  intros H. induction H as [|y l k H IH|y l k H IH]; [done| |]; rewrite ?elem_of_cons; tauto.
Qed.
Lemma sublist_NoDup (l k : list nat) : NoDup k -> l `sublist_of` k -> NoDup l.
Proof.
  intros Hn H. induction H as [|x l k H IH|x l k H IH]; [done| |].
  - apply NoDup_cons in Hn as [H1 H2]. apply NoDup_cons. split; [|auto]. intros Hx. apply H1. by eapply sublist_in.
  - apply NoDup_cons in Hn as [H1 H2]. auto.
Qed.

(** ** Invariant *)
Record TI (s : tst) : Prop := {
  ti_nd : NoDup (ticks s);
  ti_sub : forall t, t ∈ ticks s -> t ∈ alive s;
  ti_nid : forall t, t ∈ alive s -> (t < nid s)%nat;
  ti_cur : forall c, (ph s = PAt (Some c) \/ exists t, ph s = PIn t (Some c)) ->
             (c < nid s)%nat /\ (c ∈ alive s -> c ∈ ticks s);
  ti_in : forall t nx, ph s = PIn t nx -> (t < nid s)%nat;
  ti_min : 0 < tmin s <= SELECTOR_TMO
}.

Lemma TI_init : TI tinit.
Proof.
  split; cbn.
  - constructor.
  - intros ? ?%elem_of_nil. done.
  - intros ? ?%elem_of_nil. done.
  - intros c [?|[? ?]]; done.
  - done.
  - unfold SELECTOR_TMO. lia.
Qed.

Lemma TI_step s e s1 o1 : TI s -> tstep s e = Ok s1 o1 -> TI s1.
Proof.
  intros I E. destruct e as [|sel t|sel t|n| |r|]; cbn [tstep] in E.
  - destruct (user (ph s)) eqn:U; [|done]. injection E as <- _. split; cbn.
    + apply I.
    + intros t Ht. apply elem_of_list_further. by apply I.
    + intros t [->|Ht]%elem_of_cons; [lia|]. pose proof (ti_nid s I t Ht). lia.
    + intros c Hc. destruct (ti_cur s I c Hc) as [H1 H2]. split; [lia|].
      intros [->|Ht]%elem_of_cons; [lia|]. auto.
    + intros t nx Hp. pose proof (ti_in s I t nx Hp). lia.
    + apply I.
  - destruct (user (ph s)) eqn:U; [|done]. destruct sel; cbn [negb] in E; [|by injection E as <- _].
    case_bool_decide as Ha; cbn [negb] in E; [|done]. case_bool_decide as Ht; [done|]. injection E as <- _.
    split; cbn.
    + apply NoDup_app. split; [apply I|]. split; [|apply NoDup_singleton].
      intros x Hx ->%elem_of_list_singleton. done.
    + intros x [Hx|Hx]%elem_of_app; [by apply I|]. by apply elem_of_list_singleton in Hx as ->.
    + apply I.
    + intros c Hc. destruct (ti_cur s I c Hc) as [H1 H2]. split; [done|]. rewrite elem_of_app. auto.
    + apply I.
    + apply I.
  - destruct (user (ph s)) eqn:U; [|done]. destruct sel; cbn [negb] in E; [|by injection E as <- _].
    case_bool_decide as Ha; cbn [negb] in E; [|done]. injection E as <- _. split; cbn.
    + apply unlink_nodup, I.
    + intros x. rewrite unlink_in by apply I. intros [Hx Hne]. apply elem_of_list_filter. split; [done|]. by apply I.
    + intros x [_ Hx]%elem_of_list_filter. by apply I.
    + intros c Hc. destruct (ti_cur s I c Hc) as [H1 H2]. split; [done|].
      intros [Hne Hx]%elem_of_list_filter. apply unlink_in; [apply I|]. auto.
    + apply I.
    + apply I.
  - destruct (ph s) as [| |] eqn:P; [|done|done]. injection E as <- _. split; cbn; try apply I.
    + intros c [Hc|[? ?]]; [|done]. injection Hc as Hc.
      assert (Hin : c ∈ ticks s). { destruct (ticks s) as [|y l]; [done|]. injection Hc as ->. apply elem_of_list_here. }
      split; [|done]. by apply I, I.
    + done.
    + unfold SELECTOR_TMO. lia.
  - destruct (ph s) as [|[t|]|] eqn:P; try done. case_bool_decide as Ha; [|done]. injection E as <- _.
    destruct (ti_cur s I t (or_introl P)) as [Ht Hin]. specialize (Hin Ha). split; cbn; try apply I.
    + intros c [?|[u Hu]]; [done|]. injection Hu as -> Hc.
      destruct (from_next u (ticks s) c (ti_nd s I) Hin Hc) as [_ Hcl]. split; [|done]. by apply I, I.
    + intros u nx [= -> _]. done.
  - destruct (ph s) as [| |t nx] eqn:P; try done. injection E as <- _. split; cbn; try apply I.
    + intros c [Hc|[? ?]]; [|done]. injection Hc as ->. apply (ti_cur s I c). right. eauto.
    + done.
    + destruct (0 <? r) eqn:E1; cbn [andb]; [|apply I]. destruct (r <? tmin s) eqn:E2; [|apply I].
      apply Z.ltb_lt in E1, E2. pose proof (ti_min s I). lia.
  - destruct (ph s) as [|[t|]|] eqn:P; try done. injection E as <- _. split; cbn; try apply I.
    + intros c [?|[? ?]]; done.
    + done.
Qed.

Lemma TI_run es : forall s s1 os, TI s -> trun s es = Ok s1 os -> TI s1.
Proof.
  induction es as [|e es IH]; intros s s1 os I E; cbn [trun] in E; [by injection E as <- _|].
  destruct (tstep s e) as [s2 o2| |] eqn:E1; try done.
  destruct (trun s2 es) as [s3 o3| |] eqn:E2; try done. injection E as <- _.
  eapply IH; [|exact E2]. by eapply TI_step.
Qed.
Lemma TI_reach s : treach s -> TI s.
Proof. intros (es & os & E). eapply TI_run; [apply TI_init|exact E]. Qed.

(** ** Ticks which are closed or linked are not registered again *)
Definition used (t : nat) (s : tst) : Prop := (t < nid s)%nat /\ (t ∈ ticks s \/ t ∉ alive s).
Lemma used_step t s e s1 o1 : TI s -> used t s -> tstep s e = Ok s1 o1 -> used t s1 /\ e <> EReg true t.
Proof.
  intros I [U1 U2] E. destruct e as [|sel u|sel u|n| |r|]; cbn [tstep] in E.
  - destruct (user (ph s)); [|done]. injection E as <- _. split; [|done]. split; cbn; [lia|].
    destruct U2 as [?|U2]; [auto|]. right. rewrite elem_of_cons. intros [->|?]; [lia|done].
  - destruct (user (ph s)); [|done]. destruct sel; cbn [negb] in E; [|injection E as <- _; done].
    case_bool_decide as Ha; cbn [negb] in E; [|done]. case_bool_decide as Ht; [done|]. injection E as <- _.
    split.
    + split; cbn; [done|]. rewrite elem_of_app. tauto.
    + intros [= ->]. tauto.
  - destruct (user (ph s)); [|done]. destruct sel; cbn [negb] in E; [|injection E as <- _; done].
    case_bool_decide as Ha; cbn [negb] in E; [|done]. injection E as <- _. split; [|done]. split; cbn; [done|].
    rewrite unlink_in by apply I. rewrite elem_of_list_filter. destruct (decide (t = u)); tauto.
  - destruct (ph s); try done. injection E as <- _. done.
  - destruct (ph s) as [|[c|]|]; try done. case_bool_decide; [|done]. injection E as <- _. done.
  - destruct (ph s); try done. injection E as <- _. done.
  - destruct (ph s) as [|[c|]|]; try done. injection E as <- _. done.
Qed.
Lemma used_run es : forall t s s1 os, TI s -> used t s -> trun s es = Ok s1 os -> t ∉ regs es.
Proof.
  induction es as [|e es IH]; intros t s s1 os I U E; cbn [trun] in E; [by apply not_elem_of_nil|].
  destruct (tstep s e) as [s2 o2| |] eqn:E1; try done.
  destruct (trun s2 es) as [s3 o3| |] eqn:E2; try done.
  destruct (used_step _ _ _ _ _ I U E1) as [U2 Hne].
  assert (IH2 := IH t s2 _ _ (TI_step _ _ _ _ I E1) U2 E2).
  unfold regs in *. destruct e as [|[] u|sel u|n| |r|]; cbn [omap list_omap]; try exact IH2.
  rewrite not_elem_of_cons. split; [congruence|exact IH2].
Qed.
Lemma reg_used s t s1 o1 : TI s -> tstep s (EReg true t) = Ok s1 o1 -> used t s1.
Proof.
  intros I E. cbn [tstep] in E. destruct (user (ph s)); [|done]. cbn [negb] in E.
  case_bool_decide as Ha; cbn [negb] in E; [|done]. case_bool_decide as Ht; [done|]. injection E as <- _.
  split; cbn; [by apply I|]. left. rewrite elem_of_app, elem_of_list_singleton. auto.
Qed.
Lemma regs_nodup es : forall s s1 os, TI s -> trun s es = Ok s1 os -> NoDup (regs es).
Proof.
  induction es as [|e es IH]; intros s s1 os I E; cbn [trun] in E; [by apply NoDup_nil|].
  destruct (tstep s e) as [s2 o2| |] eqn:E1; try done.
  destruct (trun s2 es) as [s3 o3| |] eqn:E2; try done.
  pose proof (TI_step _ _ _ _ I E1) as I2.
  assert (IH2 := IH s2 _ _ I2 E2). unfold regs in *.
  destruct e as [|[] u|sel u|n| |r|]; cbn [omap list_omap]; try exact IH2.
  apply NoDup_cons. split; [|exact IH2]. eapply used_run; [exact I2| |exact E2]. exact (reg_used _ _ _ _ I E1).
Qed.

(** ** A closed tick is not called again *)
Lemma dead_step t s e s1 o1 : (t < nid s)%nat -> t ∉ alive s -> tstep s e = Ok s1 o1 ->
  (t < nid s1)%nat /\ t ∉ alive s1 /\ t ∉ calls o1.
Proof.
  intros U1 U2 E. destruct e as [|sel u|sel u|n| |r|]; cbn [tstep] in E.
  - destruct (user (ph s)); [|done]. injection E as <- <-. cbn. split; [lia|]. split; [|by intros ?%elem_of_nil].
    rewrite elem_of_cons. intros [->|?]; [lia|done].
  - destruct (user (ph s)); [|done]. destruct sel; cbn [negb] in E; [|injection E as <- <-; split; [done|split; [done|by intros ?%elem_of_nil]]].
    case_bool_decide as Ha; cbn [negb] in E; [|done]. case_bool_decide as Ht; [done|]. injection E as <- <-.
    split; [done|split; [done|by intros ?%elem_of_nil]].
  - destruct (user (ph s)); [|done]. destruct sel; cbn [negb] in E; [|injection E as <- <-; split; [done|split; [done|by intros ?%elem_of_nil]]].
    case_bool_decide as Ha; cbn [negb] in E; [|done]. injection E as <- <-. cbn.
    split; [done|]. split; [|by intros ?%elem_of_nil]. rewrite elem_of_list_filter. tauto.
  - destruct (ph s); try done. injection E as <- <-. split; [done|split; [done|by intros ?%elem_of_nil]].
  - destruct (ph s) as [|[c|]|]; try done. case_bool_decide; [|done]. injection E as <- <-.
    split; [done|split; [done|]]. cbn. rewrite elem_of_list_singleton. congruence.
  - destruct (ph s); try done. injection E as <- <-. split; [done|split; [done|by intros ?%elem_of_nil]].
  - destruct (ph s) as [|[c|]|]; try done. injection E as <- <-. split; [done|split; [done|by intros ?%elem_of_nil]].
Qed.
Lemma calls_app a b : calls (a ++ b) = calls a ++ calls b.
Proof. unfold calls. induction a as [|[] a IH]; cbn [app omap list_omap]; try done. cbn. by f_equal. Qed.
Lemma dead_run es : forall t s s1 os, (t < nid s)%nat -> t ∉ alive s -> trun s es = Ok s1 os -> t ∉ calls os.
Proof.
  induction es as [|e es IH]; intros t s s1 os U1 U2 E; cbn [trun] in E; [injection E as _ <-; apply not_elem_of_nil|].
  destruct (tstep s e) as [s2 o2| |] eqn:E1; try done.
  destruct (trun s2 es) as [s3 o3| |] eqn:E2; try done. injection E as _ <-.
  destruct (dead_step _ _ _ _ _ U1 U2 E1) as (D1 & D2 & D3).
  rewrite calls_app, elem_of_app. intros [?|?]; [done|]. by eapply IH.
Qed.

(** ** What is still to be called in a pass *)
Definition pend (s : tst) : list nat :=
  match ph s with
  | PAt (Some c) | PIn _ (Some c) => from c (ticks s)
  | _ => []
  end.
Definition cursor (s : tst) : option nat :=
  match ph s with PAt c => c | PIn _ c => c | PIdle => None end.
Definition lost (s : tst) : Prop := exists c, cursor s = Some c /\ c ∉ alive s.

Lemma cursor_lt s c : TI s -> cursor s = Some c -> (c < nid s)%nat /\ (c ∈ alive s -> c ∈ ticks s).
Proof.
  intros I H. apply (ti_cur s I c). unfold cursor in H. destruct (ph s) as [|x|t x]; [done| |]; subst x; eauto.
Qed.

Lemma lost_step s e s1 o1 : TI s -> lost s -> within e -> tstep s e = Ok s1 o1 -> lost s1.
Proof.
  intros I (c & Hc & Hd) W E. destruct (cursor_lt s c I Hc) as [Hlt _].
  assert (D := dead_step c s e s1 o1 Hlt Hd E). destruct D as (_ & D & _). exists c. split; [|done].
  unfold cursor in Hc |- *. destruct e as [|sel u|sel u|n| |r|]; cbn [tstep] in E; try done.
  - destruct (user (ph s)); [|done]. injection E as <- _. exact Hc.
  - destruct (user (ph s)); [|done]. destruct sel; cbn [negb] in E; [|injection E as <- <-; exact Hc].
    case_bool_decide as Ha; cbn [negb] in E; [|done]. case_bool_decide as Ht; [done|]. injection E as <- <-. exact Hc.
  - destruct (user (ph s)); [|done]. destruct sel; cbn [negb] in E; [|injection E as <- <-; exact Hc].
    case_bool_decide as Ha; cbn [negb] in E; [|done]. injection E as <- <-. exact Hc.
  - destruct (ph s) as [|[x|]|]; try done. case_bool_decide; [|done]. injection Hc as ->. done.
  - destruct (ph s) as [|?|t x]; try done. injection E as <- _. exact Hc.
Qed.
Lemma lost_run es : forall s s1 os, TI s -> lost s -> Forall within es -> trun s es = Ok s1 os -> lost s1.
Proof.
  induction es as [|e es IH]; intros s s1 os I L W E; cbn [trun] in E; [by injection E as <- _|].
  destruct (tstep s e) as [s2 o2| |] eqn:E1; try done.
  destruct (trun s2 es) as [s3 o3| |] eqn:E2; try done. injection E as <- _.
  apply Forall_cons in W as [W1 W2].
  eapply IH; [by eapply TI_step|by eapply lost_step|exact W2|exact E2].
Qed.

(** One event and what is to be called. *)
Definition reg1 (e : tev) : list nat := match e with EReg true t => [t] | _ => [] end.
Lemma regs_cons e es : regs (e :: es) = reg1 e ++ regs es.
Proof. destruct e as [|[]|[]| | | |]; done. Qed.

Lemma pend_step s e s1 o1 : TI s -> within e -> tstep s e = Ok s1 o1 -> ~ lost s1 ->
  (exists rest, (rest = [] \/ rest = reg1 e) /\ calls o1 ++ pend s1 `sublist_of` pend s ++ rest)
  /\ (forall t, t ∈ pend s -> e <> EClose true t -> t ∈ calls o1 ++ pend s1)
  /\ (cursor s <> None -> forall t, e = EReg true t -> t ∈ pend s1).
Proof.
  intros I W E NL. destruct e as [|sel u|sel u|n| |r|]; cbn [tstep] in E; try done.
  - destruct (user (ph s)); [|done]. injection E as <- <-. cbn [calls omap list_omap app].
    change (pend (TS (ticks s) (nid s :: alive s) (S (nid s)) (ph s) (evn s) (tmin s))) with (pend s).
    split; [exists []; split; [auto|by rewrite app_nil_r]|]. split; [auto|done].
  - destruct (user (ph s)) eqn:U; [|done]. destruct sel; cbn [negb] in E.
    2:{ injection E as <- <-. split; [exists []; split; [auto|by rewrite app_nil_r]|]. split; [auto|done]. }
    case_bool_decide as Ha; cbn [negb] in E; [|done]. case_bool_decide as Ht; [done|]. injection E as <- <-.
    cbn [calls omap list_omap app reg1].
    unfold pend. cbn [ph ticks].
    destruct (cursor s) as [c|] eqn:C.
    + assert (Hc : c ∈ ticks s).
      { destruct (cursor_lt s c I C) as [_ Hc]. apply Hc. destruct (decide (c ∈ alive s)); [done|].
        destruct NL. exists c. split; [exact C|done]. }
      unfold cursor in C. destruct (ph s) as [|x|t x]; [done|done|]. subst x.
      rewrite from_app by done. split; [exists [u]; split; [auto|done]|].
      split; [intros; rewrite elem_of_app; auto|]. intros _ ? [= <-]. rewrite elem_of_app, elem_of_list_singleton. auto.
    + unfold cursor in C. destruct (ph s) as [|x|t x]; [|done|subst x].
      * split; [exists []; split; [auto|done]|]. split; [done|]. done.
      * split; [exists []; split; [auto|done]|]. split; [done|]. done.
  - destruct (user (ph s)) eqn:U; [|done]. destruct sel; cbn [negb] in E.
    2:{ injection E as <- <-. split; [exists []; split; [auto|by rewrite app_nil_r]|]. split; [auto|done]. }
    case_bool_decide as Ha; cbn [negb] in E; [|done]. injection E as <- <-.
    cbn [calls omap list_omap app reg1]. unfold pend. cbn [ph ticks].
    split; [|split; [|done]].
    + exists []. split; [auto|]. rewrite app_nil_r.
      destruct (cursor s) as [c|] eqn:C.
      * assert (Hne : u <> c).
        { intros ->. apply NL. exists c. split; [exact C|]. cbn. rewrite elem_of_list_filter. tauto. }
        unfold cursor in C. destruct (ph s) as [|x|t x]; [done|done|]. subst x.
        rewrite unlink_from by (done || apply I). apply unlink_sublist.
      * unfold cursor in C. destruct (ph s) as [|x|t x]; [done|done|]. by subst x.
    + intros t Hin Hne0. assert (Hne : t <> u) by congruence.
      destruct (cursor s) as [c|] eqn:C.
      * assert (Huc : u <> c).
        { intros ->. apply NL. exists c. split; [exact C|]. cbn. rewrite elem_of_list_filter. tauto. }
        unfold cursor in C. destruct (ph s) as [|x|v x]; [done|done|]. subst x.
        rewrite unlink_from by (done || apply I).
        destruct (decide (c ∈ ticks s)) as [Hc|Hc]; [|by rewrite from_notin in Hin by done; apply elem_of_nil in Hin].
        apply unlink_in; [|done]. destruct (from_in c (ticks s) Hc) as (pre & post & Ee & -> & _).
        pose proof (ti_nd s I) as Hnd. rewrite Ee in Hnd. apply NoDup_app in Hnd as (_ & _ & ?). done.
      * unfold cursor in C. destruct (ph s) as [|x|v x]; [done|done|]. subst x. done.
  - destruct (ph s) as [|[c|]|] eqn:P; try done. case_bool_decide as Ha; [|done]. injection E as <- <-.
    destruct (ti_cur s I c (or_introl P)) as [_ Hin]. specialize (Hin Ha).
    assert (Hp : pend s = [c] ++ pend (TS (ticks s) (alive s) (nid s) (PIn c (next_of c (ticks s))) (evn s) (tmin s))).
    { unfold pend. rewrite P. cbn [ph ticks]. destruct (next_of c (ticks s)) as [x|] eqn:N.
      - destruct (from_next _ _ _ (ti_nd s I) Hin N) as [-> _]. done.
      - by rewrite (from_last _ _ Hin N). }
    cbn [calls omap list_omap reg1]. split; [exists []; split; [auto|rewrite app_nil_r, Hp; done]|].
    split; [|done]. intros t Ht _. by rewrite Hp in Ht.
  - destruct (ph s) as [|?|t x] eqn:P; try done. injection E as <- <-. cbn [calls omap list_omap app reg1].
    assert (Hp : pend (TS (ticks s) (alive s) (nid s) (PAt x) (evn s) (if (0 <? r) && (r <? tmin s) then r else tmin s)) = pend s).
    { unfold pend. rewrite P. done. }
    rewrite Hp. split; [exists []; split; [auto|by rewrite app_nil_r]|]. split; [auto|done].
Qed.

Lemma not_lost s : ph s = PAt None -> ~ lost s.
Proof. intros P (c & Hc & _). unfold cursor in Hc. by rewrite P in Hc. Qed.

Lemma pend_run es : forall s s1 os, TI s -> Forall within es -> trun s es = Ok s1 os -> ph s1 = PAt None ->
  calls os `sublist_of` pend s ++ regs es
  /\ (forall t, t ∈ pend s -> EClose true t ∉ es -> t ∈ calls os).
Proof.
  induction es as [|e es IH]; intros s s1 os I W E P; cbn [trun] in E.
  - injection E as -> <-. unfold pend. rewrite P. split; [done|]. intros t ?%elem_of_nil. done.
  - destruct (tstep s e) as [s2 o2| |] eqn:E1; try done.
    destruct (trun s2 es) as [s3 o3| |] eqn:E2; try done. injection E as -> <-.
    apply Forall_cons in W as [W1 W2]. pose proof (TI_step _ _ _ _ I E1) as I2.
    assert (NL : ~ lost s2).
    { intros L. apply (not_lost s1 P). eapply lost_run; [exact I2|exact L|exact W2|exact E2]. }
    destruct (pend_step _ _ _ _ I W1 E1 NL) as ((rest & Hr & Hs) & Hp & _).
    destruct (IH _ _ _ I2 W2 E2 P) as [IH1 IH2]. rewrite calls_app, regs_cons. split.
    + transitivity (calls o2 ++ pend s2 ++ regs es).
      { by apply sublist_app. }
      rewrite (app_assoc (calls o2)). transitivity ((pend s ++ rest) ++ regs es).
      { by apply sublist_app. }
      rewrite <- app_assoc. apply sublist_app; [done|]. apply sublist_app; [|done].
      destruct Hr as [->| ->]; [apply sublist_nil_l|done].
    + intros t Ht Hc. rewrite not_elem_of_cons in Hc. destruct Hc as [Hc1 Hc2].
      specialize (Hp t Ht (fun H => Hc1 (eq_sym H))). rewrite elem_of_app in Hp |- *.
      destruct Hp as [?|Hp]; [auto|]. right. by apply IH2.
Qed.

(** ** Theorems *)

Lemma trun_app es1 : forall s es2, trun s (es1 ++ es2) =
  match trun s es1 with
  | Ok s1 o1 => match trun s1 es2 with Ok s2 o2 => Ok s2 (o1 ++ o2) | r => r end
  | r => r
  end.
Proof.
  induction es1 as [|e es IH]; intros s es2; cbn [app trun].
  - destruct (trun s es2); done.
  - destruct (tstep s e) as [s1 o1| |]; [|done|done]. rewrite IH. destruct (trun s1 es) as [s2 o2| |]; [|done|done].
    destruct (trun s2 es2); [|done|done]. by rewrite app_assoc.
Qed.

(** A pass, whatever the callbacks do: a tick registered when it begins and
    not closed in it is called, nothing is called twice, the order is that
    of registration, and only registered ticks are called. *)
Theorem C85_pass s n es s1 os :
  treach s -> Forall within es -> trun s (EBegin n :: es ++ [EEnd]) = Ok s1 os ->
  (forall t, t ∈ ticks s -> EClose true t ∉ es -> t ∈ calls os)
  /\ NoDup (calls os)
  /\ calls os `sublist_of` ticks s ++ regs es.
Proof.
  intros R W E. pose proof (TI_reach s R) as I. cbn [trun] in E.
  destruct (tstep s (EBegin n)) as [s2 o2| |] eqn:E1; try done.
  pose proof (TI_step _ _ _ _ I E1) as I2. rewrite trun_app in E.
  destruct (trun s2 es) as [s3 o3| |] eqn:E2; try done.
  cbn [trun] in E. destruct (tstep s3 EEnd) as [s4 o4| |] eqn:E3; try done. injection E as <- <-.
  assert (P : ph s3 = PAt None) by (cbn [tstep] in E3; destruct (ph s3) as [|[|]|]; done).
  assert (C4 : calls o4 = []) by (cbn [tstep] in E3; rewrite P in E3; by injection E3 as _ <-).
  assert (Hb : o2 = [] /\ pend s2 = ticks s /\ ticks s2 = ticks s).
  { cbn [tstep] in E1. destruct (ph s); try done. injection E1 as <- <-. split; [done|]. split; [|done].
    unfold pend. cbn [ph ticks]. destruct (head (ticks s)) as [c|] eqn:Hh; [by apply from_self|].
    destruct (ticks s); done. }
  destruct Hb as (-> & Hp & Ht2). cbn [app]. rewrite app_nil_r, calls_app, C4, app_nil_r.
  destruct (pend_run es s2 s3 o3 I2 W E2 P) as [A B]. rewrite Hp in A, B. split; [exact B|].
  split; [|exact A]. eapply sublist_NoDup; [|exact A]. apply NoDup_app. split; [apply I|].
  split; [|by eapply regs_nodup]. intros t Ht. eapply used_run; [exact I2| |exact E2]. rewrite <- Ht2 in Ht.
  split; [by apply I2, I2|by left].
Qed.

(** A tick closed, at any time, is never called again: not in the same pass,
    not in a later one. *)
Theorem C85_closed s es1 t es2 s1 os :
  treach s -> trun s (es1 ++ EClose true t :: es2) = Ok s1 os ->
  exists os1 os2, os = os1 ++ os2 /\ t ∉ calls os2 /\ exists s2, trun s (es1 ++ [EClose true t]) = Ok s2 os1.
Proof.
  intros R E. pose proof (TI_reach s R) as I. rewrite trun_app in E.
  destruct (trun s es1) as [s2 o2| |] eqn:E1; try done.
  pose proof (TI_run _ _ _ _ I E1) as I2. cbn [trun] in E.
  destruct (tstep s2 (EClose true t)) as [s3 o3| |] eqn:E2; try done.
  destruct (trun s3 es2) as [s4 o4| |] eqn:E3; try done. injection E as <- <-.
  exists (o2 ++ o3), o4. split; [by rewrite app_assoc|]. split.
  - assert (D : (t < nid s3)%nat /\ t ∉ alive s3).
    { cbn [tstep] in E2. destruct (user (ph s2)); [|done]. cbn [negb] in E2.
      case_bool_decide as Ha; cbn [negb] in E2; [|done]. injection E2 as <- _. cbn.
      split; [by apply I2|]. rewrite elem_of_list_filter. tauto. }
    eapply dead_run; [apply D|apply D|exact E3].
  - exists s3. rewrite trun_app, E1. cbn [trun]. rewrite E2. by rewrite app_nil_r.
Qed.

(** A tick registered by a callback which is not the last of the list is
    called in the same pass. *)
Theorem C85_register_same_pass s u x t es s1 os :
  treach s -> ph s = PIn u (Some x) -> Forall within es -> EClose true t ∉ es ->
  trun s (EReg true t :: es) = Ok s1 os -> ph s1 = PAt None -> t ∈ calls os.
Proof.
  intros R P W Hc E P1. pose proof (TI_reach s R) as I. cbn [trun] in E.
  destruct (tstep s (EReg true t)) as [s2 o2| |] eqn:E1; try done.
  destruct (trun s2 es) as [s3 o3| |] eqn:E2; try done. injection E as -> <-.
  pose proof (TI_step _ _ _ _ I E1) as I2.
  assert (NL : ~ lost s2).
  { intros L. apply (not_lost s1 P1). eapply lost_run; [exact I2|exact L|exact W|exact E2]. }
  destruct (pend_step s (EReg true t) s2 o2 I Logic.I E1 NL) as (_ & _ & Hp).
  destruct (pend_run es s2 s1 o3 I2 W E2 P1) as [_ B]. rewrite calls_app, elem_of_app. right. apply B; [|done].
  apply Hp; [|done]. unfold cursor. by rewrite P.
Qed.

(** One registered by the last tick's callback is called in the next pass
    only. *)
Theorem C85_register_next_pass s u t es s1 os :
  treach s -> ph s = PIn u None -> Forall within es ->
  trun s (EReg true t :: es) = Ok s1 os -> ph s1 = PAt None -> calls os = [].
Proof.
  intros R P W E P1. pose proof (TI_reach s R) as I. clear R.
  assert (G : forall es s s1 os, cursor s = None -> Forall within es -> trun s es = Ok s1 os -> calls os = []).
  { clear. induction es as [|e es IH]; intros s s1 os C W E; cbn [trun] in E; [by injection E as _ <-|].
    destruct (tstep s e) as [s2 o2| |] eqn:E1; try done.
    destruct (trun s2 es) as [s3 o3| |] eqn:E2; try done. injection E as -> <-.
    apply Forall_cons in W as [W1 W2].
    assert (H : cursor s2 = None /\ calls o2 = []).
    { unfold cursor in C |- *. destruct e as [|sel v|sel v|n| |r|]; cbn [tstep] in E1; try done.
      - destruct (user (ph s)); [|done]. by injection E1 as <- <-.
      - destruct (user (ph s)); [|done]. destruct sel; cbn [negb] in E1; [|by injection E1 as <- <-].
        case_bool_decide; cbn [negb] in E1; [|done]. case_bool_decide; [done|]. by injection E1 as <- <-.
      - destruct (user (ph s)); [|done]. destruct sel; cbn [negb] in E1; [|by injection E1 as <- <-].
        case_bool_decide; cbn [negb] in E1; [|done]. by injection E1 as <- <-.
      - destruct (ph s) as [|[c|]|]; done.
      - destruct (ph s) as [|?|v w]; try done. by injection E1 as <- <-. }
    destruct H as [H1 H2]. rewrite calls_app, H2. by eapply IH. }
  eapply (G (EReg true t :: es)); [|by constructor|exact E]. unfold cursor. by rewrite P.
Qed.

(** With users which keep to [proper] no run touches a freed tick. *)
Lemma proper_step s e s1 o1 : TI s -> ~ lost s -> proper s e -> tstep s e = Ok s1 o1 -> ~ lost s1.
Proof.
  intros I NL Pr E (c & Hc & Hd). destruct e as [|sel u|sel u|n| |r|]; cbn [tstep] in E.
  - destruct (user (ph s)); [|done]. injection E as <- _. apply NL. exists c. split; [exact Hc|].
    cbn in Hd. rewrite elem_of_cons in Hd. tauto.
  - destruct (user (ph s)); [|done]. destruct sel; cbn [negb] in E; [|injection E as <- _; apply NL; by exists c].
    case_bool_decide as Ha; cbn [negb] in E; [|done]. case_bool_decide as Ht; [done|]. injection E as <- _.
    apply NL. by exists c.
  - destruct (user (ph s)) eqn:U; [|done]. destruct sel; cbn [negb] in E; [|injection E as <- _; apply NL; by exists c].
    case_bool_decide as Ha; cbn [negb] in E; [|done]. injection E as <- _. cbn in Hd.
    destruct Pr as [_ Pr]. rewrite elem_of_list_filter in Hd.
    destruct (decide (c = u)) as [->|Hne].
    + unfold cursor in Hc. cbn [ph] in Hc. destruct (ph s) as [|x|v x]; [done|done|]. subst x. by eapply Pr.
    + apply NL. exists c. split; [exact Hc|]. tauto.
  - destruct (ph s); try done. injection E as <- _. cbn in Hc, Hd. apply Hd, I.
    destruct (ticks s) as [|y l]; [done|]. injection Hc as ->. apply elem_of_list_here.
  - destruct (ph s) as [|[t|]|] eqn:P; try done. case_bool_decide as Ha; [|done]. injection E as <- _.
    cbn in Hc, Hd. destruct (ti_cur s I t (or_introl P)) as [_ Hin].
    destruct (from_next t (ticks s) c (ti_nd s I) (Hin Ha) Hc) as [_ H]. by apply Hd, I.
  - destruct (ph s) as [|x|t x] eqn:P; try done. injection E as <- _. apply NL. exists c.
    split; [|exact Hd]. unfold cursor. by rewrite P.
  - destruct (ph s) as [|[t|]|]; try done. injection E as <- _. done.
Qed.
Theorem C85_no_use_after_free es : all_proper tinit es -> trun tinit es <> Crash.
Proof.
  assert (G : forall es s, TI s -> ~ lost s -> all_proper s es -> trun s es <> Crash).
  { clear es. induction es as [|e es IH]; intros s I NL Pr0 E; cbn [trun] in E; [done|]. destruct Pr0 as [Pr Ps].
    destruct (tstep s e) as [s2 o2| |] eqn:E1.
    - destruct (trun s2 es) as [s3 o3| |] eqn:E2; try done.
      eapply IH; [by eapply TI_step|by eapply proper_step|by eapply Ps|exact E2].
    - clear E. destruct e as [|sel u|sel u|n| |r|]; cbn [tstep] in E1.
      + destruct (user (ph s)); done.
      + destruct (user (ph s)); [|done]. destruct sel; cbn [negb] in E1; [|done]. destruct Pr as [P1 P2].
        rewrite bool_decide_eq_true_2 in E1 by done. cbn [negb] in E1.
        rewrite bool_decide_eq_false_2 in E1 by done. done.
      + destruct (user (ph s)); [|done]. destruct sel; cbn [negb] in E1; [|done]. destruct Pr as [P1 P2].
        rewrite bool_decide_eq_true_2 in E1 by done. done.
      + destruct (ph s); done.
      + destruct (ph s) as [|[c|]|] eqn:P; try done. case_bool_decide as Ha; [done|].
        apply NL. exists c. split; [unfold cursor; by rewrite P|done].
      + destruct (ph s); done.
      + destruct (ph s) as [|[c|]|]; done.
    - done. }
  intros H. apply G; [apply TI_init| |done]. intros (c & ? & _). done.
Qed.

(** Without the last clause of [proper] this is false, whatever the state:
    when a callback closes the tick after its own, the loop goes on into
    freed memory. *)
Theorem C85_close_next_refuted s u x r :
  treach s -> ph s = PIn u (Some x) -> x ∈ alive s ->
  trun s [EClose true x; EReturn r; ECall] = Crash.
Proof.
  intros R P Ha. cbn [trun tstep]. rewrite P. cbn [user negb]. rewrite bool_decide_eq_true_2 by done. cbn [negb].
  cbn [ph alive]. rewrite bool_decide_eq_false_2; [done|]. rewrite elem_of_list_filter. tauto.
Qed.
(** Closing one's own tick is all right. *)
Theorem C85_close_itself s u nx r :
  treach s -> ph s = PIn u nx -> u ∈ alive s -> nx <> Some u /\
  exists s1, trun s [EClose true u; EReturn r] = Ok s1 [OBool true] /\ ph s1 = PAt nx /\ u ∉ ticks s1
    /\ forall t, t ∈ ticks s -> t <> u -> t ∈ ticks s1.
Proof.
  intros R P Ha. pose proof (TI_reach s R) as I.
  assert (Hne : nx <> Some u).
  { intros ->. destruct R as (es & os & E).
    assert (G : forall es s s1 os, TI s -> (forall a, ph s <> PIn a (Some a) ) -> trun s es = Ok s1 os -> forall a, ph s1 <> PIn a (Some a)).
    { clear. induction es as [|e es IH]; intros s s1 os I N E; cbn [trun] in E; [by injection E as <- _|].
      destruct (tstep s e) as [s2 o2| |] eqn:E1; try done.
      destruct (trun s2 es) as [s3 o3| |] eqn:E2; try done. injection E as <- _.
      eapply IH; [by eapply TI_step| |exact E2]. clear IH E2 es. intros a.
      destruct e as [|sel v|sel v|n| |r|]; cbn [tstep] in E1.
      - destruct (user (ph s)); [|done]. injection E1 as <- _. apply N.
      - destruct (user (ph s)); [|done]. destruct sel; cbn [negb] in E1; [|injection E1 as <- _; apply N].
        case_bool_decide; cbn [negb] in E1; [|done]. case_bool_decide; [done|]. injection E1 as <- _. apply N.
      - destruct (user (ph s)); [|done]. destruct sel; cbn [negb] in E1; [|injection E1 as <- _; apply N].
        case_bool_decide; cbn [negb] in E1; [|done]. injection E1 as <- _. apply N.
      - destruct (ph s); try done. injection E1 as <- _. done.
      - destruct (ph s) as [|[c|]|] eqn:P; try done. case_bool_decide as Ha; [|done]. injection E1 as <- _. cbn [ph].
        intros [= -> Hx]. destruct (ti_cur s I a (or_introl P)) as [_ Hin]. specialize (Hin Ha).
        unfold next_of in Hx. destruct (from_in a (ticks s) Hin) as (pre & post & Ee & Ef & _). rewrite Ef in Hx.
        destruct post as [|y post]; [done|]. injection Hx as ->. pose proof (ti_nd s I) as Hnd. rewrite Ee in Hnd.
        apply NoDup_app in Hnd as (_ & _ & Hnd). apply NoDup_cons in Hnd as [Hnd _]. apply Hnd, elem_of_list_here.
      - destruct (ph s); try done. injection E1 as <- _. done.
      - destruct (ph s) as [|[c|]|]; try done. injection E1 as <- _. done. }
    eapply G; [apply TI_init| |exact E|exact P]. done. }
  split; [done|]. cbn [trun tstep]. rewrite P. cbn [user negb]. rewrite bool_decide_eq_true_2 by done. cbn [negb].
  cbn [ph]. eexists. split; [reflexivity|]. cbn [ph ticks]. split; [done|].
  rewrite unlink_in by apply I. split; [tauto|]. intros t Ht Hn. apply unlink_in; [apply I|done].
Qed.

(** The time the selector may wait: at most 100 ms, never 0, no more than
    any positive result, and one of these; and every callback is given the
    number of events. *)
Theorem C85_wait s n es s1 os :
  treach s -> Forall within es -> trun s (EBegin n :: es ++ [EEnd]) = Ok s1 os ->
  exists m, last os = Some (OWait m) /\ 0 < m <= 100
    /\ (forall r, r ∈ rets es -> 0 < r -> m <= r)
    /\ (m = 100 \/ m ∈ rets es)
    /\ (forall t k, OCall t k ∈ os -> k = n).
Proof.
  intros R W E. pose proof (TI_reach s R) as I. cbn [trun] in E.
  destruct (tstep s (EBegin n)) as [s2 o2| |] eqn:E1; try done.
  pose proof (TI_step _ _ _ _ I E1) as I2. rewrite trun_app in E.
  destruct (trun s2 es) as [s3 o3| |] eqn:E2; try done.
  cbn [trun] in E. destruct (tstep s3 EEnd) as [s4 o4| |] eqn:E3; try done. injection E as <- <-.
  assert (P : ph s3 = PAt None) by (cbn [tstep] in E3; destruct (ph s3) as [|[|]|]; done).
  assert (C4 : o4 = [OWait (tmin s3)]) by (cbn [tstep] in E3; rewrite P in E3; by injection E3 as _ <-). subst o4.
  assert (Hb : o2 = [] /\ evn s2 = n /\ tmin s2 = 100).
  { cbn [tstep] in E1. destruct (ph s); try done. by injection E1 as <- <-. }
  destruct Hb as (-> & Hev & Hmin). cbn [app].
  assert (G : forall es s s1 os, Forall within es -> trun s es = Ok s1 os ->
    evn s1 = evn s /\ (forall t k, OCall t k ∈ os -> k = evn s) /\ (forall m, OWait m ∉ os)
    /\ tmin s1 <= tmin s /\ (forall r, r ∈ rets es -> 0 < r -> tmin s1 <= r) /\ (tmin s1 = tmin s \/ tmin s1 ∈ rets es)).
  { clear. induction es as [|e es IH]; intros s s1 os W E; cbn [trun] in E.
    - injection E as <- <-. split; [done|]. split; [intros ? ? ?%elem_of_nil; done|].
      split; [intros ? ?%elem_of_nil; done|]. split; [lia|]. split; [intros ? ?%elem_of_nil; done|auto].
    - destruct (tstep s e) as [s2 o2| |] eqn:E1; try done.
      destruct (trun s2 es) as [s3 o3| |] eqn:E2; try done. injection E as -> <-.
      apply Forall_cons in W as [W1 W2]. destruct (IH _ _ _ W2 E2) as (A & B & C & D & F & H).
      assert (Q : evn s2 = evn s /\ (forall t k, OCall t k ∈ o2 -> k = evn s) /\ (forall m, OWait m ∉ o2)
        /\ ((tmin s2 = tmin s /\ (forall r, e <> EReturn r)) \/
            exists r, e = EReturn r /\ tmin s2 = if (0 <? r) && (r <? tmin s) then r else tmin s)).
      { destruct e as [|sel u|sel u|n| |r|]; cbn [tstep] in E1; try done.
        - destruct (user (ph s)); [|done]. injection E1 as <- <-. split; [done|].
          split; [intros ? ? ?%elem_of_list_singleton; done|]. split; [intros ? ?%elem_of_list_singleton; done|]. by left.
        - destruct (user (ph s)); [|done].
          assert (s2.(evn) = evn s /\ tmin s2 = tmin s /\ exists b, o2 = [OBool b]) as (? & ? & b & ->).
          { destruct sel; cbn [negb] in E1; [|injection E1 as <- <-; eauto].
            case_bool_decide; cbn [negb] in E1; [|done]. case_bool_decide; [done|]. injection E1 as <- <-. eauto. }
          split; [done|].
          split; [intros ? ? ?%elem_of_list_singleton; done|]. split; [intros ? ?%elem_of_list_singleton; done|]. by left.
        - destruct (user (ph s)); [|done].
          assert (s2.(evn) = evn s /\ tmin s2 = tmin s /\ exists b, o2 = [OBool b]) as (? & ? & b & ->).
          { destruct sel; cbn [negb] in E1; [|injection E1 as <- <-; eauto].
            case_bool_decide; cbn [negb] in E1; [|done]. injection E1 as <- <-. eauto. }
          split; [done|].
          split; [intros ? ? ?%elem_of_list_singleton; done|]. split; [intros ? ?%elem_of_list_singleton; done|]. by left.
        - destruct (ph s) as [|[c|]|]; try done. case_bool_decide; [|done]. injection E1 as <- <-. split; [done|].
          split; [intros ? ? [= _ ->]%elem_of_list_singleton; done|]. split; [intros ? ?%elem_of_list_singleton; done|]. by left.
        - destruct (ph s) as [|?|t x]; try done. injection E1 as <- <-. split; [done|].
          split; [intros ? ? ?%elem_of_nil; done|]. split; [intros ? ?%elem_of_nil; done|]. right. eauto. }
      destruct Q as (Q1 & Q2 & Q3 & Q4). split; [congruence|]. split.
      { intros t k [Hk|Hk]%elem_of_app; [by eapply Q2|]. rewrite <- Q1. by eapply B. }
      split. { intros m [Hm|Hm]%elem_of_app; [by eapply Q3|by eapply C]. }
      destruct Q4 as [[Q4 Q5]|(r & -> & Q4)].
      + assert (Hre : rets (e :: es) = rets es) by (destruct e; try done; by destruct (Q5 r)).
        rewrite Hre, <- Q4. split; [lia|]. split; [done|]. done.
      + change (rets (EReturn r :: es)) with (r :: rets es).
        destruct (0 <? r) eqn:L1; cbn [andb] in Q4.
        * destruct (r <? tmin s) eqn:L2.
          { apply Z.ltb_lt in L1, L2. split; [lia|]. split.
            - intros q [->|Hq]%elem_of_cons Hq0; [lia|auto].
            - rewrite elem_of_cons. destruct H as [H|H]; [right; left; lia|auto]. }
          { apply Z.ltb_ge in L2. split; [lia|]. split.
            - intros q [->|Hq]%elem_of_cons Hq0; [lia|auto].
            - rewrite elem_of_cons. destruct H as [H|H]; [left; lia|auto]. }
        * apply Z.ltb_ge in L1. split; [lia|]. split.
          -- intros q [->|Hq]%elem_of_cons Hq0; [lia|auto].
          -- rewrite elem_of_cons. destruct H as [H|H]; [left; lia|auto]. }
  destruct (G _ _ _ _ W E2) as (A & B & C & D & F & H).
  pose proof (ti_min s3 (TI_run _ _ _ _ I2 E2)) as M. unfold SELECTOR_TMO in M.
  exists (tmin s3). split; [apply last_snoc|]. split; [done|]. split; [done|].
  split; [rewrite <- Hmin; done|]. intros t k [Hk|Hk]%elem_of_app.
  - rewrite <- Hev. by eapply B.
  - apply elem_of_list_singleton in Hk. done.
Qed.

(** In a thread without a selector nothing is registered and nothing closed:
    the call says so, and the tick stays as it is. *)
Theorem C85_no_selector s t :
  user (ph s) = true -> tstep s (EReg false t) = Ok s [OBool false] /\ tstep s (EClose false t) = Ok s [OBool false].
Proof. intros U. cbn [tstep]. by rewrite U. Qed.

(** A pass in which the callbacks only return comes to its end, whatever
    they return; it calls the registered ticks in order. *)
Definition quiet (res : nat -> Z) (l : list nat) : list tev := flat_map (fun t => [ECall; EReturn (res t)]) l.
Theorem C85_pass_ends s n (res : nat -> Z) :
  treach s -> ph s = PIdle ->
  exists s1 os, trun s (EBegin n :: quiet res (ticks s) ++ [EEnd]) = Ok s1 os
    /\ calls os = ticks s /\ ticks s1 = ticks s /\ ph s1 = PIdle.
Proof.
  intros R P. pose proof (TI_reach s R) as I.
  assert (G : forall k s c, TI s -> ph s = PAt c -> match c with Some x => from x (ticks s) = k /\ x ∈ ticks s | None => k = [] end ->
    exists s1 os, trun s (quiet res k) = Ok s1 os /\ calls os = k /\ ticks s1 = ticks s /\ ph s1 = PAt None).
  { clear s R P I. induction k as [|y k IH]; intros s c I P Hc.
    - destruct c as [x|].
      + destruct Hc as [Hf Hx]. apply from_head in Hx. by rewrite Hf in Hx.
      + exists s, []. done.
    - destruct c as [x|]; [|done]. destruct Hc as [Hf Hx].
      assert (y = x) as ->. { pose proof (from_head _ _ Hx) as Hh. rewrite Hf in Hh. by injection Hh. }
      destruct (tstep s ECall) as [s2 o2| |] eqn:E1;
        cbn [tstep] in E1; rewrite P, bool_decide_eq_true_2 in E1 by (by apply I); try done.
      assert (E1' : tstep s ECall = Ok s2 o2).
      { cbn [tstep]. by rewrite P, bool_decide_eq_true_2 by (by apply I). }
      pose proof (TI_step _ _ _ _ I E1') as I2.
      assert (S2 : ticks s2 = ticks s /\ ph s2 = PIn x (next_of x (ticks s)) /\ o2 = [OCall x (evn s)]) by (by injection E1 as <- <-).
      destruct S2 as (T2 & P2 & ->).
      destruct (tstep s2 (EReturn (res x))) as [s3 o3| |] eqn:E2; pose proof E2 as E2'; cbn [tstep] in E2; rewrite P2 in E2; try done.
      pose proof (TI_step _ _ _ _ I2 E2') as I3.
      assert (S3 : ticks s3 = ticks s /\ ph s3 = PAt (next_of x (ticks s)) /\ o3 = []) by (by injection E2 as <- <-).
      destruct S3 as (T3 & P3 & ->).
      destruct (IH s3 (next_of x (ticks s)) I3 P3) as (s1 & os & A & C & D & F).
      { rewrite T3. destruct (next_of x (ticks s)) as [z|] eqn:N.
        - destruct (from_next _ _ _ (ti_nd s I) Hx N) as [H1 H2]. rewrite Hf in H1. split; [congruence|done].
        - pose proof (from_last _ _ Hx N) as H1. rewrite Hf in H1. congruence. }
      exists s1, ([OCall x (evn s)] ++ [] ++ os). split.
      { change (quiet res (x :: k)) with (ECall :: EReturn (res x) :: quiet res k). cbn [trun]. by rewrite E1', E2', A. }
      split; [rewrite calls_app; cbn; by f_equal|]. split; [by rewrite D|done]. }
  destruct (tstep s (EBegin n)) as [s2 o2| |] eqn:E1; pose proof E1 as E1'; cbn [tstep] in E1; rewrite P in E1; try done.
  pose proof (TI_step _ _ _ _ I E1') as I2.
  assert (S2 : ticks s2 = ticks s /\ ph s2 = PAt (head (ticks s)) /\ o2 = []) by (by injection E1 as <- <-).
  destruct S2 as (T2 & P2 & ->).
  destruct (G (ticks s) s2 (head (ticks s)) I2 P2) as (s1 & os & A & C & D & F).
  { rewrite T2. destruct (ticks s) as [|y l] eqn:T; [done|]. cbn [head].
    split; [cbn [from]; by rewrite decide_True|apply elem_of_list_here]. }
  eexists _, _. split.
  { cbn [trun]. rewrite E1', trun_app, A. cbn [trun tstep]. rewrite F. reflexivity. }
  cbn [ticks ph app]. split; [rewrite calls_app, C; cbn; by rewrite app_nil_r|]. split; [by rewrite D|done].
Qed.

(** A concrete run: three ticks; in the pass the first closes itself, the
    second registers a fourth; then the third, the last, a fifth (the fourth
    is then behind it).  Four calls, the wait is 20 ms. *)
Definition ex_es : list tev :=
  [ENew; ENew; ENew; EReg true 0; EReg true 1; EReg true 2; EBegin 7;
   ECall; EClose true 0; EReturn 0; ECall; ENew; EReg true 3; EReturn 20; ECall; EReturn (-5);
   ECall; ENew; EReg true 4; EReturn 300; EEnd].
Theorem C85_example :
  match trun tinit ex_es with
  | Ok s os => calls os = [0; 1; 2; 3]%nat /\ last os = Some (OWait 20) /\ ticks s = [1; 2; 3; 4]%nat /\ ph s = PIdle
  | _ => False
  end.
Proof. vm_compute. done. Qed.
(** The refuted case is reached. *)
Theorem C85_close_next_example :
  trun tinit [ENew; ENew; EReg true 0; EReg true 1; EBegin 1; ECall; EClose true 1; EReturn 0; ECall] = Crash.
Proof. vm_compute. done. Qed.
