(** Representation predicate: a functional tree (carrying node addresses) stored in the heap,
    zippers, and the correctness of the primitive pointer operations w.r.t. them. *)
From Verif Require Import RbModel.

Section rb_zip.
Context {K : Type}.
Implicit Types (s : rbs K) (h : gmap positive (node K)).

Inductive tree := Leaf | Node (c : bool) (p : positive) (k : K) (l r : tree).
(** one step of a path: [FL]: the hole is the left child, [FR]: the right child *)
Inductive frame := FL (c : bool) (p : positive) (k : K) (sib : tree)
                 | FR (c : bool) (p : positive) (k : K) (sib : tree).
Definition ctx := list frame.

Definition fill (f : frame) (t : tree) : tree :=
  match f with FL c p k r => Node c p k t r | FR c p k l => Node c p k l t end.
Fixpoint plug (C : ctx) (t : tree) : tree :=
  match C with [] => t | f :: C => plug C (fill f t) end.

Definition rp (t : tree) : option positive := match t with Leaf => None | Node _ p _ _ _ => Some p end.
Definition fp (f : frame) : positive := match f with FL _ p _ _ | FR _ p _ _ => p end.
Definition fsib (f : frame) : tree := match f with FL _ _ _ t | FR _ _ _ t => t end.
Definition pc (C : ctx) : option positive := match C with [] => None | f :: _ => Some (fp f) end.

Fixpoint ids (t : tree) : list positive :=
  match t with Leaf => [] | Node _ p _ l r => p :: ids l ++ ids r end.
Fixpoint idsc (C : ctx) : list positive :=
  match C with [] => [] | f :: C => fp f :: ids (fsib f) ++ idsc C end.

Fixpoint rept h (pa : option positive) (t : tree) : Prop :=
  match t with
  | Leaf => True
  | Node c p k l r => h !! p = Some (mkn pa c (rp r) (rp l) k) /\ rept h (Some p) l /\ rept h (Some p) r
  end.
Definition fnode (f : frame) (pa hole : option positive) : node K :=
  match f with
  | FL c p k r => mkn pa c (rp r) hole k
  | FR c p k l => mkn pa c hole (rp l) k
  end.
Fixpoint repc h (rt : option positive) (C : ctx) (hole : option positive) : Prop :=
  match C with
  | [] => rt = hole
  | f :: C => h !! fp f = Some (fnode f (pc C) hole) /\ rept h (Some (fp f)) (fsib f) /\ repc h rt C (Some (fp f))
  end.

(** the whole state represents tree [t] *)
Definition rep s (t : tree) : Prop := root s = rp t /\ rept (heap s) None t /\ NoDup (ids t).

Lemma rep_plug_aux h rt C t :
  rt = rp (plug C t) /\ rept h None (plug C t) <-> rept h (pc C) t /\ repc h rt C (rp t).
Proof.
  revert t; induction C as [|f C IH]; intros t; cbn.
  - split; intros [H1 H2]; (split; [done|by rewrite ?H1]).
  - rewrite IH. destruct f; cbn; naive_solver.
Qed.

Lemma ids_plug C t : ids (plug C t) ≡ₚ ids t ++ idsc C.
Proof.
  revert t; induction C as [|f C IH]; intros t; cbn.
  - by rewrite app_nil_r.
  - rewrite IH. destruct f; cbn; solve_Permutation.
Qed.

Lemma rep_plug s C t :
  rep s (plug C t) <-> rept (heap s) (pc C) t /\ repc (heap s) (root s) C (rp t) /\ NoDup (ids t ++ idsc C).
Proof.
  unfold rep. rewrite (ids_plug C t). pose proof (rep_plug_aux (heap s) (root s) C t). naive_solver.
Qed.

(** framing *)
Lemma rept_frame h h' pa t :
  (forall p, p ∈ ids t -> h' !! p = h !! p) -> rept h pa t -> rept h' pa t.
Proof.
  revert pa; induction t as [|c p k l IHl r IHr]; intros pa Hf; cbn; [done|].
  intros (H1 & H2 & H3). split_and!.
  - rewrite Hf; [done|set_solver].
  - apply IHl; [|done]. intros; apply Hf; set_solver.
  - apply IHr; [|done]. intros; apply Hf; set_solver.
Qed.
Lemma repc_frame h h' rt C hole :
  (forall p, p ∈ idsc C -> h' !! p = h !! p) -> repc h rt C hole -> repc h' rt C hole.
Proof.
  revert hole; induction C as [|f C IH]; intros hole Hf; cbn; [done|].
  intros (H1 & H2 & H3). split_and!.
  - rewrite Hf; [done|set_solver].
  - eapply rept_frame; [|done]. intros; apply Hf; set_solver.
  - apply IH; [|done]. intros; apply Hf; set_solver.
Qed.

Lemma rept_insert_ne h pa t p n :
  p ∉ ids t -> rept h pa t -> rept (<[p:=n]> h) pa t.
Proof. intros Hp. apply rept_frame. intros q Hq. rewrite lookup_insert_ne; [done|set_solver]. Qed.
Lemma repc_insert_ne h rt C hole p n :
  p ∉ idsc C -> repc h rt C hole -> repc (<[p:=n]> h) rt C hole.
Proof. intros Hp. apply repc_frame. intros q Hq. rewrite lookup_insert_ne; [done|set_solver]. Qed.

(** changing the pointer stored in the hole of a context *)
Definition set_hole (x : option positive) (f : frame) (n : node K) : node K :=
  match f with FL _ _ _ _ => w_lft x n | FR _ _ _ _ => w_rgt x n end.

(** ** Reading the focused node *)
Lemma rep_rd s C c p k l r :
  rep s (plug C (Node c p k l r)) -> rd s p = Some (mkn (pc C) c (rp r) (rp l) k).
Proof. rewrite rep_plug. cbn. unfold rd. naive_solver. Qed.

(** [same_out s s' t]: the step touched no cell outside tree [t] *)
Definition same_out s s' (t : tree) : Prop := forall q, q ∉ ids t -> heap s' !! q = heap s !! q.

Lemma same_out_trans s s' s'' t t' :
  same_out s s' t -> same_out s' s'' t' -> ids t ≡ₚ ids t' -> same_out s s'' t.
Proof. intros H1 H2 E q Hq. rewrite H2; [by apply H1|]. by rewrite <- E. Qed.

Lemma NoDup_cons_inv {A} (x : A) l : NoDup (x :: l) -> x ∉ l /\ NoDup l.
Proof. by rewrite NoDup_cons. Qed.

(** ** Colour change at the focus *)
Lemma rep_set_color s C c p k l r c' :
  rep s (plug C (Node c p k l r)) ->
  exists s', upd s p (w_blk c') = Some s' /\ rep s' (plug C (Node c' p k l r)) /\ root s' = root s
        /\ same_out s s' (plug C (Node c p k l r)).
Proof.
  intros H. pose proof (rep_rd _ _ _ _ _ _ _ H) as Hr.
  unfold upd. rewrite Hr; cbn. eexists; split; [done|].
  rewrite rep_plug in H |- *. cbn in *. destruct H as ((_ & Hl & Hrr) & HC & ND).
  rewrite NoDup_cons in ND. destruct ND as [Hnp ND].
  split_and!; try done.
  - by rewrite lookup_insert.
  - apply rept_insert_ne; [set_solver|done].
  - apply rept_insert_ne; [set_solver|done].
  - apply repc_insert_ne; [set_solver|done].
  - by rewrite NoDup_cons.
  - intros q Hq. cbn. rewrite lookup_insert_ne; [done|]. intros ->. apply Hq. rewrite ids_plug. cbn. set_solver.
Qed.

(** ** Data change at the focus *)
Lemma rep_set_dat s C c p k l r k' :
  rep s (plug C (Node c p k l r)) ->
  exists s', upd s p (w_dat k') = Some s' /\ rep s' (plug C (Node c p k' l r)) /\ root s' = root s
        /\ same_out s s' (plug C (Node c p k l r)).
Proof.
  intros H. pose proof (rep_rd _ _ _ _ _ _ _ H) as Hr.
  unfold upd. rewrite Hr; cbn. eexists; split; [done|].
  rewrite rep_plug in H |- *. cbn in *. destruct H as ((_ & Hl & Hrr) & HC & ND).
  rewrite NoDup_cons in ND. destruct ND as [Hnp ND].
  split_and!; try done.
  - by rewrite lookup_insert.
  - apply rept_insert_ne; [set_solver|done].
  - apply rept_insert_ne; [set_solver|done].
  - apply repc_insert_ne; [set_solver|done].
  - by rewrite NoDup_cons.
  - intros q Hq. cbn. rewrite lookup_insert_ne; [done|]. intros ->. apply Hq. rewrite ids_plug. cbn. set_solver.
Qed.

(** The heap-level content of "make [x] the child of the context hole instead of [old]". *)
Lemma repc_replace h rt C old x :
  repc h rt C (Some old) -> old ∉ idsc C -> NoDup (idsc C) ->
  exists s', replace_child (mks h rt) (pc C) old x = Some s' /\ repc (heap s') (root s') C x
    /\ (forall q, pc C <> Some q -> heap s' !! q = h !! q)
    /\ (forall q n, pc C = Some q -> h !! q = Some n -> exists n', heap s' !! q = Some n' /\ par n' = par n /\ blk n' = blk n).
Proof.
  destruct C as [|f C]; cbn.
  - intros _ _ _. eexists; split; [done|]. cbn. naive_solver.
  - intros (H1 & H2 & H3) Hold ND. rewrite NoDup_cons in ND. destruct ND as [Hf ND].
    unfold rd; cbn. rewrite H1; cbn.
    assert (HS : old <> fp f) by set_solver.
    assert (Hsib : rp (fsib f) <> Some old).
    { intros E. apply Hold. destruct (fsib f); cbn in *; [done|]. simplify_eq. set_solver. }
    destruct f as [c p k r|c p k l]; cbn in *.
    + rewrite decide_True by done. unfold upd, rd; cbn. rewrite H1; cbn. eexists; split; [done|]. cbn.
      split_and!.
      * by rewrite lookup_insert.
      * apply rept_insert_ne; [set_solver|done].
      * apply repc_insert_ne; [set_solver|done].
      * intros q Hq. rewrite lookup_insert_ne; [done|congruence].
      * intros q n Hq Hn. injection Hq as <-. rewrite lookup_insert. rewrite H1 in Hn. injection Hn as <-. eauto.
    + rewrite decide_False by done. unfold upd, rd; cbn. rewrite H1; cbn. eexists; split; [done|]. cbn.
      split_and!.
      * by rewrite lookup_insert.
      * apply rept_insert_ne; [set_solver|done].
      * apply repc_insert_ne; [set_solver|done].
      * intros q Hq. rewrite lookup_insert_ne; [done|congruence].
      * intros q n Hq Hn. injection Hq as <-. rewrite lookup_insert. rewrite H1 in Hn. injection Hn as <-. eauto.
Qed.

(** "if (c) rb_set_parent(c,p)" on a detached subtree *)
Lemma rept_set_parent h rt pa pa' t :
  rept h pa t -> NoDup (ids t) ->
  exists s', set_parent_opt (mks h rt) (rp t) pa' = Some s' /\ rept (heap s') pa' t /\ root s' = rt
    /\ (forall q, rp t <> Some q -> heap s' !! q = h !! q).
Proof.
  destruct t as [|c p k l r]; cbn.
  - intros _ _. eexists; split; [done|]. naive_solver.
  - intros (H1 & H2 & H3) ND. rewrite NoDup_cons in ND. destruct ND as [Hp ND].
    unfold upd, rd; cbn. rewrite H1; cbn. eexists; split; [done|]. cbn. split_and!.
    + by rewrite lookup_insert.
    + apply rept_insert_ne; [set_solver|done].
    + apply rept_insert_ne; [set_solver|done].
    + done.
    + intros q Hq. rewrite lookup_insert_ne; [done|congruence].
Qed.
Lemma rp_elem t q : rp t = Some q -> q ∈ ids t.
Proof. destruct t; cbn; [done|]. intros; simplify_eq. set_solver. Qed.
Lemma pc_elem (C : ctx) q : pc C = Some q -> q ∈ idsc C.
Proof. destruct C; cbn; [done|]. intros; simplify_eq. set_solver. Qed.
Lemma pc_frame h rt C old q : repc h rt C old -> pc C = Some q -> q ∈ idsc C.
Proof. intros _. apply pc_elem. Qed.
Lemma NoDup_perm {A} (l1 l2 : list A) : l1 ≡ₚ l2 -> NoDup l1 -> NoDup l2.
Proof. by intros ->. Qed.
Lemma NoDup_comm {A} (l1 l2 : list A) : NoDup (l1 ++ l2) -> NoDup (l2 ++ l1).
Proof. by rewrite Permutation_app_comm. Qed.
End rb_zip.
Arguments tree : clear implicits.
Arguments frame : clear implicits.
Arguments ctx : clear implicits.
