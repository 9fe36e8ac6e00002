(** The word rb_parent_color of a krb_node: parent pointer and colour in one integer (include/krbtree.h:20-28, 63-68;
    src/krbtree.c:8-13, 38-45, 51-52, 311).

    [W] is the width of uintptr_t (32 or 64).  Pointers are addresses, NULL is 0.  A program is any code whose only accesses to
    rb_parent_color are the macros and functions below - this is so for all of src/krbtree.c - and which otherwise works on state of
    its own of any type [O] (left, right and data fields, the root, locals): a tree of accesses, each continued with its reply.
    The loops of the code are unfolded in the tree (one program per terminating run). *)
From stdpp Require Export gmap.
From Coq Require Export ZArith.
Local Open Scope Z_scope.

Section pack.
Variable W : Z.
(** ~3 and ~1, an int converted to uintptr_t *)
Definition not3 : Z := (-4) mod 2 ^ W.
Definition not1 : Z := (-2) mod 2 ^ W.
(** krbtree.c:8-13 *)
Definition rb_parent (w : Z) : Z := Z.land w not3.
Definition rb_color (w : Z) : Z := Z.land w 1.
Definition rb_set_red (w : Z) : Z := Z.land w not1.
Definition rb_set_black (w : Z) : Z := Z.lor w 1.
(** krbtree.c:38-45 *)
Definition rb_set_parent (w p : Z) : Z := Z.lor (Z.land w 3) p.
Definition rb_set_color (w c : Z) : Z := Z.lor (Z.land w not1) c.

Context {O : Type}.
Inductive acc :=
| AParent (n : Z)                (* rb_parent(n) *)
| AColor (n : Z)                 (* rb_color(n) *)
| ASetParent (n p : Z)           (* rb_set_parent(n, p) *)
| ASetColor (n : Z) (c : bool)   (* rb_set_color(n, c); the code only passes RB_RED, RB_BLACK and results of rb_color *)
| ARed (n : Z)                   (* rb_set_red(n) *)
| ABlack (n : Z)                 (* rb_set_black(n) *)
| ALink (n p : Z)                (* rb_link_node: rb_parent_color = (uintptr_t)parent; the node may be fresh memory *)
| ACopy (n m : Z)                (* n->rb_parent_color = m->rb_parent_color (krbtree.c:311), and *n = *m in rb_replace_node *)
| AFree (n : Z)                  (* the node is freed *)
| AOther (f : O -> O * Z).       (* anything else *)
Inductive prog := Ret | Acc (a : acc) (k : Z -> prog).

(** the code: one word per node.  None: an address that is not a node was used *)
Record pst := mkp { words : gmap Z Z; p_o : O }.
Definition pset (s : pst) (n w : Z) : pst := mkp (<[n := w]> (words s)) (p_o s).
Definition pstep (s : pst) (a : acc) : option (pst * Z) :=
  match a with
  | AParent n => w ← words s !! n; Some (s, rb_parent w)
  | AColor n => w ← words s !! n; Some (s, rb_color w)
  | ASetParent n p => w ← words s !! n; Some (pset s n (rb_set_parent w p), 0)
  | ASetColor n c => w ← words s !! n; Some (pset s n (rb_set_color w (if c then 1 else 0)), 0)
  | ARed n => w ← words s !! n; Some (pset s n (rb_set_red w), 0)
  | ABlack n => w ← words s !! n; Some (pset s n (rb_set_black w), 0)
  | ALink n p => Some (pset s n p, 0)
  | ACopy n m => w ← words s !! m; Some (pset s n w, 0)
  | AFree n => Some (mkp (delete n (words s)) (p_o s), 0)
  | AOther f => Some (mkp (words s) (fst (f (p_o s))), snd (f (p_o s)))
  end.
Fixpoint prun (s : pst) (g : prog) (tr : list (acc * Z)) : option (pst * list (acc * Z)) :=
  match g with
  | Ret => Some (s, tr)
  | Acc a k => match pstep s a with Some (s, r) => prun s (k r) (tr ++ [(a, r)]) | None => None end
  end.

(** the specification: two separate fields *)
Record fst_ := mkf { flds : gmap Z (Z * bool); f_o : O }.
Definition fset (s : fst_) (n p : Z) (b : bool) : fst_ := mkf (<[n := (p, b)]> (flds s)) (f_o s).
Definition fstep (s : fst_) (a : acc) : option (fst_ * Z) :=
  match a with
  | AParent n => '(p, b) ← flds s !! n; Some (s, p)
  | AColor n => '(p, b) ← flds s !! n; Some (s, if b : bool then 1 else 0)
  | ASetParent n p => '(_, b) ← flds s !! n; Some (fset s n p b, 0)
  | ASetColor n c => '(p, _) ← flds s !! n; Some (fset s n p c, 0)
  | ARed n => '(p, _) ← flds s !! n; Some (fset s n p false, 0)
  | ABlack n => '(p, _) ← flds s !! n; Some (fset s n p true, 0)
  | ALink n p => Some (fset s n p false, 0)
  | ACopy n m => '(p, b) ← flds s !! m; Some (fset s n p b, 0)
  | AFree n => Some (mkf (delete n (flds s)) (f_o s), 0)
  | AOther f => Some (mkf (flds s) (fst (f (f_o s))), snd (f (f_o s)))
  end.
Fixpoint frun (s : fst_) (g : prog) (tr : list (acc * Z)) : option (fst_ * list (acc * Z)) :=
  match g with
  | Ret => Some (s, tr)
  | Acc a k => match fstep s a with Some (s, r) => frun s (k r) (tr ++ [(a, r)]) | None => None end
  end.

(** an address a krb_node can have *)
Definition al (p : Z) : Prop := 0 <= p < 2 ^ W /\ (4 | p).
(** the pointers a program stores as parents in a run are such *)
Definition stores_al (tr : list (acc * Z)) : Prop := forall a r p, (a, r) ∈ tr -> (exists n, a = ASetParent n p \/ a = ALink n p) -> al p.
(** both memories hold the same parents and colours *)
Definition enc (q : Z * bool) : Z := fst q + (if snd q then 1 else 0).
Definition same (s : fst_) (t : pst) : Prop := words t = enc <$> flds s /\ p_o t = f_o s /\ forall n p b, flds s !! n = Some (p, b) -> al p.
End pack.
Arguments prog : clear implicits.
Arguments acc : clear implicits.
Arguments pst : clear implicits.
Arguments fst_ : clear implicits.
