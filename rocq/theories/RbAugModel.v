(** Model of the summaries in nodes: src/krbtree.c:338-405 (rb_augment_path,
    rb_augment_insert, rb_augment_erase_begin, rb_augment_erase_end).

    The summary a node carries (in the caller's data) is a function from
    addresses; the caller's func(node, data) computes the summary of a node
    from its data and the summaries of its children, and stores it.  Links
    and colours are those of RbModel. *)
From Verif Require Import RbModel.

Section aug.
Context {K V : Type} (F : K -> option V -> option V -> V).
Implicit Types (s : rbs K) (g : positive -> V).

Definition osum g (p : option positive) : option V := match p with Some q => Some (g q) | None => None end.
Definition setg g (p : positive) (v : V) : positive -> V := fun q => if decide (q = p) then v else g q.

(** func(node, data) *)
Definition func s g (p : positive) : option (positive -> V) :=
  n ← rd s p; Some (setg g p (F (dat n) (osum g (lft n)) (osum g (rgt n)))).

(** krbtree.c:338-355 *)
Fixpoint augment_path (fuel : nat) s g (n : positive) : option (positive -> V) :=
  match fuel with O => None | S fuel =>
    g ← func s g n;
    nn ← rd s n;
    match par nn with
    | None => Some g
    | Some p =>
      pn ← rd s p;
      g ← match lft pn, rgt pn with
          | Some l, Some r => if decide (l = n) then func s g r else func s g l
          | Some l, None => func s g l
          | None, _ => Some g
          end;
      augment_path fuel s g p
    end
  end.

(** krbtree.c:361-369 *)
Definition augment_insert (fuel : nat) s g (n : positive) : option (positive -> V) :=
  nn ← rd s n;
  match lft nn, rgt nn with
  | Some l, _ => augment_path fuel s g l
  | None, Some r => augment_path fuel s g r
  | None, None => augment_path fuel s g n
  end.

(** krbtree.c:375-394 *)
Definition augment_erase_begin (fuel : nat) s (n : positive) : option (option positive) :=
  nn ← rd s n;
  match lft nn, rgt nn with
  | None, None => Some (par nn)
  | Some l, None => Some (Some l)
  | None, Some r => Some (Some r)
  | Some _, Some _ =>
      d ← rb_next fuel s n;
      match d with
      | None => None
      | Some d =>
        dn ← rd s d;
        match rgt dn with
        | Some r => Some (Some r)
        | None => if decide (par dn = Some n) then Some (Some d) else Some (par dn)
        end
      end
  end.

(** krbtree.c:400-404 *)
Definition augment_erase_end (fuel : nat) s g (n : option positive) : option (positive -> V) :=
  match n with Some n => augment_path fuel s g n | None => Some g end.
End aug.
