(** Specification side of the red-black tree: an ordered association list.
    Nothing here mentions colours, pointers or rotations. *)
From stdpp Require Import prelude.
From Coq Require Import ZArith Sorting.Sorted.

Section rb_spec.
Context {K : Type} (cmp : K -> K -> Z).

(** the comparator is a total (pre)order *)
Definition total_order : Prop :=
  (forall x y, (cmp x y <= 0)%Z <-> (0 <= cmp y x)%Z) /\
  (forall x y z, (cmp x y <= 0)%Z -> (cmp y z <= 0)%Z -> (cmp x z <= 0)%Z).

(** contents of a tree: (node handle, data), listed in order *)
Notation contents := (list (positive * K)).

(** strictly increasing: consequently one entry per key *)
Definition strictly_sorted (l : contents) : Prop :=
  StronglySorted (fun a b => (cmp a.2 b.2 < 0)%Z) l.

(** the entry whose key equals [k] *)
Fixpoint lookup_key (k : K) (l : contents) : option positive :=
  match l with
  | [] => None
  | (n, d) :: l => if (cmp k d =? 0)%Z then Some n else lookup_key k l
  end.

(** put a new entry at its place *)
Fixpoint put (k : K) (e : positive * K) (l : contents) : contents :=
  match l with
  | [] => [e]
  | (n, d) :: l => if (cmp k d <? 0)%Z then e :: (n, d) :: l else (n, d) :: put k e l
  end.

(** drop the entry with handle [n] *)
Definition drop_node (n : positive) (l : contents) : contents := filter (fun e => e.1 <> n) l.

(** What a caller does: [Ins k d a junk]: rbtree_insert(k), then, if new_flag, node->data = d.
    [a] is the address malloc returns if it is called, [junk] its uninitialised data word. *)
Inductive op :=
| Ins (k d : K) (a : positive) (junk : K)
| Rem (n : positive)
| Find (k : K).
Inductive out :=
| RIns (n : positive) (new : bool)
| RRem
| RFind (r : option positive).

(** calls a correct caller makes: malloc returns memory that is not in use, the data stored under key
    [k] compares equal to [k], only nodes that are in the tree are removed *)
Definition legal (l : contents) (o : op) : Prop :=
  match o with
  | Ins k d a _ => (lookup_key k l = None -> a ∉ l.*1) /\ cmp k d = 0%Z
  | Rem n => n ∈ l.*1
  | Find _ => True
  end.
Definition spec_step (l : contents) (o : op) : out * contents :=
  match o with
  | Ins k d a _ => match lookup_key k l with
                   | Some n => (RIns n false, l)
                   | None => (RIns a true, put k (a, d) l)
                   end
  | Rem n => (RRem, drop_node n l)
  | Find k => (RFind (lookup_key k l), l)
  end.
Fixpoint legal_run (l : contents) (os : list op) : Prop :=
  match os with [] => True | o :: os => legal l o /\ legal_run (spec_step l o).2 os end.
Fixpoint spec_run (l : contents) (os : list op) : list out * contents :=
  match os with
  | [] => ([], l)
  | o :: os => let '(r, l) := spec_step l o in let '(rs, l) := spec_run l os in (r :: rs, l)
  end.

(** greatest entry <= k, wrapping around to the greatest entry *)
Definition cover (k : K) (l : contents) : option positive :=
  match last (filter (fun e => (0 <= cmp k e.2)%Z) l) with
  | Some e => Some e.1
  | None => fst <$> last l
  end.

(** iteration over the entries in order with a state-passing callback; [keep] and [go] read the
    callback's decision: keep the entry?  go on to the next one? *)
Fixpoint iterate {D A} (keep go : D -> bool) (cb : K -> A -> D * A) (l : contents) (a : A) : contents * A :=
  match l with
  | [] => ([], a)
  | (n, d) :: l =>
      let '(dec, a) := cb d a in
      let '(rest, a) := if go dec then iterate keep go cb l a else (l, a) in
      (if keep dec then (n, d) :: rest else rest, a)
  end.
End rb_spec.
Arguments op : clear implicits.
