(** Executable model of the intrusive lists, include/klist.h.

    One heap holds the link fields of every list node and list header.  NULL pointers are [None];
    dereferencing NULL or an address without node is [None] of the operation ("undefined"). *)
From stdpp Require Export prelude gmap.

(** include/klist.h:35-39 struct kgl_list_s *)
Record lnode := mkl { lprev : option positive; lnext : option positive }.
Notation lheap := (gmap positive lnode).

Definition get_next (h : lheap) (a : positive) : option positive := n ← h !! a; lnext n.
Definition get_prev (h : lheap) (a : positive) : option positive := n ← h !! a; lprev n.
Definition set_next (h : lheap) (a : positive) (v : option positive) : option lheap :=
  n ← h !! a; Some (<[a := mkl (lprev n) v]> h).
Definition set_prev (h : lheap) (a : positive) (v : option positive) : option lheap :=
  n ← h !! a; Some (<[a := mkl v (lnext n)]> h).

(** include/klist.h:40-43 klist_init *)
Definition klist_init (h : lheap) (l : positive) : option lheap :=
  h ← set_next h l (Some l); set_prev h l (Some l).
(** include/klist.h:44 klist_empty *)
Definition klist_empty (h : lheap) (l : positive) : option bool :=
  n ← get_next h l; Some (bool_decide (n = l)).
(** include/klist.h:45-54 klist_insert = klist_append: the four assignments in order *)
Definition klist_append (h : lheap) (l x : positive) : option lheap :=
  lp ← get_prev h l;
  h ← set_prev h x (Some lp);
  xp ← get_prev h x;
  h ← set_next h xp (Some x);
  h ← set_next h x (Some l);
  set_prev h l (Some x).
(** include/klist.h:56-59 klist_remove: the two assignments in order *)
Definition klist_remove (h : lheap) (x : positive) : option lheap :=
  xp ← get_prev h x; xn ← get_next h x;
  h ← set_next h xp (Some xn);
  xn ← get_next h x; xp ← get_prev h x;
  set_prev h xn (Some xp).
(** "memset(l, 0, sizeof(kgl_list))", src/kselector.c and include/kselectable.h *)
Definition klist_clear (h : lheap) (x : positive) : option lheap :=
  _ ← h !! x; Some (<[x := mkl None None]> h).

(** include/klist.h:62-65 klist_foreach: nodes visited *)
Fixpoint foreach_loop (fuel : nat) (h : lheap) (l pos : positive) : option (list positive) :=
  if decide (pos = l) then Some [] else
  match fuel with O => None | S fuel =>
  n ← get_next h pos; r ← foreach_loop fuel h l n; Some (pos :: r) end.
Definition foreach (fuel : nat) (h : lheap) (l : positive) : option (list positive) :=
  n ← get_next h l; foreach_loop fuel h l n.
(** include/klist.h:66-69 klist_rforeach *)
Fixpoint rforeach_loop (fuel : nat) (h : lheap) (l pos : positive) : option (list positive) :=
  if decide (pos = l) then Some [] else
  match fuel with O => None | S fuel =>
  n ← get_prev h pos; r ← rforeach_loop fuel h l n; Some (pos :: r) end.
Definition rforeach (fuel : nat) (h : lheap) (l : positive) : option (list positive) :=
  n ← get_prev h l; rforeach_loop fuel h l n.

(** ** singly linked list, include/klist.h:9-33; a heap of [next] pointers *)
Notation fheap := (gmap positive positive).
(** include/klist.h:13-15 kforward_list_init *)
Definition kforward_init (h : fheap) (l : positive) : fheap := <[l := l]> h.
(** include/klist.h:19-22 kforward_list_append *)
Definition kforward_append (h : fheap) (l x : positive) : option fheap :=
  n ← h !! l; Some (<[l := x]> (<[x := n]> h)).
(** include/klist.h:23-33 kfoward_list_remove *)
Fixpoint kforward_remove_loop (fuel : nat) (h : fheap) (l x pos : positive) : option (fheap * bool) :=
  match fuel with O => None | S fuel =>
  n ← h !! pos;
  if decide (n = l) then Some (h, false)
  else if decide (n = x) then xn ← h !! x; Some (<[pos := xn]> h, true)
  else kforward_remove_loop fuel h l x n
  end.
Definition kforward_remove (fuel : nat) (h : fheap) (l x : positive) : option (fheap * bool) :=
  kforward_remove_loop fuel h l x l.
(** walk from the header *)
Fixpoint fwalk_loop (fuel : nat) (h : fheap) (l pos : positive) : option (list positive) :=
  if decide (pos = l) then Some [] else
  match fuel with O => None | S fuel =>
  n ← h !! pos; r ← fwalk_loop fuel h l n; Some (pos :: r) end.
Definition fwalk (fuel : nat) (h : fheap) (l : positive) : option (list positive) :=
  n ← h !! l; fwalk_loop fuel h l n.
