(** The string comparators for tree keys: rbtree_string_cmp, rbtree_string_case_cmp, rbtree_file_cmp (src/krbtree.c:14-31;
    filecmp is strcmp, or _stricmp on Windows: include/kforwin32.h:108, 130).

    A key is the address of a char pointer (the tree's data starts with one).  strcmp and strcasecmp are libc's, written here as the
    usual loop over unsigned bytes, with tolower of the C locale; any libc gives a result of the same sign. *)
From stdpp Require Export prelude.
From Coq Require Export ZArith.
Local Open Scope Z_scope.

(** memory: bytes and char pointers; None: not readable *)
Record smem := mksm { byte : Z -> option Z; cptr : Z -> option Z }.
Definition tolower (c : Z) : Z := if decide (65 <= c <= 90) then c + 32 else c.
Definition same_byte (c : Z) : Z := c.
Section cmp.
Variable fold : Z -> Z.
Fixpoint str_loop (m : smem) (fuel : nat) (p q : Z) : option Z :=
  match fuel with
  | O => None
  | S fuel =>
      a ← byte m p; b ← byte m q;
      if decide (fold a = fold b) then if decide (a = 0) then Some 0 else str_loop m fuel (p + 1) (q + 1)
      else Some (fold a - fold b)
  end.
Definition key_cmp (m : smem) (fuel : nat) (key1 key2 : Z) : option Z := p ← cptr m key1; q ← cptr m key2; str_loop m fuel p q.
End cmp.
Definition rbtree_string_cmp := key_cmp same_byte.
Definition rbtree_string_case_cmp := key_cmp tolower.
Definition rbtree_file_cmp (win32 : bool) := key_cmp (if win32 then tolower else same_byte).

(** * Specification *)
(** a NUL terminated string of the bytes l at p *)
Inductive cstr (m : smem) : Z -> list Z -> Prop :=
| cstr_nil p : byte m p = Some 0 -> cstr m p []
| cstr_cons p c l : byte m p = Some c -> 0 < c < 256 -> cstr m (p + 1) l -> cstr m p (c :: l).
Definition key_is (m : smem) (k : Z) (l : list Z) : Prop := exists p, cptr m k = Some p /\ cstr m p l.
(** dictionary order *)
Definition before (l1 l2 : list Z) : Prop :=
  exists w, (exists c t, l1 = w /\ l2 = w ++ c :: t) \/ (exists a b t1 t2, l1 = w ++ a :: t1 /\ l2 = w ++ b :: t2 /\ a < b).
(** its sign, as a comparator of strings *)
Fixpoint dict (l1 l2 : list Z) : Z :=
  match l1, l2 with
  | [], [] => 0 | [], _ :: _ => -1 | _ :: _, [] => 1
  | a :: l1, b :: l2 => if decide (a = b) then dict l1 l2 else if decide (a < b) then -1 else 1
  end.
