(** Executable model of src/krbtree.c (pointer level).

    Simplifications (apply to the whole file):
    - [rb_parent_color] packs a parent pointer and a colour bit in one word
      (include/krbtree.h:23-31, src/krbtree.c:8-13); nodes are at least 4-aligned, so we keep
      the two parts as two fields [par] and [blk] (justified in RbPackProps).
    - a pointer is [option positive], NULL is [None]; dereferencing NULL or an address that is
      not (or no longer) allocated yields [None] ("undefined behaviour").
    - loops carry explicit fuel; running out of fuel also yields [None].
    - [void *data] is a value of an arbitrary type [K]. *)
From stdpp Require Export prelude gmap.
From Coq Require Export ZArith.

Section rb_model.
Context {K : Type}.

(** include/krbtree.h:23-31 struct krb_node *)
Record node := mkn {
  par : option positive;   (* rb_parent(node) *)
  blk : bool;              (* rb_is_black(node): RB_BLACK = 1, RB_RED = 0 *)
  rgt : option positive;
  lft : option positive;
  dat : K }.

(** include/krbtree.h:32-39 struct krb_root/krb_tree, together with the node heap *)
Record rbs := mks { heap : gmap positive node; root : option positive }.

(** memory access helpers: [rd s p] is the load of the node at p, [upd] the store of one field *)
Definition rd (s : rbs) (p : positive) : option node := heap s !! p.
Definition upd (s : rbs) (p : positive) (f : node -> node) : option rbs :=
  n ← rd s p; Some (mks (<[p := f n]> (heap s)) (root s)).
Definition set_root (s : rbs) (r : option positive) : rbs := mks (heap s) r.

(** src/krbtree.c:37-45 and macros 12-13: rb_set_parent, rb_set_color, rb_set_red, rb_set_black *)
Definition w_par (v : option positive) (n : node) := mkn v (blk n) (rgt n) (lft n) (dat n).
Definition w_blk (v : bool) (n : node) := mkn (par n) v (rgt n) (lft n) (dat n).
Definition w_rgt (v : option positive) (n : node) := mkn (par n) (blk n) v (lft n) (dat n).
Definition w_lft (v : option positive) (n : node) := mkn (par n) (blk n) (rgt n) v (dat n).
Definition w_dat (v : K) (n : node) := mkn (par n) (blk n) (rgt n) (lft n) v.

(** "if (child) rb_set_parent(child, p)" *)
Definition set_parent_opt (s : rbs) (c : option positive) (p : option positive) : option rbs :=
  match c with None => Some s | Some c => upd s c (w_par p) end.

(** src/krbtree.c:77-98 __rb_rotate_left *)
Definition rotate_left (s : rbs) (n : positive) : option rbs :=
  nn ← rd s n;
  r ← rgt nn;
  let parent := par nn in
  rn ← rd s r;
  s ← upd s n (w_rgt (lft rn));
  s ← set_parent_opt s (lft rn) (Some n);
  s ← upd s r (w_lft (Some n));
  s ← upd s r (w_par parent);
  s ← match parent with
      | Some p => pn ← rd s p;
                  if decide (lft pn = Some n) then upd s p (w_lft (Some r))
                  else upd s p (w_rgt (Some r))
      | None => Some (set_root s (Some r))
      end;
  upd s n (w_par (Some r)).

(** src/krbtree.c:100-121 __rb_rotate_right *)
Definition rotate_right (s : rbs) (n : positive) : option rbs :=
  nn ← rd s n;
  l ← lft nn;
  let parent := par nn in
  ln ← rd s l;
  s ← upd s n (w_lft (rgt ln));
  s ← set_parent_opt s (rgt ln) (Some n);
  s ← upd s l (w_rgt (Some n));
  s ← upd s l (w_par parent);
  s ← match parent with
      | Some p => pn ← rd s p;
                  if decide (rgt pn = Some n) then upd s p (w_rgt (Some l))
                  else upd s p (w_lft (Some l))
      | None => Some (set_root s (Some l))
      end;
  upd s n (w_par (Some l)).

(** "p && rb_is_red(p)" *)
Definition is_red_opt (s : rbs) (p : option positive) : option bool :=
  match p with None => Some false | Some p => n ← rd s p; Some (negb (blk n)) end.
(** "!p || rb_is_black(p)" *)
Definition is_blk_opt (s : rbs) (p : option positive) : option bool :=
  match p with None => Some true | Some p => n ← rd s p; Some (blk n) end.

(** src/krbtree.c:123-187 rb_insert_color *)
Fixpoint insert_color (fuel : nat) (s : rbs) (n : positive) : option rbs :=
  match fuel with O => None | S fuel =>
  nn ← rd s n;
  let finish := r ← root s; upd s r (w_blk true) in
  match par nn with
  | None => finish
  | Some p =>
    pn ← rd s p;
    if blk pn then finish else
    g ← par pn;
    gn ← rd s g;
    if decide (lft gn = Some p) then
      ur ← is_red_opt s (rgt gn);
      if (ur : bool) then
        u ← rgt gn;
        s ← upd s u (w_blk true); s ← upd s p (w_blk true); s ← upd s g (w_blk false);
        insert_color fuel s g
      else
        '(s, p, n) ← (if decide (rgt pn = Some n) then s ← rotate_left s p; Some (s, n, p)
                      else Some (s, p, n));
        s ← upd s p (w_blk true); s ← upd s g (w_blk false);
        s ← rotate_right s g;
        insert_color fuel s n
    else
      ur ← is_red_opt s (lft gn);
      if (ur : bool) then
        u ← lft gn;
        s ← upd s u (w_blk true); s ← upd s p (w_blk true); s ← upd s g (w_blk false);
        insert_color fuel s g
      else
        '(s, p, n) ← (if decide (lft pn = Some n) then s ← rotate_right s p; Some (s, n, p)
                      else Some (s, p, n));
        s ← upd s p (w_blk true); s ← upd s g (w_blk false);
        s ← rotate_left s g;
        insert_color fuel s n
  end end.

(** src/krbtree.c:264-266, end of __rb_erase_color: "if (node) rb_set_black(node)" *)
Definition erase_color_end (s : rbs) (n : option positive) : option rbs :=
  match n with None => Some s | Some n => upd s n (w_blk true) end.

(** src/krbtree.c:207-230 __rb_erase_color, the part after the red-sibling case when the node is the
    left child; [rec] is the next iteration of the while loop *)
Definition erase_tail_l (rec : rbs -> option positive -> option positive -> option rbs)
    (s : rbs) (p o : positive) : option rbs :=
  on ← rd s o;
  lb ← is_blk_opt s (lft on);
  both ← (if (lb : bool) then is_blk_opt s (rgt on) else Some false);
  if (both : bool) then
    s ← upd s o (w_blk false);
    pn ← rd s p;
    rec s (Some p) (par pn)
  else
    rb ← is_blk_opt s (rgt on);
    '(s, o) ← (if (rb : bool) then
                 ol ← lft on;
                 s ← upd s ol (w_blk true); s ← upd s o (w_blk false);
                 s ← rotate_right s o;
                 pn ← rd s p; o ← rgt pn; Some (s, o)
               else Some (s, o));
    pn ← rd s p;
    s ← upd s o (w_blk (blk pn));
    s ← upd s p (w_blk true);
    on ← rd s o;
    orr ← rgt on;
    s ← upd s orr (w_blk true);
    s ← rotate_left s p;
    erase_color_end s (root s).

(** src/krbtree.c:242-262, the mirrored part when the node is the right child *)
Definition erase_tail_r (rec : rbs -> option positive -> option positive -> option rbs)
    (s : rbs) (p o : positive) : option rbs :=
  on ← rd s o;
  lb ← is_blk_opt s (lft on);
  both ← (if (lb : bool) then is_blk_opt s (rgt on) else Some false);
  if (both : bool) then
    s ← upd s o (w_blk false);
    pn ← rd s p;
    rec s (Some p) (par pn)
  else
    lb ← is_blk_opt s (lft on);
    '(s, o) ← (if (lb : bool) then
                 orr ← rgt on;
                 s ← upd s orr (w_blk true); s ← upd s o (w_blk false);
                 s ← rotate_left s o;
                 pn ← rd s p; o ← lft pn; Some (s, o)
               else Some (s, o));
    pn ← rd s p;
    s ← upd s o (w_blk (blk pn));
    s ← upd s p (w_blk true);
    on ← rd s o;
    ol ← lft on;
    s ← upd s ol (w_blk true);
    s ← rotate_right s p;
    erase_color_end s (root s).

(** src/krbtree.c:189-267 __rb_erase_color *)
Fixpoint erase_color (fuel : nat) (s : rbs) (n parent : option positive) : option rbs :=
  match fuel with O => None | S fuel =>
  nb ← is_blk_opt s n;
  if (nb : bool) && bool_decide (n <> root s) then
    p ← parent;
    pn ← rd s p;
    if decide (lft pn = n) then
      o ← rgt pn;
      on ← rd s o;
      '(s, o) ← (if negb (blk on) then
                   s ← upd s o (w_blk true); s ← upd s p (w_blk false);
                   s ← rotate_left s p;
                   pn ← rd s p; o ← rgt pn; Some (s, o)
                 else Some (s, o));
      erase_tail_l (erase_color fuel) s p o
    else
      o ← lft pn;
      on ← rd s o;
      '(s, o) ← (if negb (blk on) then
                   s ← upd s o (w_blk true); s ← upd s p (w_blk false);
                   s ← rotate_right s p;
                   pn ← rd s p; o ← lft pn; Some (s, o)
                 else Some (s, o));
      erase_tail_r (erase_color fuel) s p o
  else erase_color_end s n
  end.

(** "while ((left = node->rb_left) != NULL) node = left;"  src/krbtree.c:284-285, also the loops in
    rb_first (416-417), rb_next (443-444) *)
Fixpoint go_left (fuel : nat) (s : rbs) (n : positive) : option positive :=
  match fuel with O => None | S fuel =>
  nn ← rd s n; match lft nn with None => Some n | Some l => go_left fuel s l end end.
(** the mirrored loops in rb_last (428-429), rb_prev (471-472) *)
Fixpoint go_right (fuel : nat) (s : rbs) (n : positive) : option positive :=
  match fuel with O => None | S fuel =>
  nn ← rd s n; match rgt nn with None => Some n | Some r => go_right fuel s r end end.

(** "if (parent) { if (parent->rb_left == node) parent->rb_left = x else parent->rb_right = x }
     else root->rb_node = x"   src/krbtree.c:287-294, 322-330 *)
Definition replace_child (s : rbs) (parent : option positive) (old : positive) (x : option positive) : option rbs :=
  match parent with
  | Some p => pn ← rd s p;
              if decide (lft pn = Some old) then upd s p (w_lft x) else upd s p (w_rgt x)
  | None => Some (set_root s x)
  end.

(** src/krbtree.c:269-336 rb_erase *)
Definition erase (fuel : nat) (s : rbs) (n : positive) : option rbs :=
  nn ← rd s n;
  match lft nn, rgt nn with
  | Some ol, Some orr =>
    (* two children: the in-order successor takes the place of [n] (280-314) *)
    let old := n in
    n ← go_left fuel s orr;
    s ← replace_child s (par nn) old (Some n);
    sn ← rd s n;
    let child := rgt sn in
    let color := blk sn in
    parent ← par sn;
    '(s, parent) ←
      (if decide (parent = old) then Some (s, n)
       else
         s ← set_parent_opt s child (Some parent);
         s ← upd s parent (w_lft child);
         on ← rd s old;
         s ← upd s n (w_rgt (rgt on));
         r ← rgt on;
         s ← upd s r (w_par (Some n));
         Some (s, parent));
    on ← rd s old;
    s ← upd s n (λ m, w_blk (blk on) (w_par (par on) m));
    s ← upd s n (w_lft (lft on));
    l ← lft on;
    s ← upd s l (w_par (Some n));
    if (color : bool) then erase_color fuel s child (Some parent) else Some s
  | _, _ =>
    let child := match lft nn with None => rgt nn | Some _ => lft nn end in
    let parent := par nn in
    s ← set_parent_opt s child parent;
    s ← replace_child s parent n child;
    if blk nn then erase_color fuel s child parent else Some s
  end.

(** src/krbtree.c:409-419 rb_first *)
Definition rb_first (fuel : nat) (s : rbs) : option (option positive) :=
  match root s with None => Some None | Some n => m ← go_left fuel s n; Some (Some m) end.
(** src/krbtree.c:421-431 rb_last *)
Definition rb_last (fuel : nat) (s : rbs) : option (option positive) :=
  match root s with None => Some None | Some n => m ← go_right fuel s n; Some (Some m) end.

(** src/krbtree.c:455-456 "while ((parent = rb_parent(node)) && node == parent->rb_right) node = parent;" *)
Fixpoint up_right (fuel : nat) (s : rbs) (n : positive) : option (option positive) :=
  match fuel with O => None | S fuel =>
  nn ← rd s n;
  match par nn with
  | None => Some None
  | Some p => pn ← rd s p; if decide (rgt pn = Some n) then up_right fuel s p else Some (Some p)
  end end.
(** src/krbtree.c:479-480, mirrored *)
Fixpoint up_left (fuel : nat) (s : rbs) (n : positive) : option (option positive) :=
  match fuel with O => None | S fuel =>
  nn ← rd s n;
  match par nn with
  | None => Some None
  | Some p => pn ← rd s p; if decide (lft pn = Some n) then up_left fuel s p else Some (Some p)
  end end.

(** src/krbtree.c:433-459 rb_next *)
Definition rb_next (fuel : nat) (s : rbs) (n : positive) : option (option positive) :=
  nn ← rd s n;
  if decide (par nn = Some n) then Some None else
  match rgt nn with
  | Some r => m ← go_left fuel s r; Some (Some m)
  | None => up_right fuel s n
  end.
(** src/krbtree.c:461-483 rb_prev *)
Definition rb_prev (fuel : nat) (s : rbs) (n : positive) : option (option positive) :=
  nn ← rd s n;
  if decide (par nn = Some n) then Some None else
  match lft nn with
  | Some l => m ← go_right fuel s l; Some (Some m)
  | None => up_left fuel s n
  end.

(** src/krbtree.c:485-507 rb_replace_node ("*n = *victim" copies data as well) *)
Definition replace_node (s : rbs) (victim n : positive) : option rbs :=
  vn ← rd s victim;
  s ← replace_child s (par vn) victim (Some n);
  vn ← rd s victim;
  s ← set_parent_opt s (lft vn) (Some n);
  vn ← rd s victim;
  s ← set_parent_opt s (rgt vn) (Some n);
  vn ← rd s victim;
  upd s n (λ _, vn).

Section with_cmp.
(** comprbt: sign of c(key, node->data) *)
Context (cmp : K -> K -> Z).

(** src/krbtree.c:565-578 rbtree_find, loop body *)
Fixpoint find_loop (fuel : nat) (s : rbs) (k : K) (n : option positive) : option (option positive) :=
  match n with None => Some None | Some n =>
  match fuel with O => None | S fuel =>
  nn ← rd s n;
  let r := cmp k (dat nn) in
  if (r <? 0)%Z then find_loop fuel s k (lft nn)
  else if (0 <? r)%Z then find_loop fuel s k (rgt nn)
  else Some (Some n)
  end end.
Definition rbtree_find (fuel : nat) (s : rbs) (k : K) := find_loop fuel s k (root s).

(** src/krbtree.c:523-539 rbtree_find2: last node visited and last comparison result
    ([None] result: *result never written) *)
Fixpoint find2_loop (fuel : nat) (s : rbs) (k : K) (n last : option positive) (res : option Z)
  : option (option positive * option Z) :=
  match n with None => Some (last, res) | Some n =>
  match fuel with O => None | S fuel =>
  nn ← rd s n;
  let r := cmp k (dat nn) in
  if (r <? 0)%Z then find2_loop fuel s k (lft nn) (Some n) (Some r)
  else if (0 <? r)%Z then find2_loop fuel s k (rgt nn) (Some n) (Some r)
  else Some (Some n, Some r)
  end end.
Definition rbtree_find2 (fuel : nat) (s : rbs) (k : K) := find2_loop fuel s k (root s) None None.

(** src/krbtree.c:540-564 rbtree_find_cover *)
Fixpoint find_cover_loop (F fuel : nat) (s : rbs) (k : K) (n : positive) : option (option positive) :=
  match fuel with O => None | S fuel =>
  nn ← rd s n;
  let r := cmp k (dat nn) in
  if (r <? 0)%Z then
    match lft nn with
    | None => q ← rb_prev F s n;
              match q with None => rb_last F s | Some q => Some (Some q) end
    | Some l => find_cover_loop F fuel s k l
    end
  else if (0 <? r)%Z then
    match rgt nn with None => Some (Some n) | Some r => find_cover_loop F fuel s k r end
  else Some (Some n)
  end.
Definition rbtree_find_cover (fuel : nat) (s : rbs) (k : K) : option (option positive) :=
  match root s with None => Some None | Some n => find_cover_loop fuel fuel s k n end.

(** the location "struct krb_node **n" of rbtree_insert: &root->rb_node, &p->rb_left or &p->rb_right *)
Inductive loc := LRoot | LLeft (p : positive) | LRight (p : positive).

(** src/krbtree.c:592-603 descent of rbtree_insert *)
Fixpoint insert_loop (fuel : nat) (s : rbs) (k : K) (cur : option positive) (l : loc) (parent : option positive)
  : option (positive + (loc * option positive)) :=
  match cur with None => Some (inr (l, parent)) | Some n =>
  match fuel with O => None | S fuel =>
  nn ← rd s n;
  let r := cmp k (dat nn) in
  if (r <? 0)%Z then insert_loop fuel s k (lft nn) (LLeft n) (Some n)
  else if (0 <? r)%Z then insert_loop fuel s k (rgt nn) (LRight n) (Some n)
  else Some (inl n)
  end end.

(** include/krbtree.h rb_link_node: parent word set with colour bit 0 = red, children NULL *)
Definition link_node (s : rbs) (n : positive) (junk : K) (parent : option positive) (l : loc) : option rbs :=
  let s := mks (<[n := mkn parent false None None junk]> (heap s)) (root s) in
  match l with
  | LRoot => Some (set_root s (Some n))
  | LLeft p => upd s p (w_lft (Some n))
  | LRight p => upd s p (w_rgt (Some n))
  end.

(** src/krbtree.c:590-610 rbtree_insert; [a] is the address xmalloc returned, [junk] the
    uninitialised node->data.  Result: node and new_flag. *)
Definition rbtree_insert (fuel : nat) (s : rbs) (k : K) (a : positive) (junk : K)
  : option (rbs * positive * bool) :=
  r ← insert_loop fuel s k (root s) LRoot None;
  match r with
  | inl n => Some (s, n, false)
  | inr (l, parent) =>
    s ← link_node s a junk parent l;
    s ← insert_color fuel s a;
    Some (s, a, true)
  end.

(** src/krbtree.c:579-583 rbtree_remove: rb_erase then xfree(node) *)
Definition rbtree_remove (fuel : nat) (s : rbs) (n : positive) : option rbs :=
  s ← erase fuel s n; Some (mks (delete n (heap s)) (root s)).

(** include/krbtree.h:13-19 iterator_ret *)
Inductive iter_ret := IterContinue | IterRemoveContinue | IterBreak | IterRemoveBreak.

(** src/krbtree.c:632-652 rbtree_iterator.  The callback is a state-passing function of the visited
    data; it does not itself modify the tree. *)
Fixpoint iter_loop {A} (F fuel : nat) (cb : K -> A -> iter_ret * A) (s : rbs) (a : A) (n : option positive)
  : option (rbs * A) :=
  match n with None => Some (s, a) | Some n =>
  match fuel with O => None | S fuel =>
  nx ← rb_next F s n;
  nn ← rd s n;
  match cb (dat nn) a with
  | (IterBreak, a) => Some (s, a)
  | (IterContinue, a) => iter_loop F fuel cb s a nx
  | (IterRemoveBreak, a) => s ← rbtree_remove F s n; Some (s, a)
  | (IterRemoveContinue, a) => s ← rbtree_remove F s n; iter_loop F fuel cb s a nx
  end end end.
Definition rbtree_iterator {A} (fuel : nat) (cb : K -> A -> iter_ret * A) (s : rbs) (a : A) : option (rbs * A) :=
  f ← rb_first fuel s; iter_loop fuel fuel cb s a f.
End with_cmp.
End rb_model.
Arguments node : clear implicits.
Arguments rbs : clear implicits.
