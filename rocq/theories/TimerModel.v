(** Executable model of the selector timers (src/kselector.c), on top of the pointer-level
    red-black tree of RbModel.v.

    Simplifications (whole file):
    - int64_t milliseconds are unbounded integers (no overflow: 2^63 ms is 292 million years).
    - a [kgl_block_queue] is (id, active_msec); its callback, argument and data are the id.
      The singly linked chain hanging off a tree node ([krb_node::data], linked by
      [kgl_block_queue::next], NULL terminated) is a list, head first.
    - malloc: [alloc k X] is the address of the k-th allocation when the addresses in [X] are in use;
      the theorems quantify over every [alloc] that returns unused memory.
    - the clock [kgl_current_msec] does not change during a pass: it is written only by
      kselector_update_time, which the selector thread calls outside of the pass. *)
From Verif Require Import RbModel.
Local Open Scope Z_scope.

(** include/kselector.h:57-65 struct kgl_block_queue_s *)
Record brq := mkbrq { bid : nat; active_msec : Z }.

(** the fields of struct kselector_s (include/kselector.h:99-121) the timers use, and the globals
    kgl_current_msec/kgl_current_sec (src/kselector.c:17-18; sec is always msec/1000, see
    [update_time]); [nalloc] counts allocations *)
Record tsel := mktsel {
  block : rbs (list brq);
  block_first : option positive;
  clk : Z;
  nalloc : nat }.

(** enough fuel for every loop over the tree *)
Definition fuel_of (s : rbs (list brq)) : nat := 3 + size (heap s).

Section timer_model.
Context (alloc : nat -> gset positive -> positive).

(** src/kselector.c:55-74 kgl_insert_block_queue, the descent; [first] is *is_first *)
Fixpoint insert_descent (fuel : nat) (s : rbs (list brq)) (q : brq) (cur : option positive) (l : loc)
    (parent : option positive) (first : bool) : option ((positive + (loc * option positive)) * bool) :=
  match cur with None => Some (inr (l, parent), first) | Some n =>
  match fuel with O => None | S fuel =>
  nn ← rd s n;
  match dat nn with
  | [] => None
  | tmp :: _ =>
    let result := active_msec q - active_msec tmp in
    if result <? 0 then insert_descent fuel s q (lft nn) (LLeft n) (Some n) first
    else if 0 <? result then insert_descent fuel s q (rgt nn) (LRight n) (Some n) false
    else Some (inl n, false)
  end end end.

(** src/kselector.c:55-81 kgl_insert_block_queue: node and *is_first *)
Definition insert_block_queue (s : rbs (list brq)) (q : brq) (a : positive)
  : option (rbs (list brq) * positive * bool) :=
  '(r, first) ← insert_descent (fuel_of s) s q (root s) LRoot None true;
  match r with
  | inl n => (* brq->next = tmp, and the node now holds brq *)
      nn ← rd s n;
      s ← upd s n (w_dat (q :: dat nn));
      Some (s, n, first)
  | inr (l, parent) => (* node->data = brq; brq->next = NULL; rb_link_node; rb_insert_color *)
      s' ← link_node s a [q] parent l;
      s' ← insert_color (fuel_of s) s' a;
      Some (s', a, first)
  end.

(** src/kselector.c:282-291 kselector_add_block_queue, with its assertion *)
Definition add_block_queue (t : tsel) (q : brq) : option tsel :=
  let a := alloc (nalloc t) (dom (heap (block t))) in
  '(s, node, first) ← insert_block_queue (block t) q a;
  let bf := if first : bool then Some node else block_first t in
  m ← rb_first (fuel_of s) s;
  if decide (bf = m) then Some (mktsel s bf (clk t) (S (nalloc t))) else None.

(** src/kselector.c:292-307 kselector_add_timer *)
Definition add_timer (t : tsel) (id : nat) (msec : Z) : option tsel :=
  add_block_queue t (mkbrq id (clk t + msec)).

(** src/kselector.c:111-125 kselector_adjust_time (same thread), the loop over the timers *)
Fixpoint adjust_loop (F fuel : nat) (s : rbs (list brq)) (d : Z) (n : option positive)
  : option (rbs (list brq)) :=
  match n with None => Some s | Some n =>
  match fuel with O => None | S fuel =>
  nn ← rd s n;
  match dat nn with
  | [] => None (* kassert(brq) *)
  | q :: ch =>
    s ← upd s n (w_dat (mkbrq (bid q) (active_msec q + d) :: ch));
    nx ← rb_next F s n;
    adjust_loop F fuel s d nx
  end end end.
Definition adjust_time (t : tsel) (d : Z) : option tsel :=
  s ← adjust_loop (fuel_of (block t)) (fuel_of (block t)) (block t) d (block_first t);
  Some (mktsel s (block_first t) (clk t) (nalloc t)).

(** src/kselector.c:134-150 kselector_update_time; [now] is what gettimeofday returned, in
    milliseconds.  Only one selector exists here; other selectors get the same adjustment through
    their notice queue (src/kselector_manager.c selector_manager_adjust_time). *)
Definition update_time (t : tsel) (now : Z) : option tsel :=
  t' ← (if now / 1000 <? clk t / 1000 then adjust_time t (now - clk t) else Some t);
  Some (mktsel (block t') (block_first t') now (nalloc t')).

(** src/kselector.c:203-225: detach every node that is due; the detached nodes (linked by rb_right in
    the code) are the list of their chains *)
Fixpoint detach (fuel : nat) (t : tsel) : option (tsel * list (list brq)) :=
  match block_first t with
  | None => Some (t, [])
  | Some n =>
    match fuel with O => None | S fuel =>
    nn ← rd (block t) n;
    match dat nn with
    | [] => None (* kassert(rq) *)
    | rq :: _ =>
      if clk t <? active_msec rq then Some (t, [])
      else
        nx ← rb_next (fuel_of (block t)) (block t) n;
        s ← rbtree_remove (fuel_of (block t)) (block t) n; (* rb_erase; the node is ours now *)
        '(t', chs) ← detach fuel (mktsel s nx (clk t) (nalloc t));
        Some (t', dat nn :: chs)
    end end
  end.

(** what the callback of timer [id] does to the selector: the timers (id, msec) it adds *)
Definition callbacks := nat -> list (nat * Z).

Fixpoint add_timers (t : tsel) (l : list (nat * Z)) : option tsel :=
  match l with [] => Some t | (id, ms) :: l => t ← add_timer t id ms; add_timers t l end.

(** src/kselector.c:227-238: call the callbacks; returns the ids in call order *)
Fixpoint run_chain (t : tsel) (cb : callbacks) (ch : list brq) : option (tsel * list nat) :=
  match ch with
  | [] => Some (t, [])
  | q :: ch =>
      t ← add_timers t (cb (bid q));
      '(t, ids) ← run_chain t cb ch;
      Some (t, bid q :: ids)
  end.
Fixpoint run_chains (t : tsel) (cb : callbacks) (chs : list (list brq)) : option (tsel * list nat) :=
  match chs with
  | [] => Some (t, [])
  | ch :: chs =>
      '(t, ids) ← run_chain t cb ch;
      '(t, ids') ← run_chains t cb chs;
      Some (t, ids ++ ids')
  end.
(** src/kselector.c:203-238, the timer part of kselector_check_timeout *)
Definition timer_pass (t : tsel) (cb : callbacks) : option (tsel * list nat) :=
  '(t, chs) ← detach (fuel_of (block t)) t;
  run_chains t cb chs.

(** the calls *)
Inductive top :=
| TAdd (id : nat) (msec : Z)
| TTime (now : Z)
| TAdjust (d : Z)
| TPass (cb : callbacks).
(** result: the ids of the timers called back *)
Definition texec (t : tsel) (o : top) : option (tsel * list nat) :=
  match o with
  | TAdd id ms => t ← add_timer t id ms; Some (t, [])
  | TTime now => t ← update_time t now; Some (t, [])
  | TAdjust d => t ← adjust_time t d; Some (t, [])
  | TPass cb => timer_pass t cb
  end.
Fixpoint texec_all (t : tsel) (os : list top) : option (tsel * list (list nat)) :=
  match os with
  | [] => Some (t, [])
  | o :: os => '(t, f) ← texec t o; '(t, fs) ← texec_all t os; Some (t, f :: fs)
  end.
End timer_model.

(** src/kselector.c:88-106 kselector_new *)
Definition tsel_new (now : Z) : tsel := mktsel (mks ∅ None) None now 0.
