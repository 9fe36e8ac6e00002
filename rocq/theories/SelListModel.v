(** Model of the selector's three lists (connect, read/write, ready), of selector->count and of the idle
    timeout scan.

    The lists are sequences of object ids; that the pointer operations klist_append / klist_remove realise
    "append at the end" and "take out" on circular lists is C38.  [linked] is the field test
    "queue.next != NULL" (memset to 0 on removal).  All functions run in the selector's own thread
    (kassert(kselector_is_same_thread)), so a call is one atomic step; callbacks of the scan are sequences of
    further steps.  [elapsed] is a ghost: clock time without the jumps that were compensated; [listed_el] and
    [tmo_at] are ghosts: value of [elapsed] and of tmo when the object was last put in a list. *)
From Verif Require Export Lts.
Local Open Scope Z_scope.

(** include/kfiber_internal.h:68-90 struct kgl_base_selectable, include/kselectable.h:56-82 struct kselectable *)
Record obj := mko {
  tmo : nat; tmo_left : nat; act : Z (* active_msec *); linked : bool;
  rto : bool (* STF_RTIME_OUT *); rdp : bool (* STF_READ *);
  listed_el : Z; tmo_at : nat }.
(** include/kselector.h:99-121; now = kgl_current_msec *)
Record sel := mksel { ob : positive -> obj; lst : nat -> list positive; count : Z; now : Z; elapsed : Z }.

Definition CONNECT := 0%nat. Definition RW := 1%nat. Definition READY := 2%nat. (* kselector.h:13-15 *)

Definition setob (s : sel) (x : positive) (o : obj) : sel :=
  mksel (λ y, if decide (y = x) then o else ob s y) (lst s) (count s) (now s) (elapsed s).
Definition setlst (s : sel) (i : nat) (l : list positive) : sel :=
  mksel (ob s) (λ j, if decide (j = i) then l else lst s j) (count s) (now s) (elapsed s).
Definition setcount (s : sel) (c : Z) : sel := mksel (ob s) (lst s) c (now s) (elapsed s).
Definition w_linked (b : bool) (o : obj) := mko (tmo o) (tmo_left o) (act o) b (rto o) (rdp o) (listed_el o) (tmo_at o).
Definition w_act (a : Z) (o : obj) := mko (tmo o) (tmo_left o) a (linked o) (rto o) (rdp o) (listed_el o) (tmo_at o).
Definition w_left (n : nat) (o : obj) := mko (tmo o) n (act o) (linked o) (rto o) (rdp o) (listed_el o) (tmo_at o).
Definition w_list (e : Z) (o : obj) := mko (tmo o) (tmo_left o) (act o) (linked o) (rto o) (rdp o) e (tmo o).

(** klist_append(&selector->list[i], &x->queue) *)
Definition append (s : sel) (i : nat) (x : positive) : sel :=
  let s := setlst s i (lst s i ++ [x]) in setob s x (w_linked true (ob s x)).
(** klist_remove(&x->queue): out of the list it is in *)
Definition unlink (s : sel) (x : positive) : sel :=
  mksel (ob s) (λ j, filter (λ y, y <> x) (lst s j)) (count s) (now s) (elapsed s).
(** memset(&x->queue, 0, ...) *)
Definition clear (s : sel) (x : positive) : sel := setob s x (w_linked false (ob s x)).

(** include/kselectable.h:86-92 kselector_add_fiber_ready *)
Definition add_fiber_ready (s : sel) (x : positive) : sel := append (setcount s (count s + 1)) READY x.
(** include/kselectable.h:94-109 kselector_add_list *)
Definition add_list (s : sel) (x : positive) (i : nat) : sel :=
  let s := setob s x (w_list (elapsed s) (w_left (tmo (ob s x)) (ob s x))) in
  let s := if decide (i = READY) then s else setob s x (w_act (now s) (ob s x)) in
  let s := if linked (ob s x) then unlink s x else setcount s (count s + 1) in
  append s i x.
(** include/kselectable.h:126-135 kselector_remove_list; None: kassert(count > 0) fails *)
Definition remove_list (s : sel) (x : positive) : option sel :=
  if linked (ob s x) then
    let s := clear (unlink s x) x in
    if decide (0 < count s) then Some (setcount s (count s - 1)) else None
  else Some s.

Inductive out := ODone | OEmpty | OStop | ORearm (x : positive) | OReadTimeout (x : positive)
  | OShutdown (x : positive) | OReady (x : positive).

(** src/kselector.c:158-199: one turn of the loop for list i *)
Definition timeout_head (T : nat -> Z) (s : sel) (i : nat) : res sel out :=
  match lst s i with
  | [] => Ok s OEmpty
  | x :: _ =>
    if decide (now s - act (ob s x) < T i) then Ok s OStop else
    let s := clear (unlink s x) x in
    match tmo_left (ob s x) with
    | S n => let s := setob s x (w_act (now s) (w_left n (ob s x))) in Ok (append s i x) (ORearm x)
    | O =>
      if decide (0 < count s) then
        if rto (ob s x) && rdp (ob s x) then
          let s := append s i x in
          Ok (setob s x (w_act (now s) (ob s x))) (OReadTimeout x)
        else Ok (setcount s (count s - 1)) (OShutdown x)
      else Crash
    end
  end.
(** src/kselector.c:239-248: one turn of the ready loop, up to the callback *)
Definition ready_head (s : sel) : sel * out :=
  match lst s READY with
  | [] => (s, OEmpty)
  | x :: _ => let s := clear (unlink s x) x in (setcount s (count s - 1), OReady x)
  end.
(** src/kselector.c:126-132: the list part of kselector_adjust_time *)
Definition adjust (s : sel) (d : Z) : sel :=
  mksel (λ x, if decide (x ∈ lst s CONNECT \/ x ∈ lst s RW) then w_act (act (ob s x) + d) (ob s x) else ob s x)
    (lst s) (count s) (now s) (elapsed s).
(** src/kselector.c:134-150 kselector_update_time, [t] = gettimeofday in ms *)
Definition update_time (s : sel) (t : Z) : sel :=
  if decide (t / 1000 < now s / 1000) then
    let s' := adjust s (t - now s) in mksel (ob s') (lst s') (count s') t (elapsed s')
  else mksel (ob s) (lst s) (count s) t (elapsed s + (t - now s)).

Inductive op :=
| EFiber (x : positive)            (* kselector_add_fiber_ready *)
| EAdd (x : positive) (i : nat)    (* kselector_add_list *)
| ERemove (x : positive)           (* kselector_remove_list *)
| EFlags (x : positive) (rt rd : bool)  (* the connection's flags change *)
| ETmo (x : positive) (n : nat)    (* the number of extra rounds is set *)
| ETime (t : Z)                    (* kselector_update_time *)
| ETimeout (i : nat)               (* one turn of the scan of list i *)
| EReady.                          (* one turn of the ready loop *)
(** [Disabled]: the call is not allowed (fiber already queued; list index out of range) *)
Definition step (T : nat -> Z) (s : sel) (o : op) : res sel out :=
  match o with
  | EFiber x => if linked (ob s x) then Disabled else Ok (add_fiber_ready s x) ODone
  | EAdd x i => if decide (i <= READY)%nat then Ok (add_list s x i) ODone else Disabled
  | ERemove x => match remove_list s x with Some s => Ok s ODone | None => Crash end
  | EFlags x rt rd => let o := ob s x in
      Ok (setob s x (mko (tmo o) (tmo_left o) (act o) (linked o) rt rd (listed_el o) (tmo_at o))) ODone
  | ETmo x n => let o := ob s x in
      Ok (setob s x (mko n (tmo_left o) (act o) (linked o) (rto o) (rdp o) (listed_el o) (tmo_at o))) ODone
  | ETime t => Ok (update_time s t) ODone
  | ETimeout i => if decide (i <= RW)%nat then timeout_head T s i else Disabled
  | EReady => let '(s, o) := ready_head s in Ok s o
  end.

(** src/kselector.c:88-101: all lists empty *)
Definition sel_init (objs : positive -> obj) (t : Z) : sel := mksel objs (λ _, []) 0 t 0.

(** the scan of one list (src/kselector.c:158-199) with callbacks: [cb x] is what the read callback of x does.
    Running out of fuel is a Crash. *)
Definition is_cb_op (o : op) : bool :=
  match o with EFiber _ | EAdd _ _ | ERemove _ | EFlags _ _ _ | ETmo _ _ => true | _ => false end.
Fixpoint scan (T : nat -> Z) (fuel : nat) (cb : positive -> list op) (s : sel) (i : nat) : res sel (list out) :=
  match fuel with O => Crash | S fuel =>
  match timeout_head T s i with
  | Disabled => Disabled | Crash => Crash
  | Ok s OEmpty | Ok s OStop => Ok s []
  | Ok s o =>
    match run (step T) s (match o with OReadTimeout x => cb x | _ => [] end) with
    | Disabled => Disabled | Crash => Crash
    | Ok s _ =>
      match scan T fuel cb s i with
      | Disabled => Disabled | Crash => Crash
      | Ok s os => Ok s (o :: os)
      end
    end
  end end.
(** src/kselector.c:157-201: both idle lists *)
Definition idle_pass (T : nat -> Z) (cb : positive -> list op) (s : sel) : res sel (list out) :=
  match scan T (S (length (lst s CONNECT))) cb s CONNECT with
  | Disabled => Disabled | Crash => Crash
  | Ok s o1 =>
    match scan T (S (length (lst s RW))) cb s RW with
    | Disabled => Disabled | Crash => Crash
    | Ok s o2 => Ok s (o1 ++ o2)
    end
  end.
