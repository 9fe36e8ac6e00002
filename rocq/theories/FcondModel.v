(** Model of kfiber_cond: auto-reset and manual-reset, single-thread and thread-safe variants
    (src/kfiber_sync.c:37-282).  The thread-safe functions run the same code inside fcs->lock; one critical
    section (or one single-thread call) is one atomic step.  [ret f] is fiber->retval (include/kfiber.h:77):
    the value with which fiber f was last resumed by anything, initially its start argument's bits.
    A waiter taken off the chain is [woken] with the notice's value until its [Resume].  Waiters can be fibers
    or callback requests (wait_callback).  The chain is newest first (include/kfiber.h:169-173). *)
From Verif Require Export Lts.
Local Open Scope Z_scope.

Record sys := mksys { ev : Z; waiters : list positive; woken : list (positive * Z); ret : positive -> Z }.
Definition sys_init (r0 : positive -> Z) : sys := mksys 0 [] [] r0.

Inductive op :=
  | Notice (v : Z)            (* f->notice(fc, v) *)
  | Wait (f : positive)       (* f->wait(fc, &got) by fiber f *)
  | TryWait (f : positive)    (* f->try_wait(fc, &got) *)
  | WaitCb (f : positive)     (* f->wait_callback *)
  | Resume (f : positive)     (* a woken fiber continues / a posted callback runs *)
  | Elsewhere (f : positive) (v : Z).   (* fiber f is suspended and resumed with v by something else *)
Inductive out := ORet (v : Z) | OSuspend | OFail | ODone.

Definition idle (s : sys) (f : positive) : Prop := f ∉ waiters s /\ f ∉ (woken s).*1.
#[global] Instance idle_dec s f : Decision (idle s f).
Proof. unfold idle. apply _. Defined.
Definition set_ret (r : positive -> Z) (f : positive) (v : Z) : positive -> Z := λ g, if decide (g = f) then v else r g.

(** kfiber_sync.c:86-110 (auto: kfiber_cond_notice_ts_ar / _notice_ar), 111-131 (manual: _notice_ts / _notice) *)
Definition notice (auto : bool) (s : sys) (v : Z) : sys :=
  if auto then
    match waiters s with
    | w :: ws => mksys (ev s) ws ((w, v) :: woken s) (ret s)
    | [] => mksys (ev s + 1) [] (woken s) (ret s)
    end
  else mksys 1 [] (((λ w, (w, v)) <$> waiters s) ++ woken s) (ret s).
(** kfiber_sync.c:132-153, 182-199 (auto wait), 200-221, 255-271 (manual wait): on ev > 0, *got = fiber->retval *)
Definition wait (auto : bool) (s : sys) (f : positive) : sys * out :=
  if bool_decide (ev s > 0) then (mksys (if auto then ev s - 1 else ev s) (waiters s) (woken s) (ret s), ORet (ret s f))
  else (mksys (ev s) (f :: waiters s) (woken s) (ret s), OSuspend).
(** kfiber_sync.c:154-181, 222-236, 272-282 *)
Definition try_wait (auto : bool) (s : sys) (f : positive) : sys * out :=
  if bool_decide (ev s > 0) then (mksys (if auto then ev s - 1 else ev s) (waiters s) (woken s) (ret s), ORet (ret s f))
  else (s, OFail).
(** kfiber_sync.c:37-85: on ev > 0 the callback is posted with result 0 *)
Definition wait_cb (auto : bool) (s : sys) (f : positive) : sys :=
  if bool_decide (ev s > 0) then mksys (if auto then ev s - 1 else ev s) (waiters s) ((f, 0) :: woken s) (ret s)
  else mksys (ev s) (f :: waiters s) (woken s) (ret s).

Definition step (auto : bool) (s : sys) (o : op) : res sys out :=
  match o with
  | Notice v => Ok (notice auto s v) ODone
  | Wait f => if decide (idle s f) then let '(s, r) := wait auto s f in Ok s r else Disabled
  | TryWait f => if decide (idle s f) then let '(s, r) := try_wait auto s f in Ok s r else Disabled
  | WaitCb f => if decide (idle s f) then Ok (wait_cb auto s f) OSuspend else Disabled
  | Resume f => match list_find (λ x, x.1 = f) (woken s) with
                | Some (_, (_, v)) => Ok (mksys (ev s) (waiters s) (filter (λ x, x.1 <> f) (woken s)) (set_ret (ret s) f v)) (ORet v)
                | None => Disabled
                end
  | Elsewhere f v => if decide (idle s f) then Ok (mksys (ev s) (waiters s) (woken s) (set_ret (ret s) f v)) ODone else Disabled
  end.

(** what an observer counts in a schedule *)
Definition is_notice (o : op) : bool := match o with Notice _ => true | _ => false end.
Definition is_return (r : out) : bool := match r with ORet _ => true | _ => false end.
Definition notices (os : list op) : nat := length (filter (λ o, is_notice o = true) os).
Definition returns (rs : list out) : nat := length (filter (λ r, is_return r = true) rs).
