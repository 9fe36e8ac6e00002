(** Model of fiber switching on one selector thread (include/kfiber.h:54-137, src/kfiber.c:105-156, 168-174, 231-301).
    Fiber 1 is the thread's main fiber (the selector loop).  [ctx f] is the saved machine context of f: the place in the
    program where jump_fcontext/swapcontext to f continues (the machine-level switch itself is trusted).
    wait_code/obj matching (a debug aid) and the stack memory are not modelled. *)
From Verif Require Export Lts.
Local Open Scope Z_scope.

Inductive ctxp :=
  | Unborn                      (* no such fiber yet *)
  | Running                     (* f is the current fiber: nothing saved *)
  | AtWakeup (g : positive)     (* inside its call kfiber_wakeup(g, ..) *)
  | AtWait                      (* inside __kfiber_wait *)
  | AtExit                      (* inside the __kfiber_wait of kfiber_exit: finished *)
  | Dead.                       (* context deleted *)
#[global] Instance ctxp_eq_dec : EqDecision ctxp.
Proof. solve_decision. Defined.
Notation main := 1%positive.

(** cur: selector->fiber (kfiber_self); sf: switch_from; ret: retval; wf/nf: wait_flag/notice_flag; ready: exit callbacks
    queued on the selector's ready list, oldest first *)
Record sys := mksys { cur : positive; sf : positive -> option positive; ctx : positive -> ctxp; ret : positive -> Z;
                      wf : positive -> bool; nf : positive -> bool; ready : list positive }.
Definition upd {A} (m : positive -> A) (k : positive) (v : A) : positive -> A := λ x, if decide (x = k) then v else m x.
(** kfiber.c:177-203 kfiber_thread_init *)
Definition sys_init : sys :=
  mksys main (λ _, None) (λ f, if decide (f = main) then Running else Unborn) (λ _, 0) (λ _, false) (λ _, false) [].

(** kfiber.c:105-132 __kfiber_switch: save the running context at [at_], continue fiber [to_] where it was saved *)
Definition switch (s : sys) (at_ : ctxp) (to_ : positive) : sys :=
  mksys to_ (sf s) (upd (upd (ctx s) (cur s) at_) to_ Running) (ret s) (wf s) (nf s) (ready s).

(** what the entered fiber does next: returns from a wait with a value, returns from its kfiber_wakeup, begins *)
Inductive out := OEnter (f : positive) (at_ : ctxp) (v : Z) | OSelf | ODone.
(** flags cleared by the entered fiber: kfiber.h:115-117 (after a wait), kfiber.c:170-172 (start of a fiber) *)
Definition clear_flags (s : sys) (f : positive) : sys :=
  mksys (cur s) (sf s) (ctx s) (ret s) (upd (wf s) f false) (upd (nf s) f false) (ready s).

(** kfiber.h:54-85 kfiber_wakeup(g, obj, v) called by the current fiber; None = failed assertion *)
Definition wakeup (s : sys) (g : positive) (v : Z) : option (sys * out) :=
  if nf s g then None
  else let s := mksys (cur s) (sf s) (ctx s) (upd (ret s) g v) (wf s) (upd (nf s) g true) (ready s) in
    if decide (cur s = g) then Some (s, OSelf)
    else let s1 := mksys (cur s) (upd (sf s) g (Some (cur s))) (ctx s) (ret s) (wf s) (nf s) (ready s) in
      Some (clear_flags (switch s1 (AtWakeup g) g) g, OEnter g (ctx s g) (ret s1 g)).
(** kfiber.h:92-121 __kfiber_wait by the current fiber ([at_] = AtWait), and kfiber.c:150-156 kfiber_exit ([at_] = AtExit) *)
Definition wait (s : sys) (at_ : ctxp) : option (sys * out) :=
  match sf s (cur s) with
  | None => None                                           (* kassert(fiber->switch_from) *)
  | Some p => if wf s (cur s) then None                    (* assert(fiber->wait_flag == 0) *)
              else if decide (p = cur s) then None         (* assert(fiber_from != fiber_to) in __kfiber_switch *)
              else let s1 := mksys (cur s) (sf s) (ctx s) (ret s) (upd (wf s) (cur s) true) (nf s) (ready s) in
                   Some (switch s1 at_ p, OEnter p (ctx s p) (ret s p))
  end.

(** [Spawn g v]: kfiber_create (kfiber_new + kfiber_wakeup, kfiber.c:289-301).  [Wakeup g v]: any wake-up of a fiber that is
    suspended, or of the caller itself (an operation completing at once).  [TakeSelf]: kfiber_wait_result with kev_fiber_ok
    (kfiber.h:135-149).  [Wait], [Exit v]: the current fiber suspends / its start function returns v.
    [RunExit]: the selector loop runs the oldest queued exit callback (kselector.c:236-250, kfiber.c:139-148). *)
Inductive ev := Spawn (g : positive) (v : Z) | Wakeup (g : positive) (v : Z) | TakeSelf | Wait | Exit (v : Z) | RunExit.
Definition lift (o : option (sys * out)) : res sys out := match o with None => Crash | Some (s, o) => Ok s o end.
Definition step (s : sys) (e : ev) : res sys out :=
  match e with
  | Spawn g v => if decide (ctx s g = Unborn) then lift (wakeup s g v) else Disabled
  | Wakeup g v =>
      if decide (ctx s g = AtWait) then lift (wakeup s g v)
      else if decide (g = cur s /\ g <> main /\ nf s g = false) then lift (wakeup s g v) else Disabled
  | TakeSelf => if nf s (cur s) then
      if wf s (cur s) then Crash else Ok (clear_flags s (cur s)) ODone else Disabled
  | Wait => if decide (cur s = main) then Disabled else if nf s (cur s) then Disabled else lift (wait s AtWait)
  | Exit v => if decide (cur s = main) then Disabled else
      let s := clear_flags s (cur s) in
      lift (wait (mksys (cur s) (sf s) (ctx s) (upd (ret s) (cur s) v) (wf s) (nf s) (ready s ++ [cur s])) AtExit)
  | RunExit => if decide (cur s = main) then
      match ready s with [] => Disabled
      | f :: fs => if decide (ctx s f = AtExit) then
                     Ok (mksys (cur s) (sf s) (upd (ctx s) f Dead) (ret s) (wf s) (nf s) fs) ODone else Crash
      end else Disabled
  end.

(** Specification: [linked s l]: l is the chain of resumptions, innermost first, ending in the main fiber: each member was
    resumed by the next one, which is inside that very kfiber_wakeup call *)
Fixpoint linked (s : sys) (l : list positive) : Prop :=
  match l with
  | [] => False
  | [x] => x = main
  | x :: ((y :: _) as l') => sf s x = Some y /\ ctx s y = AtWakeup x /\ linked s l'
  end.
(** nesting depth read off a schedule: +1 when a fiber is entered by a wake-up/creation, -1 when one suspends or exits *)
Definition enters (o : out) (e : ev) : Z := match e, o with (Spawn _ _ | Wakeup _ _), OEnter _ _ _ => 1 | (Wait | Exit _), _ => -1 | _, _ => 0 end.
Fixpoint depth (es : list ev) (os : list out) : Z :=
  match es, os with e :: es, o :: os => enters o e + depth es os | _, _ => 0 end.
(** who resumed f last, read off the schedule *)
Fixpoint last_resumer (s : sys) (es : list ev) (f : positive) (r : option positive) : option positive :=
  match es with
  | [] => r
  | e :: es => match step s e with
               | Ok s' o => last_resumer s' es f
                   (match e, o with (Spawn g _ | Wakeup g _), OEnter _ _ _ => if decide (g = f) then Some (cur s) else r | _, _ => r end)
               | _ => r
               end
  end.
