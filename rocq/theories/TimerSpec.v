(** Specification of the selector timers.  A pending timer is (deadline, id). *)
From stdpp Require Import prelude list.
From Coq Require Import ZArith Sorting.Sorted.
From Verif Require Import TimerModel.
Local Open Scope Z_scope.

Notation pending := (list (Z * nat)).
(** the timers that the callbacks of [ids] register, at time [now] *)
Definition registered (now : Z) (cb : callbacks) (ids : list nat) : pending :=
  ids ≫= (fun i => (fun a => (now + a.2, a.1)) <$> cb i).
Definition shift (d : Z) (P : pending) : pending := (fun e => (e.1 + d, e.2)) <$> P.

(** One call, as seen by the user: (clock, pending timers) before and after, and the ids called back in
    order.  The order of the list of pending timers carries no meaning. *)
Inductive tstep : Z * pending -> top -> list nat -> Z * pending -> Prop :=
| st_add now P id ms P' :
    P' ≡ₚ (now + ms, id) :: P -> tstep (now, P) (TAdd id ms) [] (now, P')
| st_time now P now' P' :
    (* the clock went back to an earlier second: deadlines move along *)
    P' ≡ₚ (if decide (now' / 1000 < now / 1000) then shift (now' - now) P else P) ->
    tstep (now, P) (TTime now') [] (now', P')
| st_adjust now P d P' :
    P' ≡ₚ shift d P -> tstep (now, P) (TAdjust d) [] (now, P')
| st_pass now P cb due later P' :
    (* exactly the timers that are due are called, once each, in order of their deadlines; those the
       callbacks register are not called in this pass, whatever their deadline *)
    P ≡ₚ due ++ later ->
    Forall (fun e => e.1 <= now) due -> Forall (fun e => now < e.1) later ->
    StronglySorted (fun e f => e.1 <= f.1) due ->
    P' ≡ₚ later ++ registered now cb due.*2 ->
    tstep (now, P) (TPass cb) due.*2 (now, P').
Inductive truns : Z * pending -> list top -> list (list nat) -> Z * pending -> Prop :=
| tr_nil s : truns s [] [] s
| tr_cons s o f s' os fs s'' : tstep s o f s' -> truns s' os fs s'' -> truns s (o :: os) (f :: fs) s''.

(** every id ever registered: by calls and by callbacks *)
Fixpoint all_registered (os : list top) (fs : list (list nat)) : list nat :=
  match os, fs with
  | TAdd id _ :: os, _ :: fs => id :: all_registered os fs
  | TPass cb :: os, f :: fs => (f ≫= fun i => (cb i).*1) ++ all_registered os fs
  | _ :: os, _ :: fs => all_registered os fs
  | _, _ => []
  end.

(** The exact behaviour: a queue sorted by deadline in which a new timer goes before those with the same
    deadline. *)
Fixpoint enqueue (e : Z * nat) (P : pending) : pending :=
  match P with [] => [e] | f :: P => if decide (f.1 < e.1) then f :: enqueue e P else e :: f :: P end.
Definition enqueue_all (es P : pending) : pending := foldl (fun P e => enqueue e P) P es.
Fixpoint split_due (now : Z) (P : pending) : pending * pending :=
  match P with
  | [] => ([], [])
  | e :: P => if decide (e.1 <= now) then let '(a, b) := split_due now P in (e :: a, b) else ([], e :: P)
  end.
Definition qstep (s : Z * pending) (o : top) : list nat * (Z * pending) :=
  let '(now, P) := s in
  match o with
  | TAdd id ms => ([], (now, enqueue (now + ms, id) P))
  | TTime now' => ([], (now', if decide (now' / 1000 < now / 1000) then shift (now' - now) P else P))
  | TAdjust d => ([], (now, shift d P))
  | TPass cb => let '(due, later) := split_due now P in
                (due.*2, (now, enqueue_all (registered now cb due.*2) later))
  end.
Fixpoint qrun (s : Z * pending) (os : list top) : list (list nat) * (Z * pending) :=
  match os with
  | [] => ([], s)
  | o :: os => let '(f, s) := qstep s o in let '(fs, s) := qrun s os in (f :: fs, s)
  end.
