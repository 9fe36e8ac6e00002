(** Model of fiber lifetime and join (src/kfiber.c:89-96, 134-156, 231-382; close_cond as in FcondModel.v).
    Atomic steps: one API call up to its suspension, the exit callback split into notice and release (a joiner may run on
    another thread in between).  Reading or writing a freed fiber and failed assertions are [Crash]. *)
From Verif Require Export Lts.
Local Open Scope Z_scope.

(** close_cond: auto- or manual-reset, ev, waiter chain (true, j) = callback request, (false, j) = joining fiber *)
Record ccond := mkcc { cauto : bool; cev : Z; cwait : list (bool * positive) }.
Inductive phase := Live | Finishing | Noticed | Gone.
#[global] Instance phase_eq_dec : EqDecision phase.
Proof. solve_decision. Defined.
(** [alive]: memory not freed; ref; close_cond; retval.  Ghosts: [ph] progress of the exit, [handles] handles not yet
    given to a join call, [joined] joining fibers released by the notice and not yet continued, [frees] number of frees,
    [posted] results handed to callback joins. *)
Record fobj := mkf { alive : bool; ref : Z; cond : option ccond; retv : Z;
                     ph : phase; handles : Z; joined : list positive; frees : Z; posted : list (positive * Z) }.
(** fiber_count and all fibers ever created *)
Record sys := mksys { fcount : Z; made : list positive; obj : positive -> fobj }.
Definition nofiber : fobj := mkf false 0 None 0 Gone 0 [] 0 [].
Definition sys_init : sys := mksys 0 [] (λ _, nofiber).

(** kfiber.c:231-274 kfiber_new, 289-319 kfiber_create2 / kfiber_start: with handle: ref 2 and a manual-reset cond *)
Definition new_fobj (hd : bool) : fobj :=
  mkf true (if hd then 2 else 1) (if hd then Some (mkcc false 0 []) else None) 0 Live (if hd then 1 else 0) [] 0 [].
(** kfiber.c:134-138 kfiber_release, 89-96 kfiber_destroy (close_cond release asserts that nobody waits) *)
Definition release (o : fobj) : option (fobj * bool) :=
  if negb (alive o) then None else
  let o := mkf (alive o) (ref o - 1) (cond o) (retv o) (ph o) (handles o) (joined o) (frees o) (posted o) in
  if bool_decide (ref o = 0) then
    match cond o with
    | Some c => match cwait c with
                | [] => Some (mkf false 0 (cond o) (retv o) (ph o) (handles o) (joined o) (frees o + 1) (posted o), true)
                | _ => None
                end
    | None => Some (mkf false 0 (cond o) (retv o) (ph o) (handles o) (joined o) (frees o + 1) (posted o), true)
    end
  else Some (o, false).
(** kfiber_sync.c:86-131: the waiters released by a notice, and the condition afterwards *)
Definition cnotice (c : ccond) : ccond * list (bool * positive) :=
  if cauto c then
    match cwait c with
    | [] => (mkcc true (cev c + 1) [], [])
    | w :: ws => (mkcc true (cev c) ws, [w])
    end
  else (mkcc false 1 [], cwait c).
Definition is_cb (w : bool * positive) : option positive := if w.1 then Some w.2 else None.
Definition is_fib (w : bool * positive) : option positive := if w.1 then None else Some w.2.
(** kfiber.c:139-145 result_fiber_exit, first part *)
Definition exit_notice (o : fobj) (got : Z) : fobj :=
  match cond o with
  | None => mkf (alive o) (ref o) None got Noticed (handles o) (joined o) (frees o) (posted o)
  | Some c => let '(c, ws) := cnotice c in
      mkf (alive o) (ref o) (Some c) got Noticed (handles o) (joined o ++ omap is_fib ws) (frees o) (posted o ++ ((λ j, (j, got)) <$> omap is_cb ws))
  end.
Definition set_cond (o : fobj) (c : ccond) : fobj := mkf (alive o) (ref o) (Some c) (retv o) (ph o) (handles o) (joined o) (frees o) (posted o).
Definition set_ret (o : fobj) (v : Z) : fobj := mkf (alive o) (ref o) (cond o) v (ph o) (handles o) (joined o) (frees o) (posted o).
Definition set_ph (o : fobj) (p : phase) : fobj := mkf (alive o) (ref o) (cond o) (retv o) p (handles o) (joined o) (frees o) (posted o).
Definition use_handle (o : fobj) : fobj := mkf (alive o) (ref o) (cond o) (retv o) (ph o) (handles o - 1) (joined o) (frees o) (posted o).
Definition unjoin (o : fobj) (j : positive) : fobj := mkf (alive o) (ref o) (cond o) (retv o) (ph o) (handles o) (remove1 j (joined o)) (frees o) (posted o).
Definition post (o : fobj) (j : positive) (v : Z) : fobj := mkf (alive o) (ref o) (cond o) (retv o) (ph o) (handles o) (joined o) (frees o) (posted o ++ [(j, v)]).
Definition take (c : ccond) : ccond := mkcc (cauto c) (if cauto c then cev c - 1 else cev c) (cwait c).
Definition enq (c : ccond) (w : bool * positive) : ccond := mkcc (cauto c) (cev c) (w :: cwait c).

Inductive ev :=
  | Create (f : positive) (hd : bool)   (* kfiber_create / kfiber_create2 / kfiber_create_sync / kfiber_new+kfiber_start *)
  | Woken (f : positive) (v : Z)        (* the running fiber is resumed from some wait with v: fiber->retval = v *)
  | RefSelf (f : positive)              (* kfiber_ref_self by f, kfiber.c:340-352 *)
  | ExitCb (f : positive) (j : positive)(* kfiber_exit_callback by f, kfiber.c:332-339 *)
  | Return (f : positive) (v : Z)       (* the start function returns v: kfiber_exit, kfiber.c:150-156 *)
  | ExitNotice (f : positive)           (* selector loop: result_fiber_exit up to the notice *)
  | ExitRelease (f : positive)          (* ... and its release *)
  | Join (f j : positive)               (* kfiber_join(f) by fiber j, kfiber.c:367-382 *)
  | TryJoin (f : positive)              (* kfiber_try_join(f), kfiber.c:353-366 *)
  | Join2 (f j : positive)              (* kfiber_join2(f, callback j), kfiber.c:320-330 *)
  | JoinResume (f j : positive).        (* joining fiber j continues after the notice *)
Inductive out := ORet (v : Z) | OSuspend | OFail | ODone.

Definition put (s : sys) (f : positive) (o : fobj) : sys := mksys (fcount s) (made s) (λ g, if decide (g = f) then o else obj s g).
Definition drop (s : sys) (f : positive) (r : option (fobj * bool)) (out_ : out) : res sys out :=
  match r with
  | None => Crash
  | Some (o, freed) => Ok (mksys (if freed then fcount s - 1 else fcount s) (made s) (λ g, if decide (g = f) then o else obj s g)) out_
  end.
(** [strict]: no second handle / exit callback on a fiber created without handle (its cond is auto-reset) *)
Definition more_ok (strict : bool) (o : fobj) : bool :=
  negb strict || match cond o with Some c => negb (cauto c) | None => true end.
Definition step (strict : bool) (s : sys) (e : ev) : res sys out :=
  match e with
  | Create f hd => if decide (f ∈ made s) then Disabled
                   else Ok (mksys (fcount s + 1) (f :: made s) (λ g, if decide (g = f) then new_fobj hd else obj s g)) ODone
  | Woken f v => let o := obj s f in
      if decide (f ∈ made s /\ ph o = Live) then if alive o then Ok (put s f (set_ret o v)) ODone else Crash else Disabled
  | RefSelf f => let o := obj s f in
      if decide (f ∈ made s /\ ph o = Live /\ more_ok strict o = true) then if alive o then
        let c := match cond o with Some c => c | None => mkcc true 0 [] end in
        Ok (put s f (mkf (alive o) (ref o + 1) (Some c) (retv o) (ph o) (handles o + 1) (joined o) (frees o) (posted o))) ODone
      else Crash else Disabled
  | ExitCb f j => let o := obj s f in
      if decide (f ∈ made s /\ ph o = Live /\ more_ok strict o = true) then if alive o then
        let c := match cond o with Some c => c | None => mkcc true 0 [] end in
        if bool_decide (cev c > 0) then Ok (put s f (post (set_cond o (take c)) j 0)) ODone
        else Ok (put s f (set_cond o (enq c (true, j)))) ODone
      else Crash else Disabled
  | Return f v => let o := obj s f in
      if decide (f ∈ made s /\ ph o = Live) then if alive o then Ok (put s f (set_ph (set_ret o v) Finishing)) ODone else Crash else Disabled
  | ExitNotice f => let o := obj s f in
      if decide (f ∈ made s /\ ph o = Finishing) then if alive o then Ok (put s f (exit_notice o (retv o))) ODone else Crash else Disabled
  | ExitRelease f => let o := obj s f in
      if decide (f ∈ made s /\ ph o = Noticed) then drop s f (release (set_ph o Gone)) ODone else Disabled
  | Join f j => let o := obj s f in
      if decide (f ∈ made s /\ 0 < handles o) then if alive o then
        match cond o with
        | None => Crash
        | Some c => if bool_decide (cev c > 0) then drop s f (release (use_handle (set_cond o (take c)))) (ORet (retv o))
                    else Ok (put s f (use_handle (set_cond o (enq c (false, j))))) OSuspend
        end else Crash else Disabled
  | TryJoin f => let o := obj s f in
      if decide (f ∈ made s /\ 0 < handles o) then if alive o then
        match cond o with
        | None => Crash
        | Some c => if bool_decide (cev c > 0) then drop s f (release (use_handle (set_cond o (take c)))) (ORet (retv o))
                    else Ok s OFail
        end else Crash else Disabled
  | Join2 f j => let o := obj s f in
      if decide (f ∈ made s /\ 0 < handles o) then if alive o then
        match cond o with
        | None => drop s f (release (use_handle (post o j (-1)))) ODone
        | Some c => if bool_decide (cev c > 0) then drop s f (release (use_handle (post (set_cond o (take c)) j 0))) ODone
                    else drop s f (release (use_handle (set_cond o (enq c (true, j))))) ODone
        end else Crash else Disabled
  | JoinResume f j => let o := obj s f in
      if decide (f ∈ made s /\ j ∈ joined o) then if alive o then drop s f (release (unjoin o j)) (ORet (retv o)) else Crash else Disabled
  end.

(** joins in progress on a fiber: suspended joiners and released ones that have not continued *)
Definition waiting_joins (o : fobj) : list positive := match cond o with Some c => omap is_fib (cwait c) | None => [] end.
