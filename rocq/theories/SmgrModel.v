(** Model of the selector manager's life: src/kselector_manager.c:30-43 (globals), 44-64 (kselector_init, kselector_exit), 85-100
    (kselector_thread), 102-141 (next_add_timer, add_timer_on_ready, selector_manager_add_timer, kselector_add_timer_ts), 146-168
    (selector_manager_close), 169-181 (selector_manager_start), 212-226 (selector_manager_add_callback,
    selector_manager_thread_init), 245-269 (selector_manager_grow), 270-297 (selector_manager_init), 316-327
    (selector_manager_on_ready, is_selector_manager_init), include/kselector.h:150-152 (kselector_can_close).

    Any number of program threads and one thread per selector; the scheduler picks the next step.  Simplified:
    - get_perfect_selector (C43) is any selector: the event says which; using the table while selectors are being made crashes;
    - kgl_selector_module.next puts a job into the selector's queue, the selector's loop takes the jobs in any order (C30, C31, C57,
      C63, C66 are about that queue);
    - the timers of a selector are a set of deadlines (C25-C27 are about their order); [cur] is kgl_current_msec, which only grows here
      (C27 is about a clock set back);
    - pushing a callback on one of the two lists is two steps, the read and the write of the list head;
    - starting a thread (C50) succeeds; the threads of selector_manager_start are started in one step.
    [dbg]: MALLOCDEBUG is defined (otherwise selector threads never leave their loop). *)
From stdpp Require Export gmap.
From Verif Require Export Lts Count.
Local Open Scope Z_scope.

(** what is in a selector's queue: a user callback of selector_manager_on_ready; add_timer_on_ready; next_add_timer *)
Inductive job := JReady (id : nat) | JTimerReady (id : nat) | JTimerNext (id : nat).
#[global] Instance job_dec : EqDecision job. Proof. solve_decision. Defined.
(** thread of a selector: none yet; started; in kselector_init with these callbacks to run; in its loop; in kselector_exit; over *)
Inductive phase := PNew | PStarted | PInit (l : list nat) | PRun | PExit (l : list nat) | PGone.
#[global] Instance phase_dec : EqDecision phase. Proof. solve_decision. Defined.
(** [fr]: destroyed *)
Record sel := mksel { ph : phase; q : list job; tm : list nat; fr : bool }.
Inductive who := Prog (k : nat) | Sel (i : nat).
#[global] Instance who_dec : EqDecision who. Proof. solve_decision. Defined.
(** calls of user functions: thread_init callback (thread starts / ends), on_ready callback, timer (at this time) *)
Inductive call := CInit (id i : nat) (ends : bool) | CReady (id i : nat) | CTimer (id i : nat) (at_ : Z).
#[global] Instance call_dec : EqDecision call. Proof. solve_decision. Defined.
(** a registration between its read and its write of the list head: on_ready list (with the item) or thread_init list *)
Inductive reg := RReady (j : job) (l : list job) | RInit (id : nat) (l : list nat).
(** selector_manager_init: not called; making selectors; draining the list; over *)
Inductive ipc := INo | IMake (n : nat) | IDrain | IDone.
#[global] Instance ipc_dec : EqDecision ipc. Proof. solve_decision. Defined.

(** [sels]: kgl_selectors; [ip]: position of selector_manager_init (kgl_selectors is not NULL from IMake on); [ready]: on_ready_list;
    [tinit]: thread_init; [regs]: registrations under way; [cur]: the clock; [dl]: deadline of each timer; [started]; [closing]:
    selector_manager_close has set closed; [tabfree]: kgl_selectors was freed.
    History: [calls]; [rids], [tids], [iids]: callbacks registered with on_ready, as timers, with thread_init (accepted). *)
Record st := mkst {
  sels : list sel; ip : ipc; ready : list job; tinit : list nat; regs : list (who * reg); cur : Z; dl : gmap nat Z;
  started : bool; closing : bool; tabfree : bool; calls : list call; rids : list nat; tids : list nat; iids : list nat }.
Definition s_sels (v : list sel) (s : st) := mkst v (ip s) (ready s) (tinit s) (regs s) (cur s) (dl s) (started s) (closing s) (tabfree s) (calls s) (rids s) (tids s) (iids s).
Definition s_ip (v : ipc) (s : st) := mkst (sels s) v (ready s) (tinit s) (regs s) (cur s) (dl s) (started s) (closing s) (tabfree s) (calls s) (rids s) (tids s) (iids s).
Definition s_ready (v : list job) (s : st) := mkst (sels s) (ip s) v (tinit s) (regs s) (cur s) (dl s) (started s) (closing s) (tabfree s) (calls s) (rids s) (tids s) (iids s).
Definition s_tinit (v : list nat) (s : st) := mkst (sels s) (ip s) (ready s) v (regs s) (cur s) (dl s) (started s) (closing s) (tabfree s) (calls s) (rids s) (tids s) (iids s).
Definition s_regs (v : list (who * reg)) (s : st) := mkst (sels s) (ip s) (ready s) (tinit s) v (cur s) (dl s) (started s) (closing s) (tabfree s) (calls s) (rids s) (tids s) (iids s).
Definition s_cur (v : Z) (s : st) := mkst (sels s) (ip s) (ready s) (tinit s) (regs s) v (dl s) (started s) (closing s) (tabfree s) (calls s) (rids s) (tids s) (iids s).
Definition s_dl (v : gmap nat Z) (s : st) := mkst (sels s) (ip s) (ready s) (tinit s) (regs s) (cur s) v (started s) (closing s) (tabfree s) (calls s) (rids s) (tids s) (iids s).
Definition s_started (v : bool) (s : st) := mkst (sels s) (ip s) (ready s) (tinit s) (regs s) (cur s) (dl s) v (closing s) (tabfree s) (calls s) (rids s) (tids s) (iids s).
Definition s_closing (v : bool) (s : st) := mkst (sels s) (ip s) (ready s) (tinit s) (regs s) (cur s) (dl s) (started s) v (tabfree s) (calls s) (rids s) (tids s) (iids s).
Definition s_tabfree (v : bool) (s : st) := mkst (sels s) (ip s) (ready s) (tinit s) (regs s) (cur s) (dl s) (started s) (closing s) v (calls s) (rids s) (tids s) (iids s).
Definition s_calls (v : list call) (s : st) := mkst (sels s) (ip s) (ready s) (tinit s) (regs s) (cur s) (dl s) (started s) (closing s) (tabfree s) v (rids s) (tids s) (iids s).
Definition s_rids (v : list nat) (s : st) := mkst (sels s) (ip s) (ready s) (tinit s) (regs s) (cur s) (dl s) (started s) (closing s) (tabfree s) (calls s) v (tids s) (iids s).
Definition s_tids (v : list nat) (s : st) := mkst (sels s) (ip s) (ready s) (tinit s) (regs s) (cur s) (dl s) (started s) (closing s) (tabfree s) (calls s) (rids s) v (iids s).
Definition s_iids (v : list nat) (s : st) := mkst (sels s) (ip s) (ready s) (tinit s) (regs s) (cur s) (dl s) (started s) (closing s) (tabfree s) (calls s) (rids s) (tids s) v.
Definition init (t0 : Z) : st := mkst [] INo [] [] [] t0 ∅ false false false [] [] [] [].

Inductive ev :=
| EOnReady (w : who) (id j : nat)             (* selector_manager_on_ready; j: the selector get_perfect_selector would choose *)
| EAddTimer (w : who) (id : nat) (ms : Z) (j : nat) (* selector_manager_add_timer *)
| ETs (w : who) (id : nat) (ms : Z) (j : nat)       (* kselector_add_timer_ts on selector j *)
| EThreadInit (w : who) (id : nat)            (* selector_manager_thread_init *)
| ERegW (w : who)                             (* the write of the list head *)
| EInit (n : nat) | EMake | EDrain (j : nat) | EInitEnd (* selector_manager_init *)
| EStart                                      (* selector_manager_start *)
| EGrow (n : nat)                             (* selector_manager_grow, called on selector 0's thread; n: power of 2 already taken *)
| EBegin (i : nat)                            (* a selector's thread begins *)
| ECb (i : nat)                               (* kselector_init / kselector_exit calls the next thread_init callback, or is over *)
| ERun (i k j : nat)                          (* the loop of selector i runs the k-th job of its queue *)
| EFire (i id : nat)                          (* a timer expires *)
| ETick (d : nat)                             (* time passes *)
| EClose                                      (* selector_manager_close sets closed *)
| EExit (i : nat)                             (* a selector's thread leaves its loop *)
| EDestroy (i : nat)                          (* selector_manager_close destroys selector i *)
| EFreeTab.                                   (* ... and frees the table *)

Definition inited (s : st) : bool := match ip s with INo => false | _ => true end.
Definition making (s : st) : bool := match ip s with IMake _ => true | _ => false end.
(** a thread that can call the library now: program threads always, a selector's while user code runs on it *)
Definition live (s : st) (w : who) : bool :=
  match w with Prog _ => true | Sel i => match sels s !! i with Some x => match ph x with PInit _ | PRun | PExit _ => true | _ => false end | None => false end end.
Definition regging (s : st) (w : who) : bool := existsb (fun p => bool_decide (p.1 = w)) (regs s).
Definition upd (i : nat) (f : sel -> sel) (s : st) : st := s_sels (alter f i (sels s)) s.
Definition addq (j : job) (x : sel) : sel := mksel (ph x) (q x ++ [j]) (tm x) (fr x).
Definition addt (id : nat) (x : sel) : sel := mksel (ph x) (q x) (tm x ++ [id]) (fr x).
Definition setp (p : phase) (x : sel) : sel := mksel p (q x) (tm x) (fr x).
Definition note (c : call) (s : st) : st := s_calls (calls s ++ [c]) s.
(** kgl_selector_module.next on a selector of the table *)
Definition next (j : nat) (b : job) (s : st) : res st Z :=
  if making s || tabfree s then Crash else
  match sels s !! j with
  | None => Disabled
  | Some x => if fr x then Crash else Ok (upd j (addq b) s) 0
  end.
(** deadlines: brq->active_msec = kgl_current_msec + msec *)
Definition arm (id : nat) (ms : Z) (s : st) : st := s_dl (<[id := cur s + ms]> (dl s)) (s_tids (tids s ++ [id]) s).

Definition step (dbg : bool) (s : st) (e : ev) : res st Z :=
  match e with
  (* :316-323 *)
  | EOnReady w id j => if negb (live s w) || regging s w || bool_decide (id ∈ rids s) then Disabled else
      let s := s_rids (rids s ++ [id]) s in
      if inited s then next j (JReady id) s else Ok (s_regs (regs s ++ [(w, RReady (JReady id) (ready s))]) s) 0
  (* :116-128 *)
  | EAddTimer w id ms j => if negb (live s w) || regging s w || bool_decide (id ∈ tids s) then Disabled else
      let s := arm id ms s in
      if inited s then next j (JTimerNext id) s else Ok (s_regs (regs s ++ [(w, RReady (JTimerReady id) (ready s))]) s) 0
  (* :129-142 *)
  | ETs w id ms j => if negb (live s w) || regging s w || bool_decide (id ∈ tids s) then Disabled else
      let s := arm id ms s in
      if negb (inited s) then Crash else
      if bool_decide (w = Sel j) then Ok (upd j (addt id) s) 0 else next j (JTimerNext id) s
  (* :219-226 *)
  | EThreadInit w id => if negb (live s w) || regging s w || bool_decide (id ∈ iids s) then Disabled else
      if inited s then Ok s (-1) else Ok (s_regs (regs s ++ [(w, RInit id (tinit s))]) (s_iids (iids s ++ [id]) s)) 0
  (* :212-218 *)
  | ERegW w => match list_find (fun p => p.1 = w) (regs s) with
      | None => Disabled
      | Some (i, (_, r)) => let s := s_regs (delete i (regs s)) s in
          match r with RReady j l => Ok (s_ready (j :: l) s) 0 | RInit id l => Ok (s_tinit (id :: l) s) 0 end
      end
  (* :270-286 *)
  | EInit n => match ip s with INo => Ok (s_ip (IMake n) s) 0 | _ => Disabled end
  | EMake => match ip s with
      | IMake (S n) => Ok (s_ip (IMake n) (s_sels (sels s ++ [mksel PNew [] [] false]) s)) 0
      | IMake O => Ok (s_ip IDrain s) 0
      | _ => Disabled end
  (* :287-293; reading the list while it is empty ends the loop *)
  | EDrain j => match ip s, ready s with
      | IDrain, b :: l => next j b (s_ready l s)
      | _, _ => Disabled end
  | EInitEnd => match ip s, ready s with IDrain, [] => Ok (s_ip IDone s) 0 | _, _ => Disabled end
  (* :169-181 *)
  | EStart => match ip s with
      | IDone => if started s then Disabled else Ok (s_started true (s_sels (setp PStarted <$> sels s) s)) 0
      | _ => Disabled end
  (* :245-269 *)
  | EGrow n => if negb (live s (Sel 0)) then Disabled else
      if bool_decide (n <= length (sels s))%nat || bool_decide (1 < length (sels s))%nat then Ok s 0
      else Ok (s_sels (sels s ++ replicate (n - length (sels s)) (mksel PStarted [] [] false)) s) 1
  (* :44-55 *)
  | EBegin i => match sels s !! i with
      | Some x => match ph x with PStarted => if fr x then Crash else Ok (upd i (setp (PInit (tinit s))) s) 0 | _ => Disabled end
      | None => Disabled end
  | ECb i => match sels s !! i with
      | Some x => match ph x with
                  | PInit (id :: l) => Ok (note (CInit id i false) (upd i (setp (PInit l)) s)) 0
                  | PInit [] => Ok (upd i (setp PRun) s) 0
                  | PExit (id :: l) => Ok (note (CInit id i true) (upd i (setp (PExit l)) s)) 0
                  | PExit [] => if fr x then Crash else Ok (upd i (setp PGone) s) 0 (* :63 thread_id = 0 *)
                  | _ => Disabled end
      | None => Disabled end
  (* :102-115 and the user's callback *)
  | ERun i k j => match sels s !! i with
      | Some x => match ph x, q x !! k with
                  | PRun, Some b => if fr x then Crash else
                      let s := upd i (fun x => mksel (ph x) (delete k (q x)) (tm x) (fr x)) s in
                      match b with
                      | JReady id => Ok (note (CReady id i) s) 0
                      | JTimerReady id => next j (JTimerNext id) s
                      | JTimerNext id => Ok (upd i (addt id) s) 0
                      end
                  | _, _ => Disabled end
      | None => Disabled end
  | EFire i id => match sels s !! i with
      | Some x => match ph x with
                  | PRun => if bool_decide (id ∈ tm x) then
                              match dl s !! id with
                              | Some d => if bool_decide (d <= cur s) then
                                            if fr x then Crash else Ok (note (CTimer id i (cur s)) (upd i (fun x => mksel (ph x) (q x) (remove1 id (tm x)) (fr x)) s)) 0
                                          else Disabled
                              | None => Crash end
                            else Disabled
                  | _ => Disabled end
      | None => Disabled end
  | ETick d => Ok (s_cur (cur s + Z.of_nat d) s) 0
  (* :146-154 *)
  | EClose => if inited s then Ok (s_closing true s) 0 else Disabled
  (* :91-95; sockets of the selector are not modelled here: can_close may also be false because of them *)
  | EExit i => match sels s !! i with
      | Some x => match ph x with PRun => if dbg && closing s && bool_decide (tm x = []) then Ok (upd i (setp (PExit (tinit s))) s) 0 else Disabled | _ => Disabled end
      | None => Disabled end
  (* :155-166: thread_id is 0 before the thread begins and after it ended *)
  | EDestroy i => if closing s then match sels s !! i with
      | Some x => if fr x then Disabled else
                  match ph x with PNew | PStarted | PGone => Ok (upd i (fun x => mksel (ph x) (q x) (tm x) true) s) 0 | _ => Disabled end
      | None => Disabled end else Disabled
  | EFreeTab => if closing s && forallb fr (sels s) then Ok (s_tabfree true s) 0 else Disabled
  end.
