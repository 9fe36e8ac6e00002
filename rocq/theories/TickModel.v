(** Model of the ticks of a selector:
    src/kselector.c:323-352 (kselector_new_tick, kselector_register_tick,
    kselector_close_tick) and the tick loop of kselector_check_timeout,
    src/kselector.c:156-158 and 266-281; SELECTOR_TMO_MSEC is
    include/kselector.h:19.

    Simplifications: one selector and its thread; the doubly linked list is
    the list of its elements (the pointer operations are the subject of C38);
    a tick is a number, numbers are not used twice (an address freed by
    kselector_close_tick may be used again by malloc); xmalloc does not
    fail; linking a tick which is linked already, or touching one which is
    freed, is [Crash].  A callback is any sequence of ENew, EReg, EClose
    between the ECall and its EReturn. *)
From Coq Require Export ZArith.
From stdpp Require Export prelude.
Local Open Scope Z_scope.

(** include/kselector.h:19 *)
Definition SELECTOR_TMO : Z := 100.

(** Where kselector_check_timeout is.
    PIdle: not in the loop (kselector.c:266);
    PAt c: at the loop test with tick_list = c (None: the list's head);
    PIn t nx: inside the callback of t with tick_next_list = nx. *)
Inductive phase :=
| PIdle
| PAt (c : option nat)
| PIn (t : nat) (nx : option nat).

Record tst := TS {
  ticks : list nat;       (* selector->tick, head first *)
  alive : list nat;       (* ticks allocated and not freed *)
  nid : nat;              (* the next number *)
  ph : phase;
  evn : Z;                (* event_number of the running call *)
  tmin : Z                (* min_event_time *)
}.

Inductive tev :=
| ENew                          (* kselector_new_tick *)
| EReg (sel : bool) (t : nat)   (* kselector_register_tick; sel: the thread has a selector *)
| EClose (sel : bool) (t : nat) (* kselector_close_tick *)
| EBegin (n : Z)                (* kselector_check_timeout(selector, n) gets to its tick loop *)
| ECall                         (* one turn of the loop: the callback is entered *)
| EReturn (r : Z)               (* the callback returns r *)
| EEnd.                         (* the loop and the function end *)

Inductive tout :=
| ONew (t : nat)
| OBool (b : bool)
| OCall (t : nat) (n : Z)
| OWait (m : Z).

Inductive tres :=
| Ok (s : tst) (os : list tout)
| Crash
| Off.      (* the event is not possible in this state *)

(** The part of the list from [c] on. *)
Fixpoint from (c : nat) (l : list nat) : list nat :=
  match l with
  | [] => []
  | y :: l' => if decide (y = c) then l else from c l'
  end.

(** tick_list->next: kselector.c:272; None is the list's head *)
Definition next_of (c : nat) (l : list nat) : option nat := head (tail (from c l)).

(** klist_remove *)
Fixpoint unlink (c : nat) (l : list nat) : list nat :=
  match l with
  | [] => []
  | y :: l' => if decide (y = c) then l' else y :: unlink c l'
  end.

(** User code runs outside of the loop or inside a callback. *)
Definition user (p : phase) : bool :=
  match p with PAt _ => false | _ => true end.

Definition tstep (s : tst) (e : tev) : tres :=
  match e with
  | ENew => (* kselector.c:323-333 *)
      if user (ph s)
      then Ok (TS (ticks s) (nid s :: alive s) (S (nid s)) (ph s) (evn s) (tmin s)) [ONew (nid s)]
      else Off
  | EReg sel t => (* kselector.c:334-342 *)
      if user (ph s) then
        if negb sel then Ok s [OBool false] else
        if negb (bool_decide (t ∈ alive s)) then Crash else
        if bool_decide (t ∈ ticks s) then Crash else
        Ok (TS (ticks s ++ [t]) (alive s) (nid s) (ph s) (evn s) (tmin s)) [OBool true]
      else Off
  | EClose sel t => (* kselector.c:343-352 *)
      if user (ph s) then
        if negb sel then Ok s [OBool false] else
        if negb (bool_decide (t ∈ alive s)) then Crash else
        Ok (TS (unlink t (ticks s)) (filter (fun x => x ≠ t) (alive s)) (nid s) (ph s) (evn s) (tmin s)) [OBool true]
      else Off
  | EBegin n => (* kselector.c:158 and 266 *)
      match ph s with
      | PIdle => Ok (TS (ticks s) (alive s) (nid s) (PAt (head (ticks s))) n SELECTOR_TMO) []
      | _ => Off
      end
  | ECall => (* kselector.c:268-273 *)
      match ph s with
      | PAt (Some t) =>
          if bool_decide (t ∈ alive s)
          then Ok (TS (ticks s) (alive s) (nid s) (PIn t (next_of t (ticks s))) (evn s) (tmin s)) [OCall t (evn s)]
          else Crash
      | _ => Off
      end
  | EReturn r => (* kselector.c:274-277 *)
      match ph s with
      | PIn _ nx =>
          Ok (TS (ticks s) (alive s) (nid s) (PAt nx) (evn s)
                (if (0 <? r) && (r <? tmin s) then r else tmin s)) []
      | _ => Off
      end
  | EEnd => (* kselector.c:268 and 279 *)
      match ph s with
      | PAt None => Ok (TS (ticks s) (alive s) (nid s) PIdle (evn s) (tmin s)) [OWait (tmin s)]
      | _ => Off
      end
  end.

(** Runs of events. *)
Fixpoint trun (s : tst) (es : list tev) : tres :=
  match es with
  | [] => Ok s []
  | e :: es' =>
      match tstep s e with
      | Ok s1 o1 =>
          match trun s1 es' with
          | Ok s2 o2 => Ok s2 (o1 ++ o2)
          | r => r
          end
      | r => r
      end
  end.

(** A new selector: kselector.c:96 (klist_init of selector->tick); a tick given to kselector_new (98-100) is an EReg. *)
Definition tinit : tst := TS [] [] 0 PIdle 0 SELECTOR_TMO.

Definition treach (s : tst) : Prop := exists es os, trun tinit es = Ok s os.
