(** The thread pool, /repo/src/kthread.c (POSIX version).  Any number of threads; an event is one critical section under
    thread_lock, or one step of a pool thread outside of it. *)
From stdpp Require Import gmap.
From Verif Require Import Lts.
Local Open Scope Z_scope.

Inductive cmd := CNull | CStart | CEnd.                      (* kthread.c:27-31 *)
(** where a pool thread is in run_thread *)
Inductive pc := PNew        (* created, before work(param), kthread.c:86 *)
              | PWork       (* inside work *)
              | PEnded      (* end_time taken, before the critical section, kthread.c:90-95 *)
              | PParked.    (* in or before sigwait, kthread.c:101 *)
(** kthread_info, kthread.c:36-48: [job] = work and param, [sig] = the signal KGL_NOTICE_THREAD_SIG is pending for the
    thread (it is blocked in it while parked), [stamp]: ghost, number of parkings before this one *)
Record th := Th { t_pc : pc; t_cmd : cmd; t_job : nat; t_et : Z; t_sig : bool; t_stamp : nat }.
(** [free]: the list free_threads, head first.  [accepted], [started]: ghosts, jobs for which kthread_pool_start returned
    true, and jobs whose function was called.  A kthread_info that is not in [ths] is freed memory. *)
Record st := St { ths : gmap nat th; free : list nat; nwork : Z; nfree : Z; accepted : list nat; started : list nat; parks : nat }.

Inductive ev :=
| PoolStart (job : nat) (nid : nat) (ok : bool)   (* nid: address of a new kthread_info, ok: malloc and pthread_create succeed *)
| Begin (t : nat)                                 (* new thread calls work, kthread.c:86 *)
| Finish (t : nat) (now : Z)                      (* work returns, end_time = time(NULL), kthread.c:89-90 *)
| Park (t : nat)                                  (* the critical section, kthread.c:95-100 *)
| Take (t : nat)                                  (* sigwait returns and cmd is obeyed, kthread.c:101-110 *)
| Flush (min now : Z)                             (* kthread_flush, kthread.c:116-139 *)
| CloseAll                                        (* kthread_close_all_free, kthread.c:202-218 *)
| ExtSig (t : nat).                               (* somebody else sends SIGUSR2 to the thread *)

(** tell a parked thread: set cmd (and job), send the signal *)
Definition tell (h : th) (c : cmd) (job : nat) : th := Th (t_pc h) c job (t_et h) true (t_stamp h).
(** the loop of kthread_flush over the list; None: access to freed memory, or the assertion *)
Fixpoint flush_loop (min now : Z) (l : list nat) (m : gmap nat th) (nf : Z) : option (list nat * gmap nat th * Z) :=
  if decide (nf <= min) then Some (l, m, nf) else
  match l with
  | [] => if decide (nf > 0) then Some (l, m, nf) else None
  | t :: l' => match m !! t with
    | None => None
    | Some h => if decide (now - t_et h <= 60) then Some (l, m, nf)
                else flush_loop min now l' (<[t := tell h CEnd (t_job h)]> m) (nf - 1)
    end
  end.
Fixpoint close_loop (l : list nat) (m : gmap nat th) (nf : Z) : option (gmap nat th * Z) :=
  match l with
  | [] => Some (m, nf)
  | t :: l => match m !! t with None => None | Some h => close_loop l (<[t := tell h CEnd 0%nat]> m) (nf - 1) end
  end.
Definition step (s : st) (e : ev) : res st bool :=
  match e with
  | PoolStart job nid ok =>                                    (* kthread.c:167-201 *)
    match last (free s) with
    | None =>
      if decide (nid ∈ dom (ths s)) then Disabled
      else if ok then Ok (St (<[nid := Th PNew CNull job 0 false 0%nat]> (ths s)) (free s) (nwork s + 1) (nfree s) (job :: accepted s) (started s) (parks s)) true
      else Ok s false
    | Some t =>
      match ths s !! t with
      | None => Crash
      | Some h => Ok (St (<[t := tell h CStart job]> (ths s)) (removelast (free s)) (nwork s + 1) (nfree s - 1) (job :: accepted s) (started s) (parks s)) true
      end
    end
  | Begin t => match ths s !! t with
    | Some (Th PNew c j et sg k) => Ok (St (<[t := Th PWork c j et sg k]> (ths s)) (free s) (nwork s) (nfree s) (accepted s) (j :: started s) (parks s)) true
    | _ => Disabled end
  | Finish t now => match ths s !! t with
    | Some (Th PWork c j et sg k) => Ok (St (<[t := Th PEnded c j now sg k]> (ths s)) (free s) (nwork s) (nfree s) (accepted s) (started s) (parks s)) true
    | _ => Disabled end
  | Park t => match ths s !! t with
    | Some (Th PEnded c j et sg k) => Ok (St (<[t := Th PParked CNull j et sg (parks s)]> (ths s)) (free s ++ [t]) (nwork s - 1) (nfree s + 1) (accepted s) (started s) (S (parks s))) true
    | _ => Disabled end
  | Take t => match ths s !! t with
    | Some (Th PParked CStart j et true k) => Ok (St (<[t := Th PWork CStart j et false k]> (ths s)) (free s) (nwork s) (nfree s) (accepted s) (j :: started s) (parks s)) true
    | Some (Th PParked _ j et true k) => Ok (St (delete t (ths s)) (free s) (nwork s) (nfree s) (accepted s) (started s) (parks s)) true
    | _ => Disabled end
  | Flush min now => match flush_loop min now (free s) (ths s) (nfree s) with
    | None => Crash
    | Some (l, m, nf) => Ok (St m l (nwork s) nf (accepted s) (started s) (parks s)) true end
  | CloseAll => match close_loop (free s) (ths s) (nfree s) with
    | None => Crash
    | Some (m, nf) => if decide (nf = 0) then Ok (St m [] (nwork s) nf (accepted s) (started s) (parks s)) true else Crash end
  | ExtSig t => match ths s !! t with
    | Some (Th p c j et sg k) =>  (* pending if blocked (kthread.c:93-103), otherwise the handler runs and does nothing *)
      let sg := match p with PEnded | PParked => true | _ => sg end in
      Ok (St (<[t := Th p c j et sg k]> (ths s)) (free s) (nwork s) (nfree s) (accepted s) (started s) (parks s)) true
    | None => Disabled end
  end.
Definition init : st := St ∅ [] 0 0 [] [] 0.
