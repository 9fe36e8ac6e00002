(** A server from opening to the program's accept callback: kserver_open, kserver_listen_on_selector, kserver_next_accept, kserver_close
    (src/kserver.c:174-207, 232-246, 274-308, 373-395), KACCEPT_CALLBACK (include/kserver.h:33-55), accept_result_new_connection,
    kserver_get_perfect_selector, is_server_multi_selectable (src/kserver.c:62-102).

    Any number of selectors, each a thread of its own; one event is one step of one thread.  Not modelled here: reference counts and the
    phases of kserver_selectable_destroy (C48), the accept requests inside the selectors (C62), which selector get_perfect_selector picks
    (C43: the event says), socket options.  A destroyed kserver_selectable is freed at once; a queued callback may run at any later
    time and in any order (C31). *)
From Verif Require Export Lts.
From stdpp Require Export gmap.

(** a kserver_selectable: kserver_next_accept posted; accept requested; inside KACCEPT_CALLBACK *)
Inductive lph := QNext | Armed | InCb.
Record lsn := Lsn { l_sel : nat; l_ph : lph }.
(** a run of the program's callback: connection, selector thread it ran on, the data argument, and ghost: was that object still
    allocated *)
Record call := Call { k_conn : nat; k_sel : nat; k_ss : nat; k_alive : bool }.
Record sv := mksv {
  start : bool;                             (* KGL_SERVER_START *)
  lsns : gmap nat lsn;                      (* server->ss: the allocated kserver_selectables *)
  opening : option (list nat * bool);       (* inside kserver_open: selectors left, result so far *)
  queue : list (nat * nat * nat);           (* callbacks posted to other selectors: connection, data, selector *)
  calls : list call;
  accepted : list nat;                      (* ghosts: connections made *)
  lost : list nat;                          (* sockets accepted and closed again because the TLS object could not be created *)
  bound : gmap nat nat;                     (* connection -> selector *)
  home : gmap nat nat }.                    (* listener -> selector; never forgotten *)
Definition set_lsns (m : gmap nat lsn) (s : sv) : sv := mksv (start s) m (opening s) (queue s) (calls s) (accepted s) (lost s) (bound s) (home s).
Definition set_start (b : bool) (s : sv) : sv := mksv b (lsns s) (opening s) (queue s) (calls s) (accepted s) (lost s) (bound s) (home s).
Definition set_opening (o : option (list nat * bool)) (s : sv) : sv := mksv (start s) (lsns s) o (queue s) (calls s) (accepted s) (lost s) (bound s) (home s).

Inductive sev :=
| EOpen (ks : list nat)                     (* kserver_open on the selectors ks *)
| ETurn (id : nat) (ok : bool)              (* one turn of its loop; ok: a listening socket could be made; id: the new kserver_selectable *)
| EOpened                                   (* it returns *)
| ENext (id : nat) (ok : bool)              (* kserver_next_accept on the selector; ok: accept could be requested *)
| EAccept (id c p : nat) (ssl : bool)       (* the request completes with a socket: KACCEPT_CALLBACK up to the end of the program's callback
                                               or its posting; ssl: no TLS or its object was made; p: get_perfect_selector *)
| EReturn (id : nat) (ok : bool)            (* the rest of KACCEPT_CALLBACK; ok: accept could be requested again *)
| EError (id : nat)                         (* the request completes without a socket: accept(2) failed *)
| EQueued (i : nat)                         (* a posted callback runs on its selector *)
| EClose.                                   (* kserver_close *)
Inductive sout := SNone | SOpened (r : bool).

(** is_server_multi_selectable *)
Definition multi (s : sv) : bool := bool_decide (2 <= size (lsns s)).
Definition sstep (s : sv) (e : sev) : res sv sout :=
  match e with
  | EOpen ks =>
      match opening s with
      | Some _ => Disabled
      | None => if start s then Crash                       (* assert(!KGL_SERVER_START), kserver.c:278 *)
                else Ok (set_opening (Some (ks, false)) s) SNone
      end
  | ETurn id ok =>
      match opening s with
      | Some (k :: ks, r) =>
          if decide (home s !! id = None) then
            if ok then Ok (mksv true (<[id := Lsn k QNext]> (lsns s)) (Some (ks, true)) (queue s) (calls s) (accepted s) (lost s) (bound s) (<[id := k]> (home s))) SNone
            else Ok (set_opening (Some (ks, r)) s) SNone
          else Disabled
      | _ => Disabled
      end
  | EOpened => match opening s with Some ([], r) => Ok (set_opening None s) (SOpened r) | _ => Disabled end
  | ENext id ok =>
      match lsns s !! id with
      | Some (Lsn k QNext) => if ok then Ok (set_lsns (<[id := Lsn k Armed]> (lsns s)) s) SNone else Ok (set_lsns (delete id (lsns s)) s) SNone
      | _ => Disabled
      end
  | EAccept id c p ssl =>
      match lsns s !! id with
      | Some (Lsn k Armed) =>
          if decide (c ∈ accepted s ++ lost s) then Disabled else
          if ssl then
            let t := if multi s then k else p in
            let m := <[id := Lsn k InCb]> (lsns s) in
            if decide (t = k) then
              Ok (mksv (start s) m (opening s) (queue s) (calls s ++ [Call c t id true]) (accepted s ++ [c]) (lost s) (<[c := t]> (bound s)) (home s)) SNone
            else
              Ok (mksv (start s) m (opening s) (queue s ++ [(c, id, t)]) (calls s) (accepted s ++ [c]) (lost s) (<[c := t]> (bound s)) (home s)) SNone
          else
            Ok (mksv (start s) (delete id (lsns s)) (opening s) (queue s) (calls s) (accepted s) (lost s ++ [c]) (bound s) (home s)) SNone
      | _ => Disabled
      end
  | EReturn id ok =>
      match lsns s !! id with
      | Some (Lsn k InCb) =>
          if start s && ok then Ok (set_lsns (<[id := Lsn k Armed]> (lsns s)) s) SNone else Ok (set_lsns (delete id (lsns s)) s) SNone
      | _ => Disabled
      end
  | EError id =>
      match lsns s !! id with
      | Some (Lsn _ Armed) => Ok (set_lsns (delete id (lsns s)) s) SNone
      | _ => Disabled
      end
  | EQueued i =>
      match queue s !! i with
      | Some (c, id, t) =>
          Ok (mksv (start s) (lsns s) (opening s) (delete i (queue s)) (calls s ++ [Call c t id (bool_decide (is_Some (lsns s !! id)))])
                (accepted s) (lost s) (bound s) (home s)) SNone
      | None => Disabled
      end
  | EClose => Ok (set_start false s) SNone
  end.
(** kserver_init *)
Definition sv_init : sv := mksv false ∅ None [] [] [] [] ∅ ∅.
