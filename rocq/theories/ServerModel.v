(** A server object, its listening sockets and its connections, /repo/src/kserver.c, /repo/include/kserver.h (Linux build:
    no ACCEPT_SOCKET_SHUTDOWN_NO_EVENT), connection reference: /repo/src/kconnection.c.  An event is one critical section under
    ss_lock or one step of one thread; listen and set_ssl_ctx are not called by two threads at once. *)
From stdpp Require Import gmap.
From Verif Require Import Lts Count.
Local Open Scope Z_scope.

(** the life of a kserver_selectable: accepting; kserver_selectable_destroy entered (kserver.c:331); its descriptor closed,
    still in the list (:334); removed from the list (:339-343) *)
Inductive phase := PLive | PDying | PClosed | PUnlinked.
(** kserver_selectable_s, kserver.h:69-85: phase, ssl_ctx *)
Record lsn := Lsn { l_ph : phase; l_ctx : option nat }.
(** kserver_s, kserver.h:86-104.  [alive]: not yet xfree'd; [refs]; [start]: KGL_SERVER_START; [ctx]: ssl_ctx; [ss]: the list;
    [lsns]: the allocated kserver_selectables; [conns]: live connections of the server; [own]: references held by the program;
    [heap]: live kgl_ssl_ctx objects and their refs; [uctx]: ssl_ctx references held by the program; [posted]: updates posted by
    kserver_set_ssl_ctx.  Ghosts: [frees]: calls of kserver_free, [stale]: descriptors of closed sockets given to shutdown,
    [used]: ids given to listeners *)
Record st := St { alive : bool; refs : Z; start : bool; ctx : option nat; ss : list nat; lsns : gmap nat lsn; conns : list nat; own : nat;
  heap : gmap nat Z; uctx : list nat; posted : list (nat * option nat); frees : nat; stale : nat; used : list nat }.
Definition s_refs (r : Z) (s : st) : st := St (alive s) r (start s) (ctx s) (ss s) (lsns s) (conns s) (own s) (heap s) (uctx s) (posted s) (frees s) (stale s) (used s).
Definition s_start (b : bool) (s : st) : st := St (alive s) (refs s) b (ctx s) (ss s) (lsns s) (conns s) (own s) (heap s) (uctx s) (posted s) (frees s) (stale s) (used s).
Definition s_ctx (c : option nat) (s : st) : st := St (alive s) (refs s) (start s) c (ss s) (lsns s) (conns s) (own s) (heap s) (uctx s) (posted s) (frees s) (stale s) (used s).
Definition s_ss (l : list nat) (s : st) : st := St (alive s) (refs s) (start s) (ctx s) l (lsns s) (conns s) (own s) (heap s) (uctx s) (posted s) (frees s) (stale s) (used s).
Definition s_lsns (m : gmap nat lsn) (s : st) : st := St (alive s) (refs s) (start s) (ctx s) (ss s) m (conns s) (own s) (heap s) (uctx s) (posted s) (frees s) (stale s) (used s).
Definition s_conns (l : list nat) (s : st) : st := St (alive s) (refs s) (start s) (ctx s) (ss s) (lsns s) l (own s) (heap s) (uctx s) (posted s) (frees s) (stale s) (used s).
Definition s_own (n : nat) (s : st) : st := St (alive s) (refs s) (start s) (ctx s) (ss s) (lsns s) (conns s) n (heap s) (uctx s) (posted s) (frees s) (stale s) (used s).
Definition s_heap (h : gmap nat Z) (s : st) : st := St (alive s) (refs s) (start s) (ctx s) (ss s) (lsns s) (conns s) (own s) h (uctx s) (posted s) (frees s) (stale s) (used s).
Definition s_uctx (l : list nat) (s : st) : st := St (alive s) (refs s) (start s) (ctx s) (ss s) (lsns s) (conns s) (own s) (heap s) l (posted s) (frees s) (stale s) (used s).
Definition s_posted (l : list (nat * option nat)) (s : st) : st := St (alive s) (refs s) (start s) (ctx s) (ss s) (lsns s) (conns s) (own s) (heap s) (uctx s) l (frees s) (stale s) (used s).
Definition s_stale (n : nat) (s : st) : st := St (alive s) (refs s) (start s) (ctx s) (ss s) (lsns s) (conns s) (own s) (heap s) (uctx s) (posted s) (frees s) n (used s).
Definition s_used (l : list nat) (s : st) : st := St (alive s) (refs s) (start s) (ctx s) (ss s) (lsns s) (conns s) (own s) (heap s) (uctx s) (posted s) (frees s) (stale s) l.

(** kserver_release, kserver.c:323-329, and kserver_free, :302-322 *)
Definition release (s : st) : option st :=
  if alive s then
    if decide (refs s - 1 = 0) then
      match ss s with
      | _ :: _ => None      (* assert(klist_empty(&server->ss)) *)
      | [] => match unref (heap s) (ctx s) with None => None | Some h =>
                Some (St false 0 (start s) None [] (lsns s) (conns s) (own s) h (uctx s) (posted s) (S (frees s)) (stale s) (used s)) end
      end
    else Some (s_refs (refs s - 1) s)
  else None.
Definition lift (o : option st) : res st unit := match o with None => Crash | Some s => Ok s () end.
(** release the old ssl_ctx of a listener and store the new one: kserver_selectable_update_ssl_ctx, kserver.c:390-396 *)
Definition upd_ctx (s : st) (id : nat) (c : option nat) : option st :=
  match lsns s !! id with None => None | Some l =>
    match unref (heap s) (l_ctx l) with None => None | Some h => Some (s_heap h (s_lsns (<[id := Lsn (l_ph l) c]> (lsns s)) s)) end end.
(** the loop of kserver_set_ssl_ctx, kserver.c:416-430 *)
Fixpoint set_loop (c : option nat) (l : list nat) (s : st) : option st :=
  match l with
  | [] => Some s
  | id :: l => match ref (heap s) c with None => None | Some h =>
      let s := s_heap h s in
      if start s then set_loop c l (s_posted (posted s ++ [(id, c)]) s)
      else match upd_ctx s id c with None => None | Some s => set_loop c l s end end
  end.

Inductive ev :=
| OwnRef                                   (* kserver_refs by the program, which holds a reference *)
| OwnRelease                               (* kserver_release by the program *)
| NewCtx (c : nat)                         (* the program creates an ssl_ctx *)
| Listen (id : nat)                        (* kserver_listen_on_selector / kserver_open_exsit up to add_server_socket *)
| Open                                     (* KBIT_SET(server->flags, KGL_SERVER_START) *)
| Accept (id c : nat) (ok rearm : bool)    (* KACCEPT_CALLBACK: ok: a connection was made; rearm: the next accept is registered *)
| Destroy1 (id : nat) | Destroy2 (id : nat) | Destroy3 (id : nat)   (* the phases of kserver_selectable_destroy *)
| ConnClose (c : nat)                      (* kconnection_real_destroy: kserver_release *)
| Close                                    (* kserver_close *)
| SetSsl (c : option nat)                  (* kserver_set_ssl_ctx, the program gives its reference away *)
| SslUpdate (i : nat).                     (* the posted kserver_ssl_ctx_next_update *)
Definition step (s : st) (e : ev) : res st unit :=
  match e with
  | OwnRef => if decide (own s = 0)%nat then Disabled else if alive s then Ok (s_own (S (own s)) (s_refs (refs s + 1) s)) () else Crash
  | OwnRelease => if decide (own s = 0)%nat then Disabled else lift (release (s_own (own s - 1)%nat s))
  | NewCtx c => match heap s !! c with Some _ => Disabled | None => Ok (s_heap (<[c := 1]> (heap s)) (s_uctx (c :: uctx s) s)) () end
  | Listen id =>                           (* kserver.c:149-174: kserver_selectable_init, add_server_socket *)
    if decide (own s = 0)%nat then Disabled else if decide (id ∈ used s) then Disabled else
    if alive s then match ref (heap s) (ctx s) with None => Crash | Some h =>
      Ok (s_heap h (s_refs (refs s + 1) (s_ss (ss s ++ [id]) (s_lsns (<[id := Lsn PLive (ctx s)]> (lsns s)) (s_used (id :: used s) s))))) () end
    else Crash
  | Open => if decide (own s = 0)%nat then Disabled else if alive s then Ok (s_start true s) () else Crash
  | Accept id c ok rearm =>                (* kserver.h:33-53, kserver.c:69-91 *)
    match lsns s !! id with
    | Some (Lsn PLive x) =>
      if decide (c ∈ conns s) then Disabled else
      if alive s then
        if ok then Ok (s_refs (refs s + 1) (s_conns (c :: conns s) (s_lsns (<[id := Lsn (if start s && rearm then PLive else PDying) x]> (lsns s)) s))) ()
        else Ok (s_lsns (<[id := Lsn PDying x]> (lsns s)) s) ()
      else Crash
    | _ => Disabled
    end
  | Destroy1 id => match lsns s !! id with Some (Lsn PDying x) => Ok (s_lsns (<[id := Lsn PClosed x]> (lsns s)) s) () | _ => Disabled end
  | Destroy2 id => match lsns s !! id with
    | Some (Lsn PClosed x) => if alive s then match ss s with [] => Crash | _ => Ok (s_ss (remove1 id (ss s)) (s_lsns (<[id := Lsn PUnlinked x]> (lsns s)) s)) () end else Crash
    | _ => Disabled end
  | Destroy3 id => match lsns s !! id with
    | Some (Lsn PUnlinked x) => match release s with None => Crash | Some s =>
        match unref (heap s) x with None => Crash | Some h => Ok (s_heap h (s_lsns (delete id (lsns s)) s)) () end end
    | _ => Disabled end
  | ConnClose c => if decide (c ∈ conns s) then lift (release (s_conns (remove1 c (conns s)) s)) else Disabled
  | Close => if decide (own s = 0)%nat then Disabled else if alive s then
      Ok (s_start false (s_stale (stale s + length (List.filter (λ id, match lsns s !! id with Some (Lsn PClosed _) => true | _ => false end) (ss s)))%nat s)) ()
    else Crash
  | SetSsl c =>                            (* kserver.c:405-431 *)
    if decide (own s = 0)%nat then Disabled else
    if (match c with Some c => bool_decide (c ∉ uctx s) | None => false end) then Disabled else
    if alive s then
      match ctx s, c with
      | Some _, None => Ok s ()
      | _, _ => match unref (heap s) (ctx s) with None => Crash | Some h =>
          let s := s_heap h (s_uctx (match c with Some c => remove1 c (uctx s) | None => uctx s end) (s_ctx c s)) in
          lift (set_loop c (ss s) s) end
      end
    else Crash
  | SslUpdate i => match posted s !! i with None => Disabled | Some (id, c) => lift (upd_ctx (s_posted (delete i (posted s)) s) id c) end
  end.
(** kserver_init, kserver.c:104-112 *)
Definition init : st := St true 1 false None [] ∅ [] 1 ∅ [] [] 0 0 [].
