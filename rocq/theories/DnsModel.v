(** The name-resolution cache, /repo/src/kaddr.c.  An event is one critical section under addr_lock, or one step of a
    worker or selector outside of it.  Keys stand for (addr_type, hostname) up to strcasecmp. *)
From stdpp Require Import gmap.
From Verif Require Import Lts.
Local Open Scope Z_scope.

(** kgl_addr_node, kaddr.c:38-52.  [n_queue]: Some q = not in addr_list (prev == NULL), the resolver is running and the
    union holds the queue q of requests; None = in addr_list *)
Record node := Node { n_queue : option (list nat); n_addr : option nat; n_last : option nat; n_lt : Z; n_lv : Z; n_err : Z }.
(** [nodes]: addr_tree; [lst]: addr_list, head first; [cnt]: addr_count; [heap]: the live kgl_addr objects with refs;
    [resolving]/[refreshing]: async_addr_worker / async_addr_cache_worker jobs; [inprog]: calls of addr_result on their
    way (kaddr.c:189-201): remaining queue and addr; [posted]: answers posted to a selector (or being delivered
    directly), each with its reference; [held]: references returned by kgl_find_cache_addr.  Ghosts: [asked] (request, key), [answered]
    (request, address), [born]: address object -> the key it was resolved for; object ids are never reused (an id is an
    allocation, not a memory address). *)
Record st := St { nodes : gmap nat node; lst : list nat; cnt : Z; heap : gmap nat Z; resolving : list nat; refreshing : list nat; inprog : list (list nat * option nat); posted : list (nat * option nat); held : list nat; asked : list (nat * nat); answered : list (nat * option nat); born : gmap nat nat }.
Definition s_nodes (x : gmap nat node) (s : st) : st := St x (lst s) (cnt s) (heap s) (resolving s) (refreshing s) (inprog s) (posted s) (held s) (asked s) (answered s) (born s).
Definition s_lst (x : list nat) (s : st) : st := St (nodes s) x (cnt s) (heap s) (resolving s) (refreshing s) (inprog s) (posted s) (held s) (asked s) (answered s) (born s).
Definition s_cnt (x : Z) (s : st) : st := St (nodes s) (lst s) x (heap s) (resolving s) (refreshing s) (inprog s) (posted s) (held s) (asked s) (answered s) (born s).
Definition s_heap (x : gmap nat Z) (s : st) : st := St (nodes s) (lst s) (cnt s) x (resolving s) (refreshing s) (inprog s) (posted s) (held s) (asked s) (answered s) (born s).
Definition s_resolving (x : list nat) (s : st) : st := St (nodes s) (lst s) (cnt s) (heap s) x (refreshing s) (inprog s) (posted s) (held s) (asked s) (answered s) (born s).
Definition s_refreshing (x : list nat) (s : st) : st := St (nodes s) (lst s) (cnt s) (heap s) (resolving s) x (inprog s) (posted s) (held s) (asked s) (answered s) (born s).
Definition s_inprog (x : list (list nat * option nat)) (s : st) : st := St (nodes s) (lst s) (cnt s) (heap s) (resolving s) (refreshing s) x (posted s) (held s) (asked s) (answered s) (born s).
Definition s_posted (x : list (nat * option nat)) (s : st) : st := St (nodes s) (lst s) (cnt s) (heap s) (resolving s) (refreshing s) (inprog s) x (held s) (asked s) (answered s) (born s).
Definition s_held (x : list nat) (s : st) : st := St (nodes s) (lst s) (cnt s) (heap s) (resolving s) (refreshing s) (inprog s) (posted s) x (asked s) (answered s) (born s).
Definition s_asked (x : list (nat * nat)) (s : st) : st := St (nodes s) (lst s) (cnt s) (heap s) (resolving s) (refreshing s) (inprog s) (posted s) (held s) x (answered s) (born s).
Definition s_answered (x : list (nat * option nat)) (s : st) : st := St (nodes s) (lst s) (cnt s) (heap s) (resolving s) (refreshing s) (inprog s) (posted s) (held s) (asked s) x (born s).
Definition s_born (x : gmap nat nat) (s : st) : st := St (nodes s) (lst s) (cnt s) (heap s) (resolving s) (refreshing s) (inprog s) (posted s) (held s) (asked s) (answered s) x.

(** kgl_addr_refs / kgl_addr_release, kaddr.c:77-90; None: use of freed memory *)
Definition ref (h : gmap nat Z) (a : option nat) : option (gmap nat Z) :=
  match a with None => Some h | Some a => match h !! a with None => None | Some z => Some (<[a := z + 1]> h) end end.
Definition unref (h : gmap nat Z) (a : option nat) : option (gmap nat Z) :=
  match a with None => Some h | Some a => match h !! a with None => None | Some z => if decide (z = 1) then Some (delete a h) else Some (<[a := z - 1]> h) end end.
Definition FRESH : Z := 30. Definition IDLE : Z := 3600. Definition MAXC : Z := 1048576. Definition MAXE : Z := 10.   (* kaddr.c:16-19 *)

Inductive ev :=
| Find (k r : nat) (now : Z) (ok : bool)      (* kgl_find_addr; ok: the worker accepts a refresh job *)
| FindCache (k : nat) (now : Z) (ok : bool)   (* kgl_find_cache_addr *)
| UserRelease (i : nat)                       (* kgl_addr_release of the i-th reference held by the program *)
| ResolveOk (k : nat) (res : option nat)      (* async_addr_worker, getaddrinfo done: new kgl_addr (or none) *)
| ResolveFail (k : nat)                       (* async_addr_worker, timeout or worker queue full *)
| Answer (i : nat)                            (* one iteration of the loop in addr_result *)
| Deliver (i : nat)                           (* addr_next_call, or the direct call in kgl_find_addr *)
| Refresh (k : nat) (res : option nat) (now : Z)  (* async_addr_cache_worker: update_addr_cache *)
| Flush (now : Z).                            (* kgl_flush_addr_cache *)

(** the part of find_addr_in_tree for a node in addr_list, kaddr.c:286-302 *)
Definition touch (s : st) (k : nat) (n : node) (now : Z) (ok : bool) : st :=
  let stale := bool_decide (now - n_lv n > FRESH) in
  s_nodes (<[k := Node None (n_addr n) (n_last n) now (if stale then now else n_lv n) (n_err n)]> (nodes s))
  (s_lst (remove1 k (lst s) ++ [k]) (s_refreshing (if stale && ok then k :: refreshing s else refreshing s) s)).
(** kgl_flush_addr_cache, kaddr.c:376-394 *)
Fixpoint flush_loop (now : Z) (l : list nat) (m : gmap nat node) (c : Z) (h : gmap nat Z) : option (list nat * gmap nat node * Z * gmap nat Z) :=
  match l with
  | [] => Some ([], m, c, h)
  | k :: l' => match m !! k with
    | None => None
    | Some n =>
      if bool_decide (now - n_lt n < IDLE) && bool_decide (c < MAXC) then Some (l, m, c, h)
      else match unref h (n_addr n) with None => None | Some h => match unref h (n_last n) with None => None | Some h =>
             flush_loop now l' (delete k m) (c - 1) h end end
    end
  end.
Definition step (s : st) (e : ev) : res st unit :=
  match e with
  | Find k r now ok =>                                              (* kaddr.c:316-360 *)
    if decide (r ∈ (asked s).*1) then Disabled else
    let s := s_asked ((r, k) :: asked s) s in
    match nodes s !! k with
    | None => Ok (s_nodes (<[k := Node (Some [r]) None None now now 0]> (nodes s)) (s_resolving (k :: resolving s) s)) ()
    | Some n =>
      match n_queue n with
      | Some q => Ok (s_nodes (<[k := Node (Some (r :: q)) (n_addr n) (n_last n) (n_lt n) (n_lv n) (n_err n)]> (nodes s)) s) ()
      | None =>
        let s := touch s k n now ok in
        let a := match n_addr n with Some a => Some a | None => n_last n end in
        match ref (heap s) a with
        | None => Crash
        | Some h => Ok (s_heap h (s_posted (posted s ++ [(r, a)]) s)) ()
        end
      end
    end
  | FindCache k now ok =>                                           (* kaddr.c:361-375 *)
    match nodes s !! k with
    | None => Ok s ()
    | Some n => match n_queue n with
      | Some _ => Ok s ()
      | None => let s := touch s k n now ok in
        match n_addr n with
        | None => Ok s ()
        | Some a => match ref (heap s) (Some a) with None => Crash | Some h => Ok (s_heap h (s_held (a :: held s) s)) () end
        end
      end
    end
  | UserRelease i => match held s !! i with None => Disabled | Some a =>
      match unref (heap s) (Some a) with None => Crash | Some h => Ok (s_heap h (s_held (delete i (held s)) s)) () end end
  | ResolveOk k res =>                                              (* kaddr.c:229-234 and update_addr_node_cache :121-138 *)
    if decide (k ∈ resolving s) then
      match nodes s !! k with
      | None => Crash
      | Some n => match n_queue n, n_addr n, n_last n with
        | Some q, None, None =>
          let s := s_nodes (<[k := Node None res res (n_lt n) (n_lv n) (n_err n)]> (nodes s)) (s_lst (lst s ++ [k]) (s_cnt (cnt s + 1)
                   (s_resolving (remove1 k (resolving s)) (s_inprog (inprog s ++ [(q, res)]) s)))) in
          match res with
          | Some a => if decide (a ∈ dom (born s)) then Disabled else Ok (s_heap (<[a := 2]> (heap s)) (s_born (<[a := k]> (born s)) s)) ()
          | None => Ok s ()
          end
        | _, _, _ => Crash   (* kassert, kaddr.c:212, 124, 125 *)
        end
      end
    else Disabled
  | ResolveFail k =>                                                (* kaddr.c:218-228 *)
    if decide (k ∈ resolving s) then
      match nodes s !! k with
      | None => Crash
      | Some n => match n_queue n with
        | Some q => match unref (heap s) (n_addr n) with None => Crash | Some h => match unref h (n_last n) with None => Crash | Some h =>
            Ok (s_nodes (delete k (nodes s)) (s_heap h (s_resolving (remove1 k (resolving s)) (s_inprog (inprog s ++ [(q, None)]) s)))) () end end
        | None => Crash end
      end
    else Disabled
  | Answer i => match inprog s !! i with
    | Some (r :: q, a) => match ref (heap s) a with None => Crash | Some h =>
        Ok (s_heap h (s_inprog (<[i := (q, a)]> (inprog s)) (s_posted (posted s ++ [(r, a)]) s))) () end
    | Some ([], a) => Ok (s_inprog (delete i (inprog s)) s) ()
    | None => Disabled end
  | Deliver i => match posted s !! i with
    | Some (r, a) => match unref (heap s) a with None => Crash | Some h =>
        Ok (s_heap h (s_posted (delete i (posted s)) (s_answered ((r, a) :: answered s) s))) () end
    | None => Disabled end
  | Refresh k res now =>                                            (* update_addr_cache, kaddr.c:139-176 *)
    if decide (k ∈ refreshing s) then
      if (match res with Some a => bool_decide (a ∈ dom (born s)) | None => false end) then Disabled else
      let s := s_refreshing (remove1 k (refreshing s)) s in
      let '(n, new) := match nodes s !! k with None => (Node None None None now now 0, true) | Some n => (n, false) end in
      match n_queue n with
      | Some _ => Crash     (* klist_remove of a node that is not in the list: prev is NULL *)
      | None =>
        let l := if new then lst s else remove1 k (lst s) in
        let c := if new then cnt s + 1 else cnt s in
        let s := s_lst (l ++ [k]) (s_cnt c s) in
        match unref (heap s) (n_addr n) with None => Crash | Some h =>
          match res with
          | Some a =>
            match unref (<[a := 1]> h) (n_last n) with None => Crash | Some h => match ref h (Some a) with None => Crash | Some h =>
              Ok (s_nodes (<[k := Node None res res (n_lt n) (n_lv n) 0]> (nodes s)) (s_heap h (s_born (<[a := k]> (born s)) s))) () end end
          | None =>
            let e := n_err n + 1 in
            if decide (e >= MAXE) then
              match unref h (n_last n) with None => Crash | Some h =>
                Ok (s_nodes (<[k := Node None None None (n_lt n) (n_lv n) e]> (nodes s)) (s_heap h s)) () end
            else Ok (s_nodes (<[k := Node None None (n_last n) (n_lt n) (n_lv n) e]> (nodes s)) (s_heap h s)) ()
          end
        end
      end
    else Disabled
  | Flush now => match flush_loop now (lst s) (nodes s) (cnt s) (heap s) with
    | None => Crash
    | Some (l, m, c, h) => Ok (s_nodes m (s_lst l (s_cnt c (s_heap h s)))) () end
  end.
(** kgl_addr_init, kaddr.c:427-439 *)
Definition init : st := St ∅ [] 0 ∅ [] [] [] [] [] [] [] ∅.

(** the hints of get_addr, kaddr.c:104-120: (ai_family = PF_UNSPEC, AI_CANONNAME requested), with KSOCKET_IPV6 *)
Inductive atype := TIp | TCname.
Definition hints (t : atype) : bool * bool :=
  let f := (false, false) in
  let f := match t with TCname => (false, true) | TIp => f end in
  (* no break: falls through into default *)
  (true, false).
