(** Model of the memory pool and pool arrays (src/kmalloc.c, include/kmalloc.h), 64-bit.

    Addresses and sizes are integers; a region is (address, length).  malloc / memalign are one function
    [sysm] of a call counter, the regions the pool currently holds and the request, returning NULL or an
    address (properties assumed of it: [sys_ok]).  The block chain d.next is the list [blocks] (first = the
    pool itself), [cur] the index of pool->current, pool->large and pool->cleanup are lists of records with the
    address of the record.  Ghost: every block and every large entry remembers the regions handed out of it.
    Sizes do not overflow size_t, except the cast of end - m in kgl_palloc_small, which is kept. *)
From Verif Require Export Lts.
From stdpp Require Export gmap.
Local Open Scope Z_scope.

Definition region := (Z * Z)%type.
(** kgl_pool_data_t, kmalloc.h:66-71; [blive] ghost *)
Record blk := mkb { ba : Z; blast : Z; bend : Z; bfailed : Z; blive : list region }.
(** kgl_pool_t, kmalloc.h:77-83; large: (address of the kgl_pool_large_t, alloc with its ghost length);
    cleanup: (address of the kgl_cleanup_t, handler, data), handler 0 = NULL *)
Record pool := mkpool { blocks : list blk; cur : nat; large : list (Z * option region);
  cleanup : list (Z * Z * Z); pmax : Z; sysr : list region; tick : nat }.

Definition SZ_POOL := 64.     (* sizeof(kgl_pool_t) *)
Definition SZ_DATA := 32.     (* sizeof(kgl_pool_data_t) *)
Definition SZ_LARGE := 16.    (* sizeof(kgl_pool_large_t) *)
Definition SZ_CLEAN := 24.    (* sizeof(kgl_cleanup_t) *)
Definition SZ_ARRAY := 40.    (* sizeof(kgl_array_t) *)
(** kgl_align_ptr(m, KGL_ALIGNMENT), kmalloc.h:36-37, kmalloc.c:8 *)
Definition align8 (m : Z) : Z := Z.land (m + 7) (Z.lnot 7).
(** kgl_pagesize is never assigned: (unsigned)(0 - 1) *)
Definition MAX_FROM_POOL := 2 ^ 32 - 1.

Section M.
Context (sysm : nat -> list region -> Z -> Z -> option Z).

(** kmalloc.c:107-127 *)
Definition create_pool (size : Z) : option pool :=
  match sysm 0 [] 16 size with
  | None => None
  | Some a =>
    let m := size - SZ_POOL in
    Some (mkpool [mkb a (a + SZ_POOL) (a + size) 0 []] 0 [] [] (if decide (m < MAX_FROM_POOL) then m else MAX_FROM_POOL) [(a, size)] 1)
  end.

(** the body of the do loop of kgl_palloc_small, kmalloc.c:51-61 *)
Definition carve (al : bool) (size : Z) (b : blk) : option (Z * blk) :=
  let m := if al then align8 (blast b) else blast b in
  if decide (size <= (bend b - m) mod 2 ^ 64)
  then Some (m, mkb (ba b) (m + size) (bend b) (bfailed b) ((m, size) :: blive b)) else None.
Fixpoint try_small (al : bool) (size : Z) (bs : list blk) : option (Z * list blk) :=
  match bs with
  | [] => None
  | b :: bs => match carve al size b with
    | Some (m, b') => Some (m, b' :: bs)
    | None => match try_small al size bs with Some (m, bs') => Some (m, b :: bs') | None => None end
    end
  end.
(** kmalloc.c:32-36: the loop over p = current .. last but one; returns the blocks and the new current *)
Fixpoint bump (bs : list blk) (i cur : nat) : list blk * nat :=
  match bs with
  | [] => ([], cur)
  | b :: bs' =>
    match bs' with
    | [] => ([b], cur)
    | _ :: _ =>
      let '(r, c) := bump bs' (S i) (if decide (bfailed b > 4) then S i else cur) in
      (mkb (ba b) (blast b) (bend b) (bfailed b + 1) (blive b) :: r, c)
    end
  end.
(** kmalloc.c:11-42 *)
Definition palloc_block (p : pool) (size : Z) : option Z * pool :=
  match blocks p with
  | [] => (None, p)
  | b0 :: _ =>
    let psize := bend b0 - ba b0 in
    match sysm (tick p) (sysr p) 16 psize with
    | None => (None, mkpool (blocks p) (cur p) (large p) (cleanup p) (pmax p) (sysr p) (S (tick p)))
    | Some n =>
      let m := align8 (n + SZ_DATA) in
      let '(bs, c) := bump (drop (cur p) (blocks p)) (cur p) (cur p) in
      (Some m, mkpool (take (cur p) (blocks p) ++ bs ++ [mkb n (m + size) (n + psize) 0 [(m, size)]]) c
         (large p) (cleanup p) (pmax p) ((n, psize) :: sysr p) (S (tick p)))
    end
  end.
(** kmalloc.c:44-68 *)
Definition palloc_small (p : pool) (size : Z) (al : bool) : option Z * pool :=
  match try_small al size (drop (cur p) (blocks p)) with
  | Some (m, bs) => (Some m, mkpool (take (cur p) (blocks p) ++ bs) (cur p) (large p) (cleanup p) (pmax p) (sysr p) (tick p))
  | None => palloc_block p size
  end.
(** kmalloc.c:81-90: the first free entry among the first five *)
Fixpoint reuse (l : list (Z * option region)) (n : nat) (r : region) : option (list (Z * option region)) :=
  match l, n with
  | (h, None) :: l, S _ => Some ((h, Some r) :: l)
  | (h, Some q) :: l, S n => match reuse l n r with Some l => Some ((h, Some q) :: l) | None => None end
  | _, _ => None
  end.
Definition set_large (p : pool) (l : list (Z * option region)) : pool :=
  mkpool (blocks p) (cur p) l (cleanup p) (pmax p) (sysr p) (tick p).
Definition set_sys (p : pool) (r : list region) : pool :=
  mkpool (blocks p) (cur p) (large p) (cleanup p) (pmax p) r (S (tick p)).
(** kmalloc.c:91-102 and 362-370: a new entry for the system region r; on failure r is given back *)
Definition new_large (p : pool) (r : region) : option Z * pool :=
  match palloc_small p SZ_LARGE true with
  | (Some h, p) => (Some r.1, set_large p ((h, Some r) :: large p))
  | (None, p) => (None, set_sys p (remove1 r (sysr p)))
  end.
(** kmalloc.c:71-104 *)
Definition palloc_large (p : pool) (size : Z) : option Z * pool :=
  match sysm (tick p) (sysr p) 16 size with
  | None => (None, set_sys p (sysr p))
  | Some a =>
    let p := set_sys p ((a, size) :: sysr p) in
    match reuse (large p) 5 (a, size) with
    | Some l => (Some a, set_large p l)
    | None => new_large p (a, size)
    end
  end.
(** kmalloc.c:174-183, 185-193 *)
Definition palloc (p : pool) (size : Z) : option Z * pool :=
  if decide (size <= pmax p) then palloc_small p size true else palloc_large p size.
Definition pnalloc (p : pool) (size : Z) : option Z * pool :=
  if decide (size <= pmax p) then palloc_small p size false else palloc_large p size.
(** kmalloc.c:352-371 *)
Definition pmemalign (p : pool) (size al : Z) : option Z * pool :=
  match sysm (tick p) (sysr p) al size with
  | None => (None, set_sys p (sysr p))
  | Some a => new_large (set_sys p ((a, size) :: sysr p)) (a, size)
  end.
(** kmalloc.c:219-232; returns the freed region *)
Fixpoint find_free (l : list (Z * option region)) (a : Z) : option (region * list (Z * option region)) :=
  match l with
  | [] => None
  | (h, Some r) :: l => if decide (r.1 = a) then Some (r, (h, None) :: l)
                        else match find_free l a with Some (q, l) => Some (q, (h, Some r) :: l) | None => None end
  | (h, None) :: l => match find_free l a with Some (q, l) => Some (q, (h, None) :: l) | None => None end
  end.
Definition pfree (p : pool) (a : Z) : bool * pool :=
  match find_free (large p) a with
  | Some (r, l) => (true, set_sys (set_large p l) (remove1 r (sysr p)))
  | None => (false, p)
  end.
(** kmalloc.c:208-218 *)
Definition cleanup_add (p : pool) (h d : Z) : option Z * pool :=
  match palloc p SZ_CLEAN with
  | (Some c, p) => (Some c, mkpool (blocks p) (cur p) (large p) ((c, h, d) :: cleanup p) (pmax p) (sysr p) (tick p))
  | (None, p) => (None, p)
  end.
(** kmalloc.c:199-207 *)
Definition cleanup_insert (p : pool) (h : Z) : option Z * pool :=
  match list_find (λ e, e.1.2 = h) (cleanup p) with
  | Some (_, e) => (Some e.1.1, p)
  | None => cleanup_add p h 0
  end.
(** kmalloc.c:196-198: kgl_cleanup_set_data on the record at address c *)
Definition cleanup_set (p : pool) (c d : Z) : pool :=
  mkpool (blocks p) (cur p) (large p) ((λ e, if decide (e.1.1 = c) then (e.1.1, e.1.2, d) else e) <$> cleanup p) (pmax p) (sysr p) (tick p).
(** kmalloc.c:128-150; [sys] are the regions not yet freed.  Reading a record in freed memory is a crash: the walk over pool->large reads
    the entries, which lie in the blocks, while only large regions are being freed; the walk over the blocks reads
    d.next of a block only before freeing it. *)
Definition inside (a n : Z) (r : region) : Prop := r.1 <= a /\ a + n <= r.1 + r.2.
Definition readable (a n : Z) (sys : list region) : bool := existsb (λ r, bool_decide (inside a n r)) sys.
Fixpoint free_large (l : list (Z * option region)) (sys : list region) : option (list region) :=
  match l with
  | [] => Some sys
  | (h, o) :: l =>
    if readable h SZ_LARGE sys then
      match o with None => free_large l sys
      | Some r => if decide (r ∈ sys) then free_large l (remove1 r sys) else None end
    else None
  end.
Fixpoint free_blocks (bs : list blk) (sys : list region) : option (list region) :=
  match bs with
  | [] => Some sys
  | b :: bs =>
    (* d.next of the block is read (after the block before it was freed), then the block is freed *)
    if readable (ba b) SZ_DATA sys then
      if decide ((ba b, bend b - ba b) ∈ sys) then free_blocks bs (remove1 (ba b, bend b - ba b) sys) else None
    else None
  end.
(** kmalloc.c:132-136, 155-159: the handlers that run, in order, with their data *)
Fixpoint run_cleanup (l : list (Z * Z * Z)) (sys : list region) : option (list (Z * Z)) :=
  match l with
  | [] => Some []
  | (c, h, d) :: l => if readable c SZ_CLEAN sys then
      match run_cleanup l sys with Some r => Some (if decide (h = 0) then r else (h, d) :: r) | None => None end
    else None
  end.
Definition destroy_pool (p : pool) : option (list (Z * Z) * list region) :=
  match run_cleanup (cleanup p) (sysr p) with None => None | Some hs =>
  match free_large (large p) (sysr p) with None => None | Some sys =>
  match free_blocks (blocks p) sys with None => None | Some sys => Some (hs, sys) end end end.
(** kmalloc.c:151-173 *)
Definition reset_pool (p : pool) : option (list (Z * Z) * pool) :=
  match run_cleanup (cleanup p) (sysr p) with None => None | Some hs =>
  match free_large (large p) (sysr p) with None => None | Some sys =>
  Some (hs, mkpool ((λ b, mkb (ba b) (ba b + SZ_POOL) (bend b) 0 []) <$> blocks p) 0 [] [] (pmax p) sys (tick p)) end end.

(** ** Pool arrays (kgl_array_t, kmalloc.h:110-117) *)
Record arr := mka { a_self : Z; elts : Z; nelts : Z; esize : Z; nalloc : Z }.
(** kgl_memcpy = memmove *)
Definition move (mem : Z -> Z) (dst src n : Z) : Z -> Z :=
  λ a, if decide (dst <= a < dst + n) then mem (src + (a - dst)) else mem a.
(** p->d.last += n of the first block; the ghost region of the array grows with it *)
Definition grow_last (p : pool) (r : region) (n : Z) : pool :=
  match blocks p with
  | [] => p
  | b :: bs => mkpool (mkb (ba b) (blast b + n) (bend b) (bfailed b) ((r.1, r.2 + n) :: remove1 r (blive b)) :: bs)
      (cur p) (large p) (cleanup p) (pmax p) (sysr p) (tick p)
  end.
Definition first_last (p : pool) : Z := match blocks p with b :: _ => blast b | [] => 0 end.
Definition first_end (p : pool) : Z := match blocks p with b :: _ => bend b | [] => 0 end.
(** kmalloc.c:233-246, kmalloc.h:139-149 *)
Definition array_create (p : pool) (n size : Z) : option arr * pool :=
  match palloc p SZ_ARRAY with
  | (None, p) => (None, p)
  | (Some s, p) => match palloc p (n * size) with
    | (None, p) => (None, p)
    | (Some e, p) => (Some (mka s e 0 size n), p)
    end
  end.
(** kmalloc.c:265-304; the result is the address of the new element *)
Definition array_push (p : pool) (m : Z -> Z) (a : arr) : option Z * pool * (Z -> Z) * arr :=
  let ok p m a := (Some (elts a + esize a * nelts a), p, m, mka (a_self a) (elts a) (nelts a + 1) (esize a) (nalloc a)) in
  if decide (nelts a = nalloc a) then
    let size := esize a * nalloc a in
    if decide (elts a + size = first_last p /\ first_last p + esize a <= first_end p) then
      ok (grow_last p (elts a, size) (esize a)) m (mka (a_self a) (elts a) (nelts a) (esize a) (nalloc a + 1))
    else match palloc p (2 * size) with
      | (None, p) => (None, p, m, a)
      | (Some e, p) => ok p (move m e (elts a) size) (mka (a_self a) e (nelts a) (esize a) (nalloc a * 2))
      end
  else ok p m a.
(** kmalloc.c:307-351 *)
Definition array_push_n (p : pool) (m : Z -> Z) (a : arr) (n : Z) : option Z * pool * (Z -> Z) * arr :=
  let ok p m a := (Some (elts a + esize a * nelts a), p, m, mka (a_self a) (elts a) (nelts a + n) (esize a) (nalloc a)) in
  let size := n * esize a in
  if decide (nelts a + n > nalloc a) then
    if decide (elts a + esize a * nalloc a = first_last p /\ first_last p + size <= first_end p) then
      ok (grow_last p (elts a, esize a * nalloc a) size) m (mka (a_self a) (elts a) (nelts a) (esize a) (nalloc a + n))
    else
      let na := 2 * (if decide (n >= nalloc a) then n else nalloc a) in
      match palloc p (na * esize a) with
      | (None, p) => (None, p, m, a)
      | (Some e, p) => ok p (move m e (elts a) (nelts a * esize a)) (mka (a_self a) e (nelts a) (esize a) na)
      end
  else ok p m a.
(** kmalloc.c:249-262 *)
Definition cut_last (p : pool) (r : region) : pool :=
  match blocks p with
  | [] => p
  | b :: bs => mkpool (mkb (ba b) r.1 (bend b) (bfailed b) (remove1 r (blive b)) :: bs) (cur p) (large p) (cleanup p) (pmax p) (sysr p) (tick p)
  end.
Definition array_destroy (p : pool) (a : arr) : pool :=
  let len := esize a * nalloc a in
  let p := if decide (elts a + len = first_last p) then cut_last p (elts a, len) else p in
  if decide (a_self a + SZ_ARRAY = first_last p) then cut_last p (a_self a, SZ_ARRAY) else p.
End M.
