(** Model of the Windows allocation tracking of src/kmalloc_debug_win32.c:
    ptr_list_remove (258-278), ptr_list_insert (279-298), win32_free_hook
    (299-309), win32_malloc_hook (310-328), win32_realloc_hook (329-333),
    xallochook (334-353), start_hook_alloc (354-362), dump_memory_leak
    (180-246), strapp (93-103), the removal of quotes in
    buildsymbolsearchpath (145-155).

    Simplifications: one event at a time (every table has its mutex); a tree
    of the table is a finite map from the request number (the tree is the
    subject of C01); numbers are in 0 .. 2^31-1, where the difference
    [key1->request - key2->request] does not overflow a Windows long; memory
    of the records does not run out (the code aborts); stack traces and the
    text of the report are left out: a report is the list of the records it
    prints. *)
From stdpp Require Export prelude gmap.
From Coq Require Export ZArith.
Local Open Scope Z_scope.

(** new_ptr_list_t: kmalloc_debug_win32.c:79-84 *)
Record rec := Rec { r_size : Z; r_time : Z }.
(** memory_pool: bucket -> request -> record, kmalloc_debug_win32.c:85 *)
Definition tbl := Z -> gmap Z rec.
Definition HASHMASK : Z := 16383.     (* :33-38 *)
Definition bucket (n : Z) : Z := Z.land n HASHMASK.
Definition upd (t : tbl) (b : Z) (m : gmap Z rec) : tbl := fun x => if decide (x = b) then m else t x.

(** nBlockUse: _CRT_BLOCK or another *)
Inductive buse := CrtBlock | NormalBlock.

(** :354-362 *)
Definition start_hook : tbl := fun _ => ∅.

(** :299-309 with 258-278, the number is read in the header of the block *)
Definition free_hook (t : tbl) (hdr : Z) : tbl :=
  upd t (bucket hdr) (delete hdr (t (bucket hdr))).

(** :310-328 with 279-298; None: ptr_list_insert meets the number in the tree, and loops
    (291: kassert(false), without NDEBUG it aborts) *)
Definition malloc_hook (t : tbl) (req size now : Z) : option tbl :=
  match t (bucket req) !! req with
  | Some _ => None
  | None => Some (upd t (bucket req) (<[req := Rec size now]> (t (bucket req))))
  end.

(** Calls of the hook by the C runtime, before it does the thing. *)
Inductive hcall :=
| HAlloc (u : buse) (req size now : Z)
| HFree (u : buse) (hdr : Z)
| HRealloc (u : buse) (hdr req size now : Z).

(** :334-353 with 329-333 *)
Definition hook (t : tbl) (c : hcall) : option tbl :=
  match c with
  | HAlloc CrtBlock _ _ _ | HFree CrtBlock _ | HRealloc CrtBlock _ _ _ _ => Some t
  | HAlloc NormalBlock req size now => malloc_hook t req size now
  | HFree NormalBlock hdr => Some (free_hook t hdr)
  | HRealloc NormalBlock hdr req size now => malloc_hook (free_hook t hdr) req size now
  end.
Fixpoint hooks (t : tbl) (cs : list hcall) : option tbl :=
  match cs with
  | [] => Some t
  | c :: cs' => match hook t c with Some t' => hooks t' cs' | None => None end
  end.

(** :211-212: the conversion to int is exact for ages below 2^31 s *)
Definition in_age (minT maxT now : Z) (r : rec) : bool :=
  (minT <=? now - r_time r) && ((maxT <? 0) || (now - r_time r <=? maxT)).

(** :180-246.  [fopen_ok]: the file could be opened.  Result: the returned
    int, the records printed, the total (unsigned, 32 bits), whether the file is kept. *)
Definition buckets : list Z := map Z.of_nat (seq 0 (Z.to_nat 16384)).
Definition shown (t : tbl) (minT maxT now : Z) (b : Z) : list (Z * rec) :=
  filter (fun p => in_age minT maxT now p.2 = true) (map_to_list (t b)).
Definition dump (t : tbl) (fopen_ok : bool) (minT maxT now : Z) : Z * list (Z * rec) * Z * bool :=
  if fopen_ok then
    let l := concat (map (shown t minT maxT now) buckets) in
    (Z.of_nat (length l), l, foldr (fun p a => (r_size p.2 + a) mod 2 ^ 32) 0 l, negb (bool_decide (length l = 0%nat)))
  else (-1, [], 0, false).

(** strapp :93-103.  Bytes of a buffer: None is not initialised.
    strncpy(d, s, n): the n first bytes, filled up with zeros. *)
Definition strncpy (s : list Z) (n : nat) : list (option Z) :=
  take n (map Some s) ++ replicate (n - length s) (Some 0).
(** Where the string in the buffer ends: at the first zero; reading what is
    not initialised, or past the end, is undefined. *)
Fixpoint cstrlen (b : list (option Z)) : option nat :=
  match b with
  | [] => None
  | None :: _ => None
  | Some c :: b' => if decide (c = 0) then Some 0%nat else option_map S (cstrlen b')
  end.
(** strncat(d, s, n) *)
Definition strncat (b : list (option Z)) (s : list Z) (n : nat) : option (list (option Z)) :=
  match cstrlen b with
  | None => None
  | Some k =>
      let add := map Some (take n s) ++ [Some 0] in
      if bool_decide (k + length add <= length b)%nat
      then Some (take k b ++ add ++ drop (k + length add) b)
      else None
  end.
Definition strapp (dest src : list Z) : option (list (option Z)) :=
  let length0 := (length dest + length src)%nat in
  (* inter_malloc(length + 1), strncpy of temp into it *)
  let b := strncpy dest length0 ++ [None] in
  strncat b src length0.

(** :145-155: where path[pos] is a quotation mark the bytes behind move one to the left (the
    last is the terminating zero); pos++ in any case. *)
Definition quote : Z := 34.
Definition rmq (path : list Z) (pos : nat) : list Z :=
  if decide (path !! pos = Some quote) then take pos path ++ drop (S pos) path ++ [0] else path.
Definition remove_quotes (s : list Z) : list Z := foldl rmq s (seq 0 (length s)).
(** The string in it. *)
Fixpoint cstr (l : list Z) : list Z :=
  match l with
  | [] => []
  | c :: l' => if decide (c = 0) then [] else c :: cstr l'
  end.
