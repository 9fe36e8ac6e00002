(** Specification-level definitions for the pool: disjointness, what is assumed of malloc, and the client
    machine (all histories of calls a client may make on one pool). *)
From Verif Require Export PoolModel.
Local Open Scope Z_scope.

(** two regions share no byte *)
Definition disj (r q : region) : Prop := r.2 <= 0 \/ q.2 <= 0 \/ r.1 + r.2 <= q.1 \/ q.1 + q.2 <= r.1.
Fixpoint pdisj (l : list region) : Prop := match l with [] => True | r :: l => Forall (disj r) l /\ pdisj l end.

(** malloc and memalign: a positive aligned address, of memory not held already *)
Record sys_ok (sysm : nat -> list region -> Z -> Z -> option Z) : Prop := {
  sys_pos : forall k R al sz a, sysm k R al sz = Some a -> 0 < a;
  sys_al : forall k R al sz a, sysm k R al sz = Some a -> a mod al = 0;
  sys_dj : forall k R al sz a, sysm k R al sz = Some a -> Forall (disj (a, sz)) R }.

(** One client call.  Free names the block (address and length); ArrPush / ArrPushN are a push followed by the
    client storing the given bytes at the returned address. *)
Inductive op :=
  | Alloc (size : Z) | Nalloc (size : Z) | Memalign (size al : Z) | Free (a n : Z)
  | CleanAdd (h d : Z) | CleanInsert (h : Z) | CleanSet (c d : Z) | Reset
  | ArrCreate (id : nat) (n sz : Z) | ArrPush (id : nat) (bs : list Z) | ArrPushN (id : nat) (n : Z) (bs : list Z)
  | ArrDestroy (id : nat) | Write (a v : Z).
Inductive out := OPtr (o : option Z) | OBool (b : bool) | ORan (l : list (Z * Z)) | ONone.

(** [user]: the blocks the client holds; [cont]: the bytes it has pushed to each array (ghost). *)
Record st := mkst { po : pool; arrs : gmap nat arr; mem : Z -> Z; user : list region; cont : gmap nat (list Z) }.

(** the client stores bytes at an address *)
Definition store (m : Z -> Z) (a : Z) (bs : list Z) : Z -> Z :=
  λ x, if decide (a <= x < a + Z.of_nat (length bs)) then nth (Z.to_nat (x - a)) bs 0 else m x.

Section S.
Context (sysm : nat -> list region -> Z -> Z -> option Z).
Definition give (s : st) (size : Z) (r : option Z * pool) : option (out * st) :=
  Some (OPtr r.1, mkst r.2 (arrs s) (mem s) (match r.1 with Some m => (m, size) :: user s | None => user s end) (cont s)).
Definition pushed (s : st) (id : nat) (c bs : list Z) (r : option Z * pool * (Z -> Z) * arr) : option (out * st) :=
  let '(o, p, m, a) := r in
  match o with
  | None => Some (OPtr None, mkst p (<[id := a]> (arrs s)) m (user s) (cont s))
  | Some e => Some (OPtr (Some e), mkst p (<[id := a]> (arrs s)) (store m e bs) (user s) (<[id := c ++ bs]> (cont s)))
  end.
(** None: the call breaks the rules of the API (a block the client does not hold, an array it did not create...) *)
Definition step (s : st) (o : op) : option (out * st) :=
  match o with
  | Alloc size => if decide (0 <= size) then give s size (palloc sysm (po s) size) else None
  | Nalloc size => if decide (0 <= size) then give s size (pnalloc sysm (po s) size) else None
  | Memalign size al => if decide (0 < size /\ 0 < al) then give s size (pmemalign sysm (po s) size al) else None
  | Free a n => if decide (0 < n /\ (a, n) ∈ user s) then
      let '(b, p) := pfree (po s) a in
      Some (OBool b, mkst p (arrs s) (mem s) (if b then remove1 (a, n) (user s) else user s) (cont s)) else None
  | CleanAdd h d => let '(c, p) := cleanup_add sysm (po s) h d in Some (OPtr c, mkst p (arrs s) (mem s) (user s) (cont s))
  | CleanInsert h => let '(c, p) := cleanup_insert sysm (po s) h in Some (OPtr c, mkst p (arrs s) (mem s) (user s) (cont s))
  | CleanSet c d => if decide (c ∈ (λ e, e.1.1) <$> cleanup (po s)) then
      Some (ONone, mkst (cleanup_set (po s) c d) (arrs s) (mem s) (user s) (cont s)) else None
  | Reset => match reset_pool (po s) with Some (l, p) => Some (ORan l, mkst p ∅ (mem s) [] ∅) | None => None end
  | ArrCreate id n sz => if decide (1 <= n /\ 1 <= sz /\ arrs s !! id = None) then
      match array_create sysm (po s) n sz with
      | (None, p) => Some (OPtr None, mkst p (arrs s) (mem s) (user s) (cont s))
      | (Some a, p) => Some (OPtr (Some (a_self a)), mkst p (<[id := a]> (arrs s)) (mem s) (user s) (<[id := []]> (cont s)))
      end else None
  | ArrPush id bs => match arrs s !! id, cont s !! id with
    | Some a, Some c => if decide (Z.of_nat (length bs) = esize a)
        then pushed s id c bs (array_push sysm (po s) (mem s) a) else None
    | _, _ => None end
  | ArrPushN id n bs => match arrs s !! id, cont s !! id with
    | Some a, Some c => if decide (0 <= n /\ Z.of_nat (length bs) = n * esize a)
        then pushed s id c bs (array_push_n sysm (po s) (mem s) a n) else None
    | _, _ => None end
  | ArrDestroy id => match arrs s !! id with
    | Some a => Some (ONone, mkst (array_destroy (po s) a) (delete id (arrs s)) (mem s) (user s) (delete id (cont s)))
    | None => None end
  | Write a v => if decide (Exists (λ r : region, r.1 <= a < r.1 + r.2) (user s))
      then Some (ONone, mkst (po s) (arrs s) (store (mem s) a [v]) (user s) (cont s)) else None
  end.
(** a history: the calls with what each returned *)
Fixpoint exec (s : st) (l : list op) : option (list (op * out) * st) :=
  match l with
  | [] => Some ([], s)
  | o :: l => match step s o with None => None | Some (r, s) =>
              match exec s l with None => None | Some (t, s) => Some ((o, r) :: t, s) end end
  end.
Definition init (size : Z) (m : Z -> Z) : option st :=
  match create_pool sysm size with Some p => Some (mkst p ∅ m [] ∅) | None => None end.
Definition history (size : Z) (m : Z -> Z) (l : list op) (t : list (op * out)) (s : st) : Prop :=
  exists s0, init size m = Some s0 /\ exec s0 l = Some (t, s).
End S.

(** the regions the arrays use: the array object and its element storage *)
Definition areg (a : arr) : list region := [(a_self a, SZ_ARRAY); (elts a, esize a * nalloc a)].
Definition aregs (l : gmap nat arr) : list region := map_to_list l ≫= (λ e, areg e.2).
(** the pool's own bookkeeping: block headers, large-entry records, cleanup records *)
Definition own (p : pool) : list region :=
  match blocks p with [] => [] | b :: bs => (ba b, SZ_POOL) :: ((λ b, (ba b, SZ_DATA)) <$> bs) end
  ++ ((λ e, (e.1, SZ_LARGE)) <$> large p) ++ ((λ e, (e.1.1, SZ_CLEAN)) <$> cleanup p).

(** C36: what must be registered after a history, from the calls and results alone: newest first *)
Fixpoint registered (t : list (op * out)) (acc : list (Z * Z * Z)) : list (Z * Z * Z) :=
  match t with
  | [] => acc
  | (CleanAdd h d, OPtr (Some c)) :: t => registered t ((c, h, d) :: acc)
  | (CleanInsert h, OPtr (Some c)) :: t =>
      registered t (if decide (h ∈ (λ e, e.1.2) <$> acc) then acc else (c, h, 0) :: acc)
  | (CleanSet c d, _) :: t => registered t ((λ e, if decide (e.1.1 = c) then (e.1.1, e.1.2, d) else e) <$> acc)
  | (Reset, _) :: t => registered t []
  | _ :: t => registered t acc
  end.
(** the handlers to run, with their data; a NULL handler is skipped *)
Definition to_run (l : list (Z * Z * Z)) : list (Z * Z) := omap (λ e, if decide (e.1.2 = 0) then None else Some (e.1.2, e.2)) l.
