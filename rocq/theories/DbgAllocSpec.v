(** Specification of C65 on the history of calls: what a program may believe about its memory. *)
From Verif Require Import DbgAllocModel.
Local Open Scope Z_scope.

(** [vm]: the bytes of the program's blocks (with the guard bytes around them), [vl]: its blocks, address -> size and whether guarded *)
Record view := mkv { vm : Z -> option Z; vl : Z -> option (Z * bool) }.
Definition put (x n : Z) (g : Z -> option Z) (m : Z -> option Z) (y : Z) : option Z := if decide (x <= y < x + n) then g (y - x) else m y.
(** a guarded block of [n] bytes [g] at [q] *)
Definition guarded (q n : Z) (g : Z -> option Z) (m : Z -> option Z) : Z -> option Z :=
  put (q - 8) 8 (λ i, Some (start_magic i)) (put (q + n) 8 (λ i, Some (end_magic i)) (put q n g m)).
(** block [p] ends: unguarded and guarded blocks disappear, except that a guarded block whose release is delayed is overwritten with 0xee *)
Definition kill (delay : bool) (p : Z) (v : view) : view :=
  match vl v p with
  | Some (m, false) => mkv (put p (Z.max 1 m) (λ _, None) (vm v)) (upd (vl v) p None)
  | Some (m, true) => mkv (if delay then put p m (λ _, Some 0xee) (vm v) else put (p - 8) (m + 16) (λ _, None) (vm v)) (upd (vl v) p None)
  | None => v
  end.
Definition vstep (delay : bool) (v : view) (h : hev) : view :=
  match h with
  | HMalloc _ n z q true _ => mkv (guarded q n (λ _, Some (if z then 0 else 0xcc)) (vm v)) (upd (vl v) q (Some (n, true)))
  | HMalloc _ n z q false junk =>
      mkv (put q (Z.max 1 n) (λ i, Some (if z && bool_decide (i < n) then 0 else junk i)) (vm v)) (upd (vl v) q (Some (n, false)))
  | HRealloc _ p n q trk junk =>
      let m := match vl v p with Some (m, _) => m | None => 0 end in
      let m := if trk then m else Z.max 1 m in
      let g := λ i, if decide (i < m) then vm v (p + i) else Some (if trk then 0xcc else junk i) in
      let w := kill delay p v in
      mkv (if trk then guarded q n g (vm w) else put q (Z.max 1 n) g (vm w)) (upd (vl w) q (Some (n, trk)))
  | HFree p => kill delay p v
  | HPoke x b => mkv (put x 1 (λ _, Some b) (vm v)) (vl v)
  | HDrop p n => mkv (put (p - 8) (n + 16) (λ _, None) (vm v)) (vl v)
  end.
Definition view_of (delay : bool) (h : list hev) : view := fold_left (vstep delay) h (mkv (λ _, None) (λ _, None)).

(** freed guarded blocks whose release is still delayed: address -> size *)
Definition pstep (delay : bool) (vd : view * (Z -> option Z)) (h : hev) : view * (Z -> option Z) :=
  (vstep delay (fst vd) h,
   match h with
   | HFree p | HRealloc _ p _ _ _ _ => match vl (fst vd) p with Some (m, true) => if delay then upd (snd vd) p (Some m) else snd vd | _ => snd vd end
   | HDrop p _ => upd (snd vd) p None
   | _ => snd vd
   end).
Definition pend_of (delay : bool) (h : list hev) : Z -> option Z := snd (fold_left (pstep delay) h (mkv (λ _, None) (λ _, None), λ _, None)).

(** the program's duties.  [usable]: the pointer was returned by malloc/calloc/realloc, not freed since, and no thread is inside realloc with it *)
Definition held (c : tpc) (p : Z) : Prop :=
  match c with TIdle => False | TCopy p' r => p' = p \/ ru r = p | TIns r _ _ => ru r = p end.
Definition usable (delay : bool) (s : sys) (p : Z) : Prop := vl (view_of delay (hist s)) p <> None /\ forall t, ~ held (thr s t) p.
Definition is_guarded (delay : bool) (s : sys) (p : Z) : Prop := exists n, vl (view_of delay (hist s)) p = Some (n, true).
(** start_hook_alloc is called once; free and realloc get usable pointers (free also NULL), and while the leaks are being listed only
    unguarded ones; sizes are below 2^64 - 16; the program writes into mapped memory of its own (it may damage guards or use freed blocks whose
    release is delayed); listing does not start while a thread is inside realloc *)
Definition duty (delay : bool) (s : sys) (e : ev) : Prop :=
  match e with
  | EStart => started s = false
  | EMalloc _ n _ _ => n + 16 < 2 ^ 64
  | ECalloc _ c sz _ _ => (sz * c) mod 2 ^ 64 + 16 < 2 ^ 64
  | ERealloc _ p n _ _ => n + 16 < 2 ^ 64 /\ usable delay s p /\ (dmp s <> DOff -> ~ is_guarded delay s p)
  | EFree _ p => p = 0 \/ usable delay s p /\ (dmp s <> DOff -> ~ is_guarded delay s p)
  | EPoke x _ => vm (view_of delay (hist s)) x <> None
  | EDump => forall t p r, thr s t <> TCopy p r
  | _ => True
  end.
(** and in addition stays inside its blocks *)
Definition clean_duty (delay : bool) (s : sys) (e : ev) : Prop :=
  duty delay s e /\
  match e with
  | EPoke x _ => exists p n trk, vl (view_of delay (hist s)) p = Some (n, trk) /\ p <= x < p + n
  | _ => True
  end.
(** [p], [n] bytes: its guards are what they were / every byte still has the mark of freed memory *)
Definition guards_ok (m : Z -> option Z) (p n : Z) : Prop :=
  forall i, 0 <= i < 8 -> m (p - 8 + i) = Some (start_magic i) /\ m (p + n + i) = Some (end_magic i).
Definition marked (m : Z -> option Z) (p n : Z) : Prop := forall i, 0 <= i < n -> m (p + i) = Some 0xee.
(** a run in which every step is within the duties [D] *)
Fixpoint keeps (delay : bool) (nb : nat) (hash : Z -> nat) (D : sys -> ev -> Prop) (s : sys) (es : list ev) : Prop :=
  match es with
  | [] => True
  | e :: es => D s e /\ match step delay nb hash s e with Ok s' _ => keeps delay nb hash D s' es | _ => True end
  end.
Definition reach (delay : bool) (nb : nat) (hash : Z -> nat) (D : sys -> ev -> Prop) (s : sys) : Prop :=
  exists es os, keeps delay nb hash D init es /\ run (step delay nb hash) init es = Ok s os.
(** first byte and length of a block with its guards *)
Definition lbase (p : Z) (trk : bool) : Z := if trk then p - 8 else p.
Definition llen (n : Z) (trk : bool) : Z := if trk then n + 16 else Z.max 1 n.
(** the step gives up block [p]: free, realloc to size 0, or the copying step of realloc *)
Definition freeing (s : sys) (e : ev) (p : Z) : Prop :=
  match e with EFree _ q => q = p | ERealloc _ q n _ _ => q = p /\ n = 0 | ECopy t _ _ => exists r, thr s t = TCopy p r | _ => False end.
