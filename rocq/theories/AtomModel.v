(** The atomic operations of include/katom.h:6-168, on GCC (the __sync builtins) and on Windows (the Interlocked functions).

    A variable of w = 16, 32 or 64 bits holds a value 0 <= v < 2^w; an operation is one step (that the builtins are atomic and full barriers is
    assumed; katom_set on GCC is __sync_lock_test_and_set, an acquire barrier only: ordering is not modelled).  Results are
    given as bit patterns 0 <= r < 2^w: whether the C function declares them signed does not change the bits.  Arguments are C integers of the
    declared signed or unsigned type.  [None]: signed overflow, undefined behaviour. *)
From stdpp Require Export prelude.
From Coq Require Export ZArith.
Local Open Scope Z_scope.

Inductive width := W16 | W32 | W64.
Definition bits (w : width) : Z := match w with W16 => 16 | W32 => 32 | W64 => 64 end.
Definition md (w : width) (x : Z) : Z := x mod 2 ^ bits w.

(** the GCC builtins: result, new value *)
Definition sync_add_and_fetch (w : width) (v x : Z) : Z * Z := (md w (v + x), md w (v + x)).
Definition sync_fetch_and_add (w : width) (v x : Z) : Z * Z := (v, md w (v + x)).
Definition sync_fetch_and_sub (w : width) (v x : Z) : Z * Z := (v, md w (v - x)).
Definition sync_lock_test_and_set (w : width) (v x : Z) : Z * Z := (v, md w x).
Definition sync_bool_cas (w : width) (v c x : Z) : bool * Z := if decide (v = md w c) then (true, md w x) else (false, v).
(** the Windows functions *)
Definition InterlockedIncrement (w : width) (v : Z) : Z * Z := (md w (v + 1), md w (v + 1)).
Definition InterlockedDecrement (w : width) (v : Z) : Z * Z := (md w (v - 1), md w (v - 1)).
Definition InterlockedExchangeAdd (w : width) (v x : Z) : Z * Z := (v, md w (v + x)).
Definition InterlockedExchange (w : width) (v x : Z) : Z * Z := (v, md w x).
Definition InterlockedCompareExchange (w : width) (v x c : Z) : Z * Z := (v, if decide (v = md w c) then md w x else v).

(** a C negation of a signed w-bit value *)
Definition neg (w : width) (x : Z) : option Z := if decide (x = - 2 ^ (bits w - 1)) then None else Some (- x).

Inductive aop := OInc | ODec | OAdd (x : Z) | OSub (x : Z) | OSet (x : Z) | OGet | OCas (c x : Z).
Inductive ares := RVal (r : Z) | RBool (b : bool).
Definition val (q : Z * Z) : option (ares * Z) := Some (RVal (fst q), snd q).
(** katom_inc, katom_inc16, katom_inc64, ... *)
Definition katom_gcc (w : width) (o : aop) (v : Z) : option (ares * Z) :=
  match o with
  | OInc => val (sync_add_and_fetch w v 1)                                (* katom.h:8-24, 35-42 *)
  | ODec => val (sync_add_and_fetch w v (-1))                             (* 44-70 *)
  | OAdd x => val (sync_fetch_and_add w v x)                              (* 72-88; no 16-bit version *)
  | OSub x => match w with
              | W64 => val (sync_fetch_and_sub w v x)                     (* 101-109 *)
              | _ => x' ← neg w x; val (sync_fetch_and_add w v x')        (* 91-99: value = value * -1 *)
              end
  | OSet x => val (sync_lock_test_and_set w v x)                          (* 27-33, 111-127 *)
  | OGet => val (sync_fetch_and_add w v 0)                                (* 129-145 *)
  | OCas c x => Some (RBool (fst (sync_bool_cas w v c x)), snd (sync_bool_cas w v c x))   (* 146-168 *)
  end.
Definition katom_win (w : width) (o : aop) (v : Z) : option (ares * Z) :=
  match o with
  | OInc => val (InterlockedIncrement w v)
  | ODec => val (InterlockedDecrement w v)
  | OAdd x => val (InterlockedExchangeAdd w v x)
  | OSub x => x' ← neg w x; val (InterlockedExchangeAdd w v x')
  | OSet x => val (InterlockedExchange w v x)
  | OGet => val (InterlockedExchangeAdd w v 0)
  | OCas c x => Some (RBool (bool_decide (md w c = fst (InterlockedCompareExchange w v x c))), snd (InterlockedCompareExchange w v x c))
  end.
(** a history: the operations of all threads on one variable in the order they take effect *)
Fixpoint hist (f : aop -> Z -> option (ares * Z)) (v : Z) (os : list (nat * aop)) : option (list (nat * ares) * Z) :=
  match os with
  | [] => Some ([], v)
  | (t, o) :: os =>
      match f o v with
      | Some (r, v) => match hist f v os with Some (rs, v) => Some ((t, r) :: rs, v) | None => None end
      | None => None
      end
  end.

(** * What is meant by them *)
(** arguments the operation is declared for: a signed x for add and sub *)
Definition arg_ok (w : width) (o : aop) : Prop :=
  match o with OAdd x => - 2 ^ (bits w - 1) <= x < 2 ^ (bits w - 1) | OSub x => - 2 ^ (bits w - 1) < x < 2 ^ (bits w - 1) | _ => True end.
Definition delta (o : aop) : Z := match o with OInc => 1 | ODec => -1 | OAdd x => x | OSub x => - x | _ => 0 end.
Definition is_count (o : aop) : Prop := match o with OSet _ | OCas _ _ => False | _ => True end.
