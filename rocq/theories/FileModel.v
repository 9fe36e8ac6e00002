(** Model of the file calls: src/kfile.c:65-159 (kfopen, POSIX and Windows), 160-208 (kfseek), include/kfile.h:18-27
    (kfile_close_on_exec), 29-50 (Windows kfwrite, kfread), 60-66 (POSIX kfread, kfwrite, kfclose), 70-88 (kfsize), 90-103 (kfutime),
    114-134 (kftime), 136-147 (kfread_all).

    Any number of threads; the scheduler picks the next step; one step is one system call.  The operating system is a model of its
    own: named regular files, open handles with their own position, short counts and errors chosen by the environment.  Simplified:
    - no directories, links, permissions; files are not renamed; a path is a number; a handle (descriptor) is a number the
      event chooses among the unused ones; calls on closed handles are not modelled;
    - KFILE_DSYNC, KFILE_NOATIME, KFILE_NOFOLLOW, KFILE_SEQUENTIAL, KFILE_ASYNC are not modelled (C64, C66 are about asynchronous files);
    - times in seconds; kfopen_w is kfopen with another path type.
    [win]: the Windows code and system. *)
From stdpp Require Export gmap.
From Verif Require Export Lts.
Local Open Scope Z_scope.

(** include/kfeature.h:185-200 (seekPosion, fileModel) *)
Inductive mode := MRead | MModify | MWrite | MReadWrite | MWriteRead | MAppend.
#[global] Instance mode_dec : EqDecision mode. Proof. solve_decision. Defined.
Inductive whence := seekBegin | seekEnd | seekCur.

(** * The flags kfopen gives to the system *)
Inductive oacc := O_RDONLY | O_WRONLY | O_RDWR.
#[global] Instance oacc_dec : EqDecision oacc. Proof. solve_decision. Defined.
Record oflags := mkof { o_acc : oacc; o_append : bool; o_creat : bool; o_trunc : bool; o_cloexec : bool }.
(** src/kfile.c:116-157 (temp is ignored) *)
Definition posix_flags (m : mode) : oflags :=
  match m with
  | MRead => mkof O_RDONLY false false false true
  | MAppend => mkof O_WRONLY true true false true
  | MModify => mkof O_WRONLY false true false true
  | MWrite => mkof O_WRONLY false true true true
  | MReadWrite => mkof O_RDWR false false false true
  | MWriteRead => mkof O_RDWR false true true true
  end.
Inductive disp := OPEN_EXISTING | OPEN_ALWAYS | CREATE_ALWAYS.
#[global] Instance disp_dec : EqDecision disp. Proof. solve_decision. Defined.
(** [w_share]: FILE_SHARE_READ|FILE_SHARE_WRITE (otherwise 0); [w_del]: FILE_FLAG_DELETE_ON_CLOSE; [w_inherit]: sa.bInheritHandle *)
Record wflags := mkwf { w_read : bool; w_write : bool; w_appdata : bool; w_disp : disp; w_share : bool; w_del : bool; w_inherit : bool }.
(** src/kfile.c:68-115 *)
Definition win_flags (m : mode) (temp : bool) : wflags :=
  match m with
  | MRead => mkwf true false false OPEN_EXISTING (negb temp) temp false
  | MAppend => mkwf false false true OPEN_ALWAYS (negb temp) temp false
  | MModify => mkwf false true false OPEN_ALWAYS (negb temp) temp false
  | MWrite => mkwf false true false CREATE_ALWAYS (negb temp) temp false
  | MReadWrite => mkwf true true false OPEN_EXISTING (negb temp) temp false
  | MWriteRead => mkwf true true false CREATE_ALWAYS (negb temp) temp false
  end.

(** * The operating system *)
Record file := mkfile { dat : list Z; mtime : Z; btime : Z }.
(** [hp]: the path it was opened by; [hi]: the file; [pos]; [rd] [wr]: rights; [app]: every write goes to the end; [excl]: nobody
    else may open the file; [del]: the file is deleted when the handle is closed; [inh]: a child process inherits the handle; ghost
    [hm]: the mode given to kfopen *)
Record handle := mkh { hp : nat; hi : nat; pos : nat; rd : bool; wr : bool; app_ : bool; excl : bool; del : bool; inh : bool; hm : mode }.
(** kfread_all under way: handle, what is left to read, what is in the buffer, the length of the buffer; ghost: position at the call *)
Record loop := mklp { l_h : nat; l_left : nat; l_buf : list Z; l_cap : nat; l_off : nat }.
(** [names]: path -> file; [files]; [nx]: next file; [hs]: open handles; [lps]: thread -> kfread_all under way; [clk]: the clock;
    ghost [wlog]: (file, bytes) of every write so far, oldest first *)
Record st := mkst { names : gmap nat nat; files : gmap nat file; nx : nat; hs : gmap nat handle; lps : gmap nat loop; clk : Z; wlog : list (nat * list Z) }.
Definition s_names v s := mkst v (files s) (nx s) (hs s) (lps s) (clk s) (wlog s).
Definition s_files v s := mkst (names s) v (nx s) (hs s) (lps s) (clk s) (wlog s).
Definition s_hs v s := mkst (names s) (files s) (nx s) v (lps s) (clk s) (wlog s).
Definition s_lps v s := mkst (names s) (files s) (nx s) (hs s) v (clk s) (wlog s).
Definition s_clk v s := mkst (names s) (files s) (nx s) (hs s) (lps s) v (wlog s).
Definition s_pos (k : nat) (x : handle) := mkh (hp x) (hi x) k (rd x) (wr x) (app_ x) (excl x) (del x) (inh x) (hm x).
Definition s_inh (b : bool) (x : handle) := mkh (hp x) (hi x) (pos x) (rd x) (wr x) (app_ x) (excl x) (del x) b (hm x).
Definition init (t0 : Z) : st := mkst ∅ ∅ 0 ∅ ∅ t0 [].
Definition data (s : st) (i : nat) : list Z := match files s !! i with Some f => dat f | None => [] end.

(** open an existing file: empty it or not *)
Definition open_old (trunc : bool) (i : nat) (s : st) : st :=
  if trunc then s_files (alter (fun f => mkfile [] (clk s) (btime f)) i (files s)) s else s.
(** a new empty file *)
Definition create (p : nat) (s : st) : st :=
  mkst (<[p := nx s]> (names s)) (<[nx s := mkfile [] (clk s) (clk s)]> (files s)) (S (nx s)) (hs s) (lps s) (clk s) (wlog s).
Definition file_at (p : nat) (s : st) : nat := match names s !! p with Some i => i | None => nx s end.
(** open(2) *)
Definition sys_open (f : oflags) (p h : nat) (m : mode) (s : st) : option st :=
  if bool_decide (is_Some (names s !! p)) || o_creat f then
    let x := mkh p (file_at p s) 0 (bool_decide (o_acc f <> O_WRONLY)) (bool_decide (o_acc f <> O_RDONLY)) (o_append f) false false (negb (o_cloexec f)) m in
    let s1 := match names s !! p with Some i => open_old (o_trunc f) i s | None => create p s end in
    Some (s_hs (<[h := x]> (hs s1)) s1)
  else None.
(** the handles open on a file *)
Definition on_file (i : nat) (s : st) : list handle := filter (fun x => hi x = i) (map_to_list (hs s)).*2.
(** CreateFile: sharing is checked against the handles already open (all of them share reading and writing, or nothing) *)
Definition create_file (f : wflags) (p h : nat) (m : mode) (s : st) : option st :=
  let ok := match names s !! p with
            | Some i => forallb (fun x => negb (excl x) && w_share f) (on_file i s)
            | None => bool_decide (w_disp f <> OPEN_EXISTING)
            end in
  if ok then
    let x := mkh p (file_at p s) 0 (w_read f) (w_write f || w_appdata f) (w_appdata f && negb (w_write f)) (negb (w_share f)) (w_del f) (w_inherit f) m in
    let s1 := match names s !! p with Some i => open_old (bool_decide (w_disp f = CREATE_ALWAYS)) i s | None => create p s end in
    Some (s_hs (<[h := x]> (hs s1)) s1)
  else None.
(** write k of the bytes at position n; a gap is filled with zeros *)
Definition splice (n : nat) (bs l : list Z) : list Z := take n l ++ replicate (n - length l) 0 ++ bs ++ drop (n + length bs) l.

(** read(2) / ReadFile asked for n bytes; the environment answers r: None is an error.  None: not a possible answer; Some None: -1 *)
Definition sys_read (s : st) (x : handle) (n : nat) (r : option nat) : option (option (list Z)) :=
  match r with
  | None => Some None
  | Some k =>
    if negb (rd x) then None
    else let av := drop (pos x) (data s (hi x)) in
      if bool_decide (k <= n /\ k <= length av /\ (0 < n -> 0 < length av -> 0 < k))%nat then Some (Some (take k av)) else None
  end.

Definition LIM : Z := 2 ^ 63.
(** * Events; t: thread, h: handle, p: path
    EOpen h p m temp ok: kfopen (ok = false: the system fails for another reason)
    ERead h n r, EWrite h bs r: kfread, kfwrite; r: how many bytes the system takes, or an error
    EAll t h n: kfread_all begins; EStep t r: its next kfread
    ESeek, ESize, EUtime (kfutime), ETime (kftime), EClose, ECloexec (kfile_close_on_exec)
    EUnlink p: the file is removed by somebody; EExec: a child process is started; ETick: time passes *)
Inductive ev :=
| EOpen (h p : nat) (m : mode) (temp ok : bool)
| ERead (h n : nat) (r : option nat) | EWrite (h : nat) (bs : list Z) (r : option nat)
| EAll (t h : nat) (n : Z) | EStep (t : nat) (r : option nat)
| ESeek (h : nat) (z : Z) (w : whence) | ESize (h : nat) | EUtime (h : nat) (t : Z) | ETime (h : nat)
| EClose (h : nat) | ECloexec (h : nat) (b : bool) | EUnlink (p : nat) | EExec | ETick (d : nat).

(** src/kfile.c:160-208: SEEK_SET, SEEK_END, SEEK_CUR (FILE_BEGIN, FILE_END, FILE_CURRENT) *)
Definition seek_to (s : st) (x : handle) (z : Z) (w : whence) : Z :=
  match w with seekBegin => z | seekEnd => Z.of_nat (length (data s (hi x))) + z | seekCur => Z.of_nat (pos x) + z end.

(** results: what the call returns (RBool, RNum), and the bytes put into the caller's buffer *)
Inductive out := RNone | RFail | ROpened | RNum (z : Z) | RBytes (bs : list Z) | RBool (b : bool) | RAll (b : bool) (bs : list Z) | RMore | RKids (l : list nat).

Definition step (win : bool) (s : st) (e : ev) : res st out :=
  match e with
  | EOpen h p m temp ok =>
    match hs s !! h with
    | Some _ => Disabled
    | None => match (if ok then if win then create_file (win_flags m temp) p h m s else sys_open (posix_flags m) p h m s else None) with
              | Some s' => Ok s' ROpened
              | None => Ok s RFail
              end
    end
  | ERead h n r =>
    match hs s !! h with None => Disabled | Some x =>
    match sys_read s x n r with
    | None => Disabled
    | Some None => Ok s RFail
    | Some (Some bs) => Ok (s_hs (<[h := s_pos (pos x + length bs) x]> (hs s)) s) (RBytes bs)
    end end
  | EWrite h bs r =>
    match hs s !! h with None => Disabled | Some x =>
    match r with
    | None => Ok s RFail
    | Some k => if negb (wr x) || negb (bool_decide (k <= length bs)%nat) then Disabled
                else let at_ := if app_ x then length (data s (hi x)) else pos x in
                     let s1 := if bool_decide (k = 0%nat) then s else s_files (alter (fun f => mkfile (splice at_ (take k bs) (dat f)) (clk s) (btime f)) (hi x) (files s)) s in
                     Ok (mkst (names s1) (files s1) (nx s1) (<[h := s_pos (at_ + k) x]> (hs s1)) (lps s1) (clk s1) (wlog s1 ++ [(hi x, take k bs)])) (RNum (Z.of_nat k))
    end end
  | EAll t h n =>
    match lps s !! t, hs s !! h with
    | None, Some x => if bool_decide (0 < n) then Ok (s_lps (<[t := mklp h (Z.to_nat n) [] (Z.to_nat n) (pos x)]> (lps s)) s) RMore else Ok s (RAll true [])
    | _, _ => Disabled
    end
  | EStep t r =>
    match lps s !! t with None => Disabled | Some l =>
    match hs s !! l_h l with None => Disabled | Some x =>
    match sys_read s x (l_left l) r with
    | None => Disabled
    | Some None => Ok (s_lps (delete t (lps s)) s) (RAll false (l_buf l))
    | Some (Some bs) =>
      let s1 := s_hs (<[l_h l := s_pos (pos x + length bs) x]> (hs s)) s in
      let b := l_buf l ++ bs in
      let k := length bs in
      if bool_decide (l_cap l < length b)%nat then Crash
      else if bool_decide (k = 0)%nat then Ok (s_lps (delete t (lps s)) s1) (RAll false b)
      else if bool_decide (l_left l - k = 0)%nat then Ok (s_lps (delete t (lps s)) s1) (RAll true b)
      else Ok (s_lps (<[t := mklp (l_h l) (l_left l - k) b (l_cap l) (l_off l)]> (lps s)) s1) RMore
    end end end
  | ESeek h z w =>
    match hs s !! h with None => Disabled | Some x =>
      let y := seek_to s x z w in
      if bool_decide (0 <= y < LIM) then Ok (s_hs (<[h := s_pos (Z.to_nat y) x]> (hs s)) s) (RBool true) else Ok s (RBool false)
    end
  | ESize h => match hs s !! h with None => Disabled | Some x => Ok s (RNum (Z.of_nat (length (data s (hi x))))) end
  | EUtime h t =>
    match hs s !! h with None => Disabled | Some x =>
      if win && (negb (wr x) || app_ x) then Ok s (RBool false)
      else Ok (s_files (alter (fun f => mkfile (dat f) t (btime f)) (hi x) (files s)) s) (RBool true)
    end
  | ETime h =>
    match hs s !! h with None => Disabled | Some x =>
      match files s !! hi x with None => Crash | Some f => Ok s (RNum (if win then btime f else mtime f)) end
    end
  | EClose h =>
    match hs s !! h with None => Disabled | Some x =>
      let s1 := s_hs (delete h (hs s)) s in
      Ok (if del x && bool_decide (names s !! hp x = Some (hi x)) then s_names (delete (hp x) (names s)) s1 else s1) RNone
    end
  | ECloexec h b =>
    match hs s !! h with None => Disabled | Some x =>
      if win then Ok (s_hs (<[h := s_inh (negb b) x]> (hs s)) s) (RBool false) else Ok s (RBool true)
    end
  | EUnlink p =>
    match names s !! p with
    | None => Disabled
    | Some i => if win && match on_file i s with [] => false | _ => true end then Ok s RFail else Ok (s_names (delete p (names s)) s) RNone
    end
  | EExec => Ok s (RKids (filter (fun h => default false (inh <$> hs s !! h) = true) (map_to_list (hs s)).*1))
  | ETick d => Ok (s_clk (clk s + Z.of_nat d) s) RNone
  end.
