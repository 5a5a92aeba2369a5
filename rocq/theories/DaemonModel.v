(** Model of src/libzt/zt_daemon.c.
    A process is its table of open descriptors, working directory, file creation mask, its number and the number of its session.  What the system calls answer
    is given: [sys].
    Simplifications: what is written to the log is left out (after line 72 every descriptor is closed); sleep(1) takes no time; a new descriptor is the lowest
    free one below the limit, as POSIX says; wait() returns when the first child has ended. *)
From Verif Require Import Prelude CstrModel CstrSpec.
Local Open Scope Z_scope.

Inductive file := Null | Other (n : nat).
Record proc := mkproc { fds : Z -> option file; cwd : list Z; mask : Z; pid : nat; session : nat }.
Record sys := mksys {
  fork1 : option nat;        (* the first child, or failure *)
  setsid_ok : bool;
  rlimit : option Z;         (* RLIMIT_NOFILE's rlim_cur, an unsigned 64 bit number *)
  fork2 : option nat;
  chdir_ok : list Z -> bool;
  null_ok : bool             (* /dev/null can be opened *)
}.
(** how a process ends the call: it has left, or it goes on with a return value *)
Inductive fate := Exits (code : Z) | Returns (v : Z) (p : proc).

Definition set_fd (t : Z -> option file) (d : Z) (v : option file) : Z -> option file := fun x => if x =? d then v else t x.
Definition INT_MAX : Z := 2147483647.
(* zt_daemon.c:66-72: for (i = 0; i < limit; i++) { if (i > INT_MAX) i = INT_MAX; close(i); } *)
Fixpoint close_loop (fuel : nat) (i limit : Z) (t : Z -> option file) {struct fuel} : outcome (Z -> option file) :=
  if i <? limit then
    match fuel with
    | O => Loop
    | S fuel => let i := if INT_MAX <? i then INT_MAX else i in close_loop fuel ((i + 1) mod 2 ^ 64) limit (set_fd t i None)
    end
  else Ok t.

(** the lowest free descriptor below the limit *)
Fixpoint lowest (n : nat) (d : Z) (t : Z -> option file) {struct n} : option Z :=
  match n with O => None | S n => match t d with None => Some d | Some _ => lowest n (d + 1) t end end.
(* open("/dev/null", O_RDWR) *)
Definition open_null (ok : bool) (limit : Z) (t : Z -> option file) : Z * (Z -> option file) :=
  if ok then match lowest (Z.to_nat limit) 0 t with Some d => (d, set_fd t d (Some Null)) | None => (-1, t) end else (-1, t).
(* dup(fd) *)
Definition dup (fd limit : Z) (t : Z -> option file) : Z * (Z -> option file) :=
  if fd =? -1 then (-1, t) else
  match t fd, lowest (Z.to_nat limit) 0 t with Some f, Some d => (d, set_fd t d (Some f)) | _, _ => (-1, t) end.

(* zt_daemon.c:80-102 *)
Definition second_child (s : sys) (root : option (list Z)) (m limit : Z) (p : proc) : fate :=
  let go p :=
    let p := mkproc (fds p) (cwd p) m (pid p) (session p) in
    let '(fd, t) := open_null (null_ok s) limit (fds p) in
    let '(_, t) := dup fd limit t in
    let '(_, t) := dup fd limit t in
    Returns 0 (mkproc t (cwd p) (mask p) (pid p) (session p)) in
  match root with
  | Some r => if chdir_ok s r then go (mkproc (fds p) r (mask p) (pid p) (session p)) else Exits 1
  | None => go p
  end.
(* zt_daemon.c:50-106: the fates of the first child and, if it comes to that, of the second *)
Definition first_child (fuel : nat) (s : sys) (root : option (list Z)) (m : Z) (p : proc) : outcome (list fate) :=
  if setsid_ok s then
    let p := mkproc (fds p) (cwd p) (mask p) (pid p) (pid p) in
    match rlimit s with
    | None => Ok [Exits 1]
    | Some limit =>
        t <- close_loop fuel 0 limit (fds p) ;;
        match fork2 s with
        | None => Ok [Exits 1]
        | Some c => Ok [Exits 0; second_child s root m limit (mkproc t (cwd p) (mask p) c (session p))]
        end
    end
  else Ok [Exits 1].
(* zt_daemon.c:37-116 zt_daemonize: the fates of the caller and of the processes made; Loop: the first child never ends, and the caller waits for it *)
Definition daemonize (fuel : nat) (s : sys) (root : option (list Z)) (m : Z) (p : proc) : outcome (list fate) :=
  match fork1 s with
  | None => Ok [Exits 1]
  | Some c => l <- first_child fuel s root m (mkproc (fds p) (cwd p) (mask p) c (session p)) ;; Ok (Exits 0 :: l)
  end.

(** what a call of write() or close() answers: a count, interrupted by a signal, or another failure *)
Inductive io := Done (n : Z) | Intr | Fail.
(** call until not interrupted; the answer, and how many calls were made *)
Fixpoint retry (fuel : nat) (r : nat -> io) (k : nat) {struct fuel} : outcome (io * nat) :=
  match r k with
  | Intr => match fuel with O => Loop | S fuel => retry fuel r (S k) end
  | x => Ok (x, S k)
  end.
(* zt_daemon.c:119-162 zt_writepid: the return value, what is in the file afterwards (None: it was not touched), and how often close() was called.
   The answer of write() is how many of the bytes reached the file. *)
Definition writepid (fuel : nat) (name : option (list Z)) (creat_ok : bool) (me : Z) (writes closes : nat -> io) : outcome (Z * option (list Z) * nat) :=
  match name with
  | None => Ok (-1, None, O)
  | Some _ =>
      if creat_ok then
        let text := decimal me ++ [10] in
        let sz := zlen text in
        ' (oVal, content) <- (if (0 <? sz) && (sz <? 64) then
            ' (w, _) <- retry fuel writes 0 ;;
            match w with
            | Done n => Ok (if n =? sz then 0 else -1, firstn (Z.to_nat n) text)
            | _ => Ok (-1, [])
            end
          else Ok (-1, [])) ;;
        ' (v, k) <- retry fuel closes 0 ;;
        let v := match v with Done n => n | _ => -1 end in
        Ok (if v =? 0 then oVal else -1, Some content, k)
      else Ok (-1, None, O)
  end.
