(** What a log message looks like, and histories of calls. *)
From Verif Require Import Prelude Heap CstrModel CstrSpec LogModel.
From Coq Require Import Ascii String.
Local Open Scope Z_scope.

(** the character codes of a string *)
Definition str (s : string) : list Z := map (fun c => Z.of_nat (nat_of_ascii c)) (list_ascii_of_string s).
(** the names of the levels *)
Definition level_name (level : Z) : list Z :=
  match level with
  | 0 => str "Emergency" | 1 => str "Alert" | 2 => str "Critical" | 3 => str "Error" | 4 => str "Warning" | 5 => str "Notice" | 6 => str "Info" | 7 => str "Debug"
  | _ => []
  end.
(** a host name up to its first dot *)
Definition short_name (h : list Z) : list Z :=
  match find (fun k => nth k h 0 =? 46) (seq 0 (List.length h)) with Some k => firstn k h | None => h end.
Definition host_unknown : list Z := str "*hostname*".
Definition capture_failed : list Z := str "Could not capture error string".
(** no debug information: what is left once it has been used *)
Definition used_up : dbg := mkdbg None (-1) None.

(** what comes before the message: date, host, program, pid, level, as asked for by the options *)
Definition prefix (opts : Z) (e : env) (level : Z) : text :=
  (if Z.testbit opts 0 then e_date e else []) ++
  (if Z.testbit opts 2 then short_name (match e_host e with Some h => h | None => host_unknown end) ++ (if 4 <? opts then [32] else []) else []) ++
  (if Z.testbit opts 3 then e_prog e else []) ++
  (if Z.testbit opts 4 then [91] ++ decimal (e_pid e) ++ [93] else []) ++
  (if Z.testbit opts 1 && (level <? 8) then (if opts =? 2 then [] else [58; 32]) ++ level_name level else []) ++
  (if opts =? 0 then [] else [58; 32]).
(** what comes after it: ": in function at (file:line)" if all three are known, and a newline *)
Definition suffix (d : dbg) : text :=
  match d_file d, d_func d with
  | Some file, Some func => if 0 <=? d_line d then [58;32;105;110;32] ++ func ++ [32;97;116;32;40] ++ file ++ [58] ++ decimal (d_line d) ++ [41] else []
  | _, _ => []
  end ++ [10].
(** the options a logger uses *)
Definition shown_opts (l : logger) : Z := match l_kind l with Syslog => if Z.testbit (l_opts l) 1 then 2 else 0 | _ => l_opts l end.

(** sizes the system guarantees *)
Definition env_ok (e : env) : Prop := match e_host e with Some h => zlen h <= 254 | None => True end /\ 0 <= e_pid e < 2 ^ 32.
Definition dbg_ok (d : dbg) : Prop := d_line d < 2 ^ 31.
(** no '%' *)
Definition plain (t : text) : Prop := ~ In 37 t.
Definition env_plain (e : env) : Prop := plain (e_date e) /\ plain (match e_host e with Some h => h | None => [] end) /\ plain (e_prog e).
Definition dbg_plain (d : dbg) : Prop := plain (match d_file d with Some t => t | None => [] end) /\ plain (match d_func d with Some t => t | None => [] end).

(** calls of a program; [New] is any of the constructors; [p] is a logger obtained before, 0 for NULL *)
Inductive call :=
| New (k : kind) (opts : Z)
| Logger (p : nat)
| SetLevel (p : nat) (level : Z)
| SetOpts (p : nat) (opts : Z)
| SetDebug (d : dbg)
| Printf (e : env) (p : nat) (level : Z) (fmt : text) (args : list text)
| Vprintf (e : env) (p : nat) (level : Z) (fmt : text) (args : list text)
| Close (p : nat).
Definition step (s : state) (c : call) : outcome state :=
  match c with
  | New k opts => Ok (snd (log_new s k opts))
  | Logger p => Ok (snd (zt_log_logger s p))
  | SetLevel p level => ' (_, s) <- set_level s p level ;; Ok s
  | SetOpts p opts => ' (_, s) <- set_opts s p opts ;; Ok s
  | SetDebug d => Ok (set_debug_info s d)
  | Printf e p level fmt args => lprintf s e p level fmt args
  | Vprintf e p level fmt args => lvprintf s e p level fmt args
  | Close p => zt_log_close s p
  end.
Fixpoint steps (s : state) (l : list call) : outcome state := match l with [] => Ok s | c :: r => s <- step s c ;; steps s r end.

(** the debug information in force after the calls l: that of the last SetDebug, if no message has been given since *)
Fixpoint debug_after (d : dbg) (l : list call) : dbg :=
  match l with
  | [] => d
  | SetDebug d' :: r => debug_after d' r
  | Printf _ _ _ _ _ :: r | Vprintf _ _ _ _ _ :: r => debug_after used_up r
  | _ :: r => debug_after d r
  end.
