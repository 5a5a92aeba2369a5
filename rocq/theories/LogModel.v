(** Model of src/libzt/zt_log.c and zt_log/{log_private,log_stderr,log_file,log_syslog}.c.
    A text is the list of its character codes without the final NUL.  Loggers live in a heap; address 0 is NULL.
    Simplifications: one thread (the debug information is kept per thread, the default logger is shared and protected by a mutex); memory does not run out and
    files open; what a message's arguments print as is given, as a list of texts; of the printf language only the shape is modelled, see [vprintf]. *)
From Verif Require Import Prelude Heap CstrModel CstrSpec.
Local Open Scope Z_scope.

Definition text := list Z.
(** the conversions of the model: c d f g i p s u x, without flags, widths or lengths; a directive other than these counts as undefined behaviour *)
Definition conversion (d : Z) : bool := existsb (Z.eqb d) [99; 100; 102; 103; 105; 112; 115; 117; 120].
(** what vfprintf prints: a conversion is '%' and one letter, takes one argument, and is undefined behaviour if there is none left *)
Fixpoint vprintf (fmt : text) (args : list text) {struct fmt} : outcome text :=
  match fmt with
  | [] => Ok []
  | c :: r =>
      if c =? 37 then
        match r with
        | [] => UB
        | d :: r =>
            if d =? 37 then t <- vprintf r args ;; Ok (37 :: t)
            else if negb (conversion d) then UB
            else match args with [] => UB | a :: args => t <- vprintf r args ;; Ok (a ++ t) end
        end
      else t <- vprintf r args ;; Ok (c :: t)
  end.

(* zt_log.h:19-24 *)
Definition WITH_DATE := 1. Definition WITH_LEVEL := 2. Definition WITH_SYSNAME := 4. Definition WITH_PROGNAME := 8. Definition WITH_PID := 16.
Definition has (opts bit : Z) : bool := negb (Z.land opts bit =? 0).
(* zt_log.h:34-44: zt_log_emerg = 0 .. zt_log_debug = 7, zt_log_max = 8 *)
Definition log_crit := 2.
Definition log_max := 8.
(* log_private.c:37-47; the texts "Emergency" .. "Debug" *)
Definition level_desc (level : Z) : text :=
  nth (Z.to_nat level) [[69;109;101;114;103;101;110;99;121]; [65;108;101;114;116]; [67;114;105;116;105;99;97;108]; [69;114;114;111;114]; [87;97;114;110;105;110;103];
                        [78;111;116;105;99;101]; [73;110;102;111]; [68;101;98;117;103]] [].

(** what the functions ask of the system: strftime's text, gethostname's (None: it failed), zt_progname's, getpid's *)
Record env := mkenv { e_date : text; e_host : option text; e_prog : text; e_pid : Z }.
(* zt_log.c:58-63 *)
Record dbg := mkdbg { d_file : option text; d_line : Z; d_func : option text }.
Definition no_dbg := mkdbg None (-1) None.

(** a C buffer of [cap] bytes holding the text [t] *)
Definition strcat (cap : Z) (t s : text) : outcome text := if zlen t + zlen s + 1 <=? cap then Ok (t ++ s) else UB.
Definition sprintf (cap : Z) (s : text) : outcome text := strcat cap [] s.
(* log_private.c:89-92: cut at the first '.' *)
Fixpoint cut_dot (s : text) : text := match s with [] => [] | c :: r => if c =? 46 then [] else c :: cut_dot r end.
Definition colon : text := [58; 32].

(* log_private.c:67-150 zt_log_gen_fmt; the sizes are those the code computes *)
Definition gen_fmt (opts : Z) (e : env) (fmt : text) (d : dbg) (level : Z) : outcome text :=
  let len := zlen fmt + 4 in
  let buff := [] in
  (* 74-82 *)
  ' (len, buff) <- (if has opts WITH_DATE then
      let len := len + zlen (e_date e) in
      b <- sprintf len (e_date e) ;; Ok (len, b) else Ok (len, buff)) ;;
  (* 84-102 *)
  ' (len, buff) <- (if has opts WITH_SYSNAME then
      sbuf <- sprintf 255 (match e_host e with Some h => h | None => [42;104;111;115;116;110;97;109;101;42] end) ;;
      let sbuf := cut_dot sbuf in
      let len := len + (zlen sbuf + 1) in
      b <- strcat len buff sbuf ;;
      b <- (if WITH_SYSNAME <? opts then strcat len b [32] else Ok b) ;; Ok (len, b) else Ok (len, buff)) ;;
  (* 104-108 *)
  ' (len, buff) <- (if has opts WITH_PROGNAME then
      let len := len + zlen (e_prog e) in
      b <- strcat len buff (e_prog e) ;; Ok (len, b) else Ok (len, buff)) ;;
  (* 110-118 *)
  ' (len, buff) <- (if has opts WITH_PID then
      sbuf <- sprintf 13 ([91] ++ decimal (e_pid e) ++ [93]) ;;
      let len := len + zlen sbuf in
      b <- strcat len buff sbuf ;; Ok (len, b) else Ok (len, buff)) ;;
  (* 120-129 *)
  ' (len, buff) <- (if has opts WITH_LEVEL && (level <? log_max) && (0 <=? level) then
      let len := len + (zlen (level_desc level) + 2) in
      b <- (if negb (opts =? WITH_LEVEL) then strcat len buff colon else Ok buff) ;;
      b <- strcat len b (level_desc level) ;; Ok (len, b) else Ok (len, buff)) ;;
  (* 130-133 *)
  buff <- (if negb (opts =? 0) then strcat len buff colon else Ok buff) ;;
  buff <- strcat len buff fmt ;;
  (* 134-147 *)
  ' (len, buff) <- (match d_file d, d_func d with
      | Some file, Some function =>
          if (-1 <? d_line d) then
            let nlen := 13 + zlen file + zlen function + 10 in
            nbuff <- sprintf nlen ([58;32;105;110;32] ++ function ++ [32;97;116;32;40] ++ file ++ [58] ++ decimal (d_line d) ++ [41]) ;;
            let len := len + nlen in
            b <- strcat len buff nbuff ;; Ok (len, b)
          else Ok (len, buff)
      | _, _ => Ok (len, buff)
      end) ;;
  strcat len buff [10].

Inductive kind := Stderr | File | Syslog.
(* log_private.h:34-45 *)
Record logger := mklogger { l_kind : kind; l_opts : Z; l_level : Z }.

(** [dflt]: log_default_ptr (zt_log.c:66); [exits]: the loggers given to zt_atexit (zt_log.c:105), last first; [out]: what was printed, on which logger *)
Record state := mkstate { lgs : heap logger; dflt : nat; ctx : dbg; exits : list nat; out : list (nat * text) }.
Definition init : state := mkstate (mkheap (fun _ => None) 1) 0 (mkdbg None 0 None) [] [].
Definition set_lgs (s : state) (h : heap logger) := mkstate h (dflt s) (ctx s) (exits s) (out s).
Definition set_dflt (s : state) (p : nat) := mkstate (lgs s) p (ctx s) (exits s) (out s).

(* log_private.c:49-64 zt_log_new, and the constructors log_stderr.c:53-64, log_file.c:74-97, log_syslog.c:83-104 *)
Definition log_new (s : state) (k : kind) (opts : Z) : nat * state :=
  let '(p, h) := alloc (lgs s) (mklogger k opts log_max) in (p, set_lgs s h).
(* zt_log.c:90-113 zt_log_get_logger *)
Definition get_logger (s : state) : nat * state :=
  if (dflt s =? 0)%nat then
    let '(p, s) := log_new s Stderr WITH_LEVEL in
    (p, mkstate (lgs s) p (ctx s) (p :: exits s) (out s))
  else (dflt s, s).
(** if (!log) log = zt_log_get_logger() *)
Definition resolve (s : state) (log : nat) : nat * state := if (log =? 0)%nat then get_logger s else (log, s).
(* zt_log.c:115-149 zt_log_set_logger, zt_log_logger *)
Definition zt_log_logger (s : state) (log : nat) : nat * state :=
  if (log =? 0)%nat && (dflt s =? 0)%nat then get_logger s else (dflt s, set_dflt s log).
(* zt_log.c:151-192 *)
Definition set_level (s : state) (log : nat) (level : Z) : outcome (Z * state) :=
  let '(log, s) := resolve s log in
  l <- load (lgs s) log ;; h <- store (lgs s) log (mklogger (l_kind l) (l_opts l) level) ;; Ok (l_level l, set_lgs s h).
Definition get_level (s : state) (log : nat) : outcome (Z * state) :=
  let '(log, s) := resolve s log in l <- load (lgs s) log ;; Ok (l_level l, s).
Definition set_opts (s : state) (log : nat) (opts : Z) : outcome (Z * state) :=
  let '(log, s) := resolve s log in
  l <- load (lgs s) log ;; h <- store (lgs s) log (mklogger (l_kind l) opts (l_level l)) ;; Ok (l_opts l, set_lgs s h).
Definition get_opts (s : state) (log : nat) : outcome (Z * state) :=
  let '(log, s) := resolve s log in l <- load (lgs s) log ;; Ok (l_opts l, s).
(* zt_log.c:194-221 *)
Definition set_debug_info (s : state) (d : dbg) : state := mkstate (lgs s) (dflt s) d (exits s) (out s).
Definition get_debug_info (s : state) : dbg := ctx s.

(* log_stderr.c:30-44, log_file.c:45-64, log_syslog.c:30-72 *)
Definition print (s : state) (e : env) (log : nat) (l : logger) (level : Z) (d : dbg) (fmt : text) (args : list text) : outcome state :=
  let opts := match l_kind l with Syslog => if has (l_opts l) WITH_LEVEL then WITH_LEVEL else 0 | _ => l_opts l end in
  nfmt <- gen_fmt opts e fmt d level ;;
  t <- vprintf nfmt args ;;
  Ok (mkstate (lgs s) (dflt s) (ctx s) (exits s) (out s ++ [(log, t)])).
(* zt_log.c:241-263 zt_log_lvprintf *)
Definition lvprintf (s : state) (e : env) (log : nat) (level : Z) (fmt : text) (args : list text) : outcome state :=
  let '(log, s) := resolve s log in
  l <- load (lgs s) log ;;
  if l_level l <? level then Ok (set_debug_info s no_dbg)
  else s <- print s e log l level (ctx s) fmt args ;; Ok (set_debug_info s no_dbg).
(* zt_log.c:223-239 zt_log_lprintf *)
Definition lprintf (s : state) (e : env) (log : nat) (level : Z) (fmt : text) (args : list text) : outcome state :=
  let '(log, s) := resolve s log in
  l <- load (lgs s) log ;;
  if l_level l <? level then Ok (set_debug_info s no_dbg) else lvprintf s e log level fmt args.

(** what strerror_r does: does it return something other than 0, and the text it left in the buffer (None: it left the buffer as it was).
    The POSIX function returns 0 and fills the buffer; the GNU one, which the build selects on Linux (CMakeModules/BaseConfig.cmake:38, -D_GNU_SOURCE),
    returns a pointer, never NULL, and for the errors it knows leaves the buffer alone. *)
Definition strerror_result := (bool * option text)%type.
(* "Could not capture error string" *)
Definition no_capture : text := [67;111;117;108;100;32;110;111;116;32;99;97;112;116;117;114;101;32;101;114;114;111;114;32;115;116;114;105;110;103].
(* zt_log.c:265-298 zt_log_lstrerror *)
Definition lstrerror (s : state) (e : env) (log : nat) (level : Z) (res : strerror_result) (fmt : text) (args : list text) : outcome state :=
  let '(log, s) := resolve s log in
  l <- load (lgs s) log ;;
  if l_level l <? level then Ok (set_debug_info s no_dbg) else
  s <- (if fst res then lprintf s e log log_crit no_capture [] else Ok s) ;;
  match snd res with
  | None => UB     (* the text after ": " is what malloc left there *)
  | Some t => if zlen t <? 253 then lvprintf s e log level (fmt ++ colon ++ t) args else UB
  end.

(* zt_log.c:300-313 zt_log_close with the destructors log_stderr.c:20-28, log_file.c:26-43, log_syslog.c:23-28 *)
Definition zt_log_close (s : state) (log : nat) : outcome state :=
  if (log =? 0)%nat then Ok s else
  let s := if (log =? dflt s)%nat then set_dflt s 0 else s in
  h <- release (lgs s) log ;; Ok (set_lgs s h).

(* zt_log.c:32-39 log_atexit on every logger given to zt_atexit, the last first (property C40) *)
Fixpoint close_all (s : state) (l : list nat) : outcome state :=
  match l with [] => Ok s | p :: r => s <- zt_log_close s p ;; close_all s r end.
Definition at_exit (s : state) : outcome state :=
  close_all (mkstate (lgs s) (dflt s) (ctx s) [] (out s)) (exits s).
