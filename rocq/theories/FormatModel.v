(** Model of zt_format.c.

    A put callback is a function [Z -> S -> outcome (Z * S)] (character, closure, int result); every
    function below works for any callback.  A va_list is a list of arguments; taking an argument of
    the wrong kind or a missing one is undefined behaviour.
    Simplified: `width - len`, `precision - len` are computed mod 2^64 and read back as ssize_t in C;
    here they are plain differences (equal while lengths stay below 2^62).  isdigit() of a byte above
    127 is taken as false (as glibc does).  sprintf(buf, "%.NNf", double) is the C library's: a double
    argument is given as the text sprintf prints for each conversion letter and precision. *)
From Verif Require Import Prelude CstrModel.
Open Scope Z_scope.

Notation text := (list Z).
Definition INT_MAX : Z := 2147483647.
Definition INT_MIN : Z := -2147483648.
Definition two32 : Z := 4294967296.
Definition two64 : Z := 18446744073709551616.

Definition put_f (S : Type) := Z -> S -> outcome (Z * S).
Definition flagset := Z -> Z. (* unsigned char flags[256] *)
Definition set_flag (fl : flagset) (c v : Z) : flagset := fun k => if k =? c then v else fl k.
Definition no_flags : flagset := fun _ => 0.

Inductive arg := AInt (n : Z) | APtr (n : Z) | AStr (s : option text) | ADbl (r : Z -> Z -> text).
(* zt_format.c:266-272: what the converter finds at `value` (NULL for an unknown type letter) *)
Inductive value := VInt (n : Z) | VUint (n : Z) | VDbl (r : Z -> Z -> text) | VPtr (n : Z) | VStr (s : option text) | VNone.

Section Put.
Context {S : Type}.
Definition st := (Z * S)%type. (* tlen, closure *)

(* tlen += put(c, cl); *)
Definition emit (put : put_f S) (c : Z) (x : st) : outcome st :=
  ' (r, s) <- put c (snd x) ;; Ok ((fst x + r) mod two64, s).
(* zt_format.c:15-21: pad(n, c, tlen) *)
Fixpoint pad_loop (k : nat) (put : put_f S) (c : Z) (x : st) : outcome st :=
  match k with
  | O => Ok x
  | Datatypes.S k => x <- emit put c x ;; pad_loop k put c x
  end.
Definition pad (put : put_f S) (n c : Z) (x : st) : outcome st := pad_loop (Z.to_nat n) put c x.
(* zt_format.c:321-327: EMIT_STR *)
Fixpoint emit_str (k : nat) (put : put_f S) (str : text) (x : st) : outcome st :=
  match k with
  | O => Ok x
  | Datatypes.S k => match str with
           | [] => UB
           | c :: r => x <- emit put (c mod 256) x ;; emit_str k put r x
           end
  end.

(* zt_format.c:307-313 *)
Definition normalize_width (width : Z) (fl : flagset) : Z * flagset :=
  if width =? INT_MIN then (0, fl)
  else if width <? 0 then (- width, set_flag fl 45 1)
  else (width, fl).
(* zt_format.c:315-319 *)
Definition normalize (width : Z) (fl : flagset) (precision : Z) : Z * flagset :=
  let (w, fl) := normalize_width width fl in
  (w, if 0 <=? precision then set_flag fl 48 0 else fl).

(* zt_format.c:329-355 *)
Definition zt_fmt_puts (str : text) (len : Z) (put : put_f S) (cl : S) (fl : flagset) (width precision : Z) : outcome st :=
  let (width, fl) := normalize width fl precision in
  let len := if (0 <=? precision) && (precision <? len) then precision else len in
  x <- (if fl 45 =? 0 then pad put (width - len) 32 (0, cl) else Ok (0, cl)) ;;
  emit_str (Z.to_nat len) put str x.

(* zt_format.c:357-427; sign 0 means none *)
Definition zt_fmt_putd (str : text) (len : Z) (put : put_f S) (cl : S) (fl : flagset) (width precision : Z) : outcome st :=
  let (width, fl) := normalize width fl precision in
  ' (sign, str, len) <- (if 0 <? len then
                           match str with
                           | [] => UB
                           | c :: r => if (c =? 45) || (c =? 43) then Ok (c, r, len - 1)
                                       else Ok ((if fl 32 =? 0 then 0 else 32), str, len)
                           end
                         else Ok ((if fl 32 =? 0 then 0 else 32), str, len)) ;;
  let precision := if precision <? 0 then 1 else precision in
  n <- (if len <? precision then Ok precision
        else if (precision =? 0) && (len =? 1) then
          match str with [] => UB | c :: _ => Ok (if c =? 48 then 0 else len) end
        else Ok len) ;;
  let n := if sign =? 0 then n else n + 1 in
  let x := (0, cl) in
  x <- (if negb (fl 45 =? 0) then
          (if sign =? 0 then Ok x else emit put sign x)
        else if negb (fl 48 =? 0) then
          x <- (if sign =? 0 then Ok x else emit put sign x) ;; pad put (width - n) 48 x
        else
          x <- (if sign =? 0 then Ok x else emit put sign x) ;; pad put (width - n) 32 x) ;;
  x <- pad put (precision - len) 48 x ;;
  x <- emit_str (Z.to_nat len) put str x ;;
  if negb (fl 45 =? 0) then pad put (width - n) 32 x else Ok x.

(** ** The conversions *)

(** the signed char / int with the same low bits *)
Definition signed8 (n : Z) : Z := (n + 128) mod 256 - 128.
Definition int32 (n : Z) : Z := (n + 2147483648) mod two32 - 2147483648.

(* zt_format.c:454-473 *)
Definition cvt_c (code : Z) (v : value) (put : put_f S) (cl : S) (fl : flagset) (width precision : Z) : outcome st :=
  match v with
  | VInt n | VUint n =>
      let c := signed8 n in
      let (width, fl) := normalize_width width fl in
      x <- (if fl 45 =? 0 then pad put (width - 1) 32 (0, cl) else Ok (0, cl)) ;;
      x <- emit put c x ;;
      if negb (fl 45 =? 0) then pad put (width - 1) 32 x else Ok x
  | _ => UB
  end.

(* `do { *--p = dig(m); } while ((m = next(m)) != 0);` into the end of a buffer of [room] bytes *)
Fixpoint digit_loop (fuel : nat) (room : Z) (dig next : Z -> Z) (m : Z) (acc : text) : outcome text :=
  match fuel with
  | O => Loop
  | Datatypes.S fuel =>
      _ <- safe (0 <? room) ;;
      let acc := dig m :: acc in
      let m := next m in
      if m =? 0 then Ok acc else digit_loop fuel (room - 1) dig next m acc
  end.
(* "0123456789abcdef"[k] *)
Definition hexdigit (k : Z) : Z := nth (Z.to_nat k) [48;49;50;51;52;53;54;55;56;57;97;98;99;100;101;102] 0.
Definition dec_loop (m : Z) := digit_loop 64 43 (fun m => m mod 10 + 48) (fun m => m / 10) m [].
Definition oct_loop (m : Z) := digit_loop 64 43 (fun m => Z.land m 7 + 48) (fun m => Z.shiftr m 3) m [].
Definition hex_loop (room m : Z) := digit_loop 64 room (fun m => hexdigit (Z.land m 15)) (fun m => Z.shiftr m 4) m [].

(* zt_format.c:476-504: -INT_MIN overflows int; the buffer has room for 43 characters *)
Definition cvt_d (code : Z) (v : value) (put : put_f S) (cl : S) (fl : flagset) (width precision : Z) : outcome st :=
  match v with
  | VInt val =>
      m <- (if val =? INT_MAX then Ok (INT_MAX + 1)
            else if val <? 0 then (_ <- safe (negb (val =? INT_MIN)) ;; Ok (- val))
            else Ok val) ;;
      p <- dec_loop m ;;
      _ <- safe (zlen p <? 43) ;;
      let p := if val <? 0 then 45 :: p else p in
      zt_fmt_putd p (zlen p) put cl fl width precision
  | _ => UB
  end.

(* zt_format.c:507-533: buf has DBL_MAX_10_EXP + 1 + 1 + 99 + 1 = 410 bytes *)
Definition cvt_f (code : Z) (v : value) (put : put_f S) (cl : S) (fl : flagset) (width precision : Z) : outcome st :=
  match v with
  | VDbl r =>
      let precision := if precision <? 0 then 6 else precision in
      let precision := if (code =? 103) && (precision =? 0) then 1 else precision in
      _ <- guard (precision <=? 99) ;;
      let buf := r code precision in
      _ <- safe (zlen buf <? 410) ;;
      zt_fmt_putd buf (zlen buf) put cl fl width precision
  | _ => UB
  end.

(* zt_format.c:535-550 *)
Definition cvt_o (code : Z) (v : value) (put : put_f S) (cl : S) (fl : flagset) (width precision : Z) : outcome st :=
  match v with
  | VUint m => p <- oct_loop m ;; zt_fmt_putd p (zlen p) put cl fl width precision
  | _ => UB
  end.
(* zt_format.c:552-570 *)
Definition cvt_p (code : Z) (v : value) (put : put_f S) (cl : S) (fl : flagset) (width precision : Z) : outcome st :=
  match v with
  | VPtr m => p <- hex_loop 64 m ;; zt_fmt_putd p (zlen p) put cl fl width INT_MIN
  | _ => UB
  end.
(* zt_format.c:573-601 *)
Definition cvt_s (code : Z) (v : value) (put : put_f S) (cl : S) (fl : flagset) (width precision : Z) : outcome st :=
  match v with
  | VStr (Some str) =>
      ' (str, width) <- (if negb (fl 35 =? 0) && negb (width =? INT_MIN) then
                           let i := if width <? 0 then - width else width in
                           _ <- guard (zlen str <? INT_MAX) ;;
                           Ok ((if i <? zlen str then skipn (Z.to_nat i) str else str), INT_MIN)
                         else Ok (str, width)) ;;
      zt_fmt_puts str (zlen str) put cl fl width precision
  | VStr None => Abort
  | _ => UB
  end.
(* zt_format.c:603-619 *)
Definition cvt_u (code : Z) (v : value) (put : put_f S) (cl : S) (fl : flagset) (width precision : Z) : outcome st :=
  match v with
  | VUint m => p <- dec_loop m ;; zt_fmt_putd p (zlen p) put cl fl width precision
  | _ => UB
  end.
(* zt_format.c:621-637 *)
Definition cvt_x (code : Z) (v : value) (put : put_f S) (cl : S) (fl : flagset) (width precision : Z) : outcome st :=
  match v with
  | VUint m => p <- hex_loop 43 m ;; zt_fmt_putd p (zlen p) put cl fl width precision
  | _ => UB
  end.

(** ** The table *)
Definition conv := Z -> value -> put_f S -> S -> flagset -> Z -> Z -> outcome st.
(* struct _format_control: function (NULL allowed) and type letter (0 allowed) *)
Definition entry := (option conv * Z)%type.
Definition table := Z -> entry.
(* zt_format.c:83-100 *)
Definition cvt0 : table := fun c =>
  if c =? 99 then (Some cvt_c, 105)
  else if c =? 100 then (Some cvt_d, 105)
  else if (101 <=? c) && (c <=? 103) then (Some cvt_f, 100)
  else if c =? 111 then (Some cvt_o, 117)
  else if c =? 112 then (Some cvt_p, 112)
  else if c =? 115 then (Some cvt_s, 115)
  else if c =? 117 then (Some cvt_u, 117)
  else if c =? 120 then (Some cvt_x, 117)
  else (None, 0).
(* zt_format.c:430-441 *)
Definition zt_fmt_register (t : table) (code : Z) (newcvt : option conv) (type : Z) : outcome (option conv * table) :=
  _ <- guard ((0 <? code) && (code <? 256)) ;;
  Ok (fst (t code), fun c => if c =? code then (newcvt, type) else t c).

(** ** The format interpreter *)
Definition zt_fmt_flags : text := [43; 45; 32; 48; 35]. (* "+- 0#" *)
Definition isdigit (c : Z) : bool := (48 <=? c) && (c <=? 57).

(* zt_format.c:221-227 *)
Fixpoint read_flags (fmt : text) (fl : flagset) : outcome (flagset * text) :=
  match fmt with
  | c :: r => if inset zt_fmt_flags c then _ <- guard (fl c <? 255) ;; read_flags r (set_flag fl c (fl c + 1))
              else Ok (fl, fmt)
  | [] => Ok (fl, fmt)
  end.
(* zt_format.c:237-241, 254-258 *)
Fixpoint read_digits (fmt : text) (n : Z) : outcome (Z * text) :=
  match fmt with
  | c :: r => if isdigit c then
                let d := c - 48 in
                _ <- guard (n <=? (INT_MAX - d) / 10) ;; read_digits r (10 * n + d)
              else Ok (n, fmt)
  | [] => Ok (n, fmt)
  end.
(* zt_format.c:229-244 and 247-261: `*` takes an int argument *)
Definition read_number (fmt : text) (ap : list arg) : outcome (Z * text * list arg) :=
  match fmt with
  | c :: r =>
      if c =? 42 then
        match ap with
        | AInt n :: ap => let n := int32 n in _ <- guard (negb (n =? INT_MIN)) ;; Ok (n, r, ap)
        | _ => UB
        end
      else if isdigit c then ' (n, r) <- read_digits fmt 0 ;; Ok (n, r, ap)
      else Ok (INT_MIN, fmt, ap)
  | [] => Ok (INT_MIN, fmt, ap)
  end.
(* zt_format.c:276-299 *)
Definition read_value (t : Z) (ap : list arg) : outcome (value * list arg) :=
  if t =? 105 then match ap with AInt n :: ap => Ok (VInt (int32 n), ap) | _ => UB end
  else if t =? 117 then match ap with AInt n :: ap => Ok (VUint (n mod two32), ap) | _ => UB end
  else if t =? 100 then match ap with ADbl r :: ap => Ok (VDbl r, ap) | _ => UB end
  else if t =? 112 then match ap with APtr n :: ap => Ok (VPtr (n mod two64), ap) | _ => UB end
  else if t =? 115 then match ap with AStr s :: ap => Ok (VStr s, ap) | _ => UB end
  else Ok (VNone, ap).

(* zt_format.c:216-301: one directive, after its % or ~ *)
Definition directive (t : table) (put : put_f S) (fmt : text) (ap : list arg) (x : st) :
  outcome (text * list arg * st) :=
  ' (fl, fmt) <- read_flags fmt no_flags ;;
  ' (width, fmt, ap) <- read_number fmt ap ;;
  ' (precision, fmt, ap) <- (match fmt with
                             | 46 :: r => read_number r ap
                             | _ => Ok (INT_MIN, fmt, ap)
                             end) ;;
  match fmt with
  | [] => Abort (* c = 0: cvt[0] is empty; zt_fmt_register refuses code 0 *)
  | c :: fmt =>
      match t c with
      | (Some f, ty) =>
          _ <- guard (negb (ty =? 0)) ;;
          ' (v, ap) <- read_value ty ap ;;
          ' (n, s) <- f c v put (snd x) fl width precision ;;
          Ok (fmt, ap, ((fst x + n) mod two64, s))
      | (None, _) => Abort
      end
  end.
Definition control (c : Z) : bool := (c =? 37) || (c =? 126).
(* zt_format.c:210-303: each turn consumes at least one character of the format *)
Fixpoint vformat_loop (fuel : nat) (t : table) (put : put_f S) (fmt : text) (ap : list arg) (x : st) : outcome st :=
  match fmt with
  | [] => Ok x
  | c :: r =>
      match fuel with
      | O => Loop
      | Datatypes.S fuel =>
          if negb (control c) then x <- emit put c x ;; vformat_loop fuel t put r ap x
          else match r with
               | d :: r' =>
                   if control d then x <- emit put d x ;; vformat_loop fuel t put r' ap x
                   else ' (r, ap, x) <- directive t put r ap x ;; vformat_loop fuel t put r ap x
               | [] => ' (r, ap, x) <- directive t put r ap x ;; vformat_loop fuel t put r ap x
               end
      end
  end.
(* zt_format.c:202-305 *)
Definition zt_fmt_vformat (t : table) (put : put_f S) (cl : S) (fmt : text) (ap : list arg) : outcome st :=
  vformat_loop (length fmt) t put fmt ap (0, cl).
End Put.
Arguments st : clear implicits.

(** ** Destinations *)

(* zt_format.c:639-651: the closure is the memory from buf on and bp - buf *)
Definition zt_fmt_insert (size : Z) : put_f (text * Z) := fun c p =>
  let (mem, bp) := p in
  _ <- guard (bp <? size) ;;
  mem <- mset mem bp (c mod 256) ;;
  Ok (c, (mem, bp + 1)).
(* zt_format.c:157-172 *)
Definition zt_fmt_vsprintf (t : table) (buf : text) (size : Z) (fmt : text) (ap : list arg) : outcome (Z * text) :=
  _ <- guard (0 <? size) ;;
  ' (_, cl) <- zt_fmt_vformat t (zt_fmt_insert size) (buf, 0) fmt ap ;;
  ' (_, (mem, bp)) <- zt_fmt_insert size 0 cl ;;
  Ok (bp - 0 - 1, mem).

(* zt_format.c:653-666: the block, bp - buf, and the size; realloc keeps the old contents and gives
   arbitrary bytes (here 0) in the new part *)
Definition zt_fmt_append : put_f (text * Z * Z) := fun c p =>
  let '(mem, bp, size) := p in
  let '(mem, bp, size) := if size <=? bp then (mem ++ repeat 0 (Z.to_nat size), size, size * 2) else (mem, bp, size) in
  mem <- mset mem bp (c mod 256) ;;
  Ok (c, (mem, bp + 1, size)).
(* zt_format.c:188-199: the block returned has bp - buf bytes *)
Definition zt_fmt_vstrprintf (t : table) (fmt : text) (ap : list arg) : outcome text :=
  ' (_, cl) <- zt_fmt_vformat t zt_fmt_append (repeat 0 256, 0, 256) fmt ap ;;
  ' (_, (mem, bp, size)) <- zt_fmt_append 0 cl ;;
  Ok (firstn (Z.to_nat bp) mem).

(* zt_format.c:446-452: putc writes the unsigned char and returns it; the stream is what was written *)
Definition zt_fmt_outc : put_f text := fun c s => Ok (c mod 256, s ++ [c mod 256]).
(* zt_format.c:117-141 *)
Definition zt_fmt_fprintf (t : table) (stream : text) (fmt : text) (ap : list arg) : outcome (Z * text) :=
  zt_fmt_vformat t zt_fmt_outc stream fmt ap.
