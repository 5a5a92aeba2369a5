(** Model of what src/libzt/zt_opts.c prints: the help (zt_opt_usage, zt_opt_help_stdout and _zt_opt_help_stdout_printer, 299-399, with the layout macros of zt_macros.h:102-137)
    and the error messages (zt_opt_error_str, zt_opt_error_default and _zt_opt_error_wrapper, 32-84 and 440-455).  The wrapping of the help text is OptsModel.wrap.
    A text is the list of its bytes.  Simplifications: printf to stdout succeeds, so its result is the number of bytes printed; memory is found; %s of NULL prints (null), as glibc's does;
    [strerror] is the C library's. *)
From Verif Require Import Prelude CstrSpec OptsModel.
Local Open Scope Z_scope.

(** the members of zt_opt_def that the help uses *)
Record entry := mkentry { e_sopt : option Z; e_lopt : option text; e_arg : option text; e_help : option text }.
Definition spaces (n : nat) : text := repeat 32 n.
(** printf("%*s", w, s): a negative width pads on the right *)
Definition pad (w : Z) (s : text) : text :=
  if 0 <=? w then spaces (Z.to_nat w - length s) ++ s else s ++ spaces (Z.to_nat (- w) - length s).
Definition BASE_INDENT : Z := 30.                    (* zt_opts.c:323 *)
(* zt_macros.h:127-137 INDENT_TO(BASE_INDENT, 5, depth): C division and remainder *)
Definition indent_to (tgt step start : Z) : Z := Z.quot (tgt - start) step * step + Z.rem (tgt - start) step.
(* zt_opts.c:305-315 *)
Definition head (d : entry) : text :=
  [32; 32; 32] ++
  [match e_sopt d with Some _ => 45 | None => 32 end] ++
  [match e_sopt d with Some c => c | None => 32 end] ++
  [match e_sopt d, e_lopt d with Some _, Some _ => 44 | _, _ => 32 end] ++
  [32] ++
  (match e_lopt d with Some _ => [45; 45] | None => [32; 32] end) ++
  (match e_lopt d with Some l => l | None => [] end) ++
  [32] ++
  (match e_arg d with Some a => a | None => [] end).
(* zt_opts.c:331-334 and 353: one line; the later ones are indented by depth columns first *)
Definition line (depth : Z) (l : text) : text := pad (indent_to BASE_INDENT 5 depth) [] ++ l ++ [10].
Definition later (depth : Z) (l : text) : text := pad depth [32] ++ line depth l.
(* zt_opts.c:299-364 _zt_opt_help_stdout_printer: None is -1 *)
Definition printer (d : entry) : outcome (option text) :=
  match e_sopt d, e_lopt d with
  | None, None => Ok None
  | _, _ =>
      let h := head d in
      let depth := Z.of_nat (length h) in
      match e_help d with
      | None => UB                                   (* strlen(NULL) *)
      | Some t =>
          ls <- wrap t ;;
          match ls with
          | [] => Ok (Some h)
          | l :: ls => Ok (Some (h ++ line depth l ++ concat (map (later depth) ls)))
          end
      end
  end.
(* zt_opts.c:374-379 and 393-397: what was printed, and whether every entry was *)
Fixpoint entries (ds : list entry) : outcome (text * bool) :=
  match ds with
  | [] => Ok ([], true)
  | d :: ds =>
      p <- printer d ;;
      match p with
      | None => Ok ([], false)
      | Some t => ' (r, ok) <- entries ds ;; Ok (t ++ r, ok)
      end
  end.
Definition t_usage : text := [85;115;97;103;101;58;32].                       (* "Usage: " *)
Definition t_options : text := [10;79;112;116;105;111;110;115;58;10].         (* newline, Options:, newline *)
Definition usage_line (name : text) (help : option text) : text := t_usage ++ name ++ [32] ++ (match help with Some h => h | None => [] end) ++ t_options.
(* zt_opts.c:387-400 zt_opt_usage: result and what is printed *)
Definition usage (name : text) (help : option text) (ds : list entry) : outcome (Z * text) :=
  ' (t, ok) <- entries ds ;; Ok (if ok then 0 else -1, usage_line name help ++ t).

(** ** Errors *)
Definition t_error : text := [101;114;114;111;114;58;32;123;32;99;111;100;101;58;32].     (* error: { code: *)
Definition t_string : text := [44;32;115;116;114;105;110;103;58;32;34].                   (* , string: and a quote *)
Definition t_null : text := [40;110;117;108;108;41].                                      (* "(null)" *)
Definition t_end : text := [34;32;125].                                                   (* a quote, blank, closing brace *)
(* zt_opts.c:43-60 zt_opt_verror_str; [msg]: what printf makes of fmt, None if fmt is NULL *)
Definition verror_str (strerror : Z -> text) (code : Z) (msg : option text) : text :=
  let m := t_error ++ decimal code ++ t_string ++ (if code =? 0 then [] else strerror code) in
  m ++ [58; 32] ++ (match msg with Some u => u | None => t_null end) ++ t_end.
(* zt_opts.c:62-75 zt_opt_verror_default: result and what is printed on stderr *)
Definition verror_default (strerror : Z -> text) (code : Z) (msg : option text) : Z * text :=
  match msg with
  | None => if code =? 0 then (-1, []) else (code, verror_str strerror code msg ++ [10])
  | _ => (code, verror_str strerror code msg ++ [10])
  end.
(** how a call ends: it returns a value, or the process exits with a status *)
Inductive ending := Returns (v : Z) | Exits (status : Z).
(* zt_opts.c:440-455 _zt_opt_error_wrapper; exit keeps the low 8 bits *)
Definition error_wrapper (strerror : Z -> text) (code : Z) (msg : option text) : ending * text :=
  let '(ret, t) := verror_default strerror code msg in
  (if negb (ret =? 0) then Exits (ret mod 256) else Returns ret, t).
(* "Programmer Error: must have a short or long opt at least" *)
Definition t_programmer : text := [80;114;111;103;114;97;109;109;101;114;32;69;114;114;111;114;58;32;109;117;115;116;32;104;97;118;101;32;97;32;115;104;111;114;116;32;111;114;32;108;111;110;103;32;111;112;116;32;97;116;32;108;101;97;115;116].
(* zt_opts.c:366-385 zt_opt_help_stdout with the default error handler: ending, stdout, stderr *)
Definition help_stdout (strerror : Z -> text) (argv0 : text) (help : option text) (ds : list entry) : outcome (ending * text * text) :=
  ' (t, ok) <- entries ds ;;
  let o := usage_line argv0 help ++ t in
  if ok then
    let '(e, m) := error_wrapper strerror 0 None in
    Ok (match e with Returns _ => Returns 0 | Exits s => Exits s end, o, m)
  else
    let '(e, m) := error_wrapper strerror 0 (Some t_programmer) in
    Ok (match e with Returns _ => Returns (-1) | Exits s => Exits s end, o, m).
