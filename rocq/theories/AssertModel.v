(** Model of src/libzt/zt_assert.c, zt_assert.h and of the allocation wrappers src/libzt/zt_malloc.c with the macros of src/zt.h:33-42.
    [pm] is PATH_MAX and [junk] what the local array bname holds before it is filled.  Messages go through LogModel.v.
    Simplifications: what malloc, calloc, realloc and strdup of the C library answer is a parameter; calloc refuses a product that does not fit size_t and realloc(p, 0)
    frees p and returns NULL, as glibc's do; a block is the list of its bytes, None one that was never written.
    The condition of an assertion is a value: with NDEBUG it is not even evaluated. *)
From Verif Require Import Prelude Heap CstrModel CstrSpec LogModel.
Local Open Scope Z_scope.

(** reading a text from a block: undefined if it has no terminator *)
Definition read_text (m : list Z) : outcome text := if existsb (Z.eqb 0) m then Ok (cstring m) else UB.
(* zt_assert.c:31,37 and 50,56: char bname[PATH_MAX]; zt_cstr_basename(bname, PATH_MAX, file, NULL) *)
Definition base_text (pm : Z) (junk : list Z) (file : text) : outcome text :=
  m <- zt_cstr_basename junk pm file None ;; read_text m.
(* "no assertion given", "no message given" *)
Definition no_assertion : text := [110;111;32;97;115;115;101;114;116;105;111;110;32;103;105;118;101;110].
Definition no_message : text := [110;111;32;109;101;115;115;97;103;101;32;103;105;118;101;110].
(* the formats of zt_assert.c:40, 42, 59 and 61: "Assertion Failed: " and "Exiting: ", then "\"%s\": %s[%d:%s]" or "\"%s\": %s[%d]" *)
Definition fmt_failed : text := [65;115;115;101;114;116;105;111;110;32;70;97;105;108;101;100;58;32].
Definition fmt_exiting : text := [69;120;105;116;105;110;103;58;32].
Definition fmt_func : text := [34;37;115;34;58;32;37;115;91;37;100;58;37;115;93].
Definition fmt_nofunc : text := [34;37;115;34;58;32;37;115;91;37;100;93].

(* zt_assert.c:27-44 _zt_log_assertion; zt_log_err = 3 *)
Definition log_assertion (pm : Z) (junk : list Z) (s : state) (e : env) (cond : option text) (file : text) (line : Z) (func : option text) : outcome state :=
  let c := match cond with Some c => c | None => no_assertion end in
  bname <- base_text pm junk file ;;
  match func with
  | Some f => lprintf s e 0 3 (fmt_failed ++ fmt_func) [c; bname; decimal line; f]
  | None => lprintf s e 0 3 (fmt_failed ++ fmt_nofunc) [c; bname; decimal line]
  end.
(* zt_assert.c:46-65 _zt_log_abort; zt_log_crit = 2; it returns 0 *)
Definition log_abort (pm : Z) (junk : list Z) (s : state) (e : env) (msg : option text) (file : text) (line : Z) (func : option text) : outcome state :=
  let c := match msg with Some c => c | None => no_message end in
  bname <- base_text pm junk file ;;
  match func with
  | Some f => lprintf s e 0 2 (fmt_exiting ++ fmt_func) [c; bname; decimal line; f]
  | None => lprintf s e 0 2 (fmt_exiting ++ fmt_nofunc) [c; bname; decimal line]
  end.

(** what becomes of the program: it goes on with the next statement, leaves the function with a value, or is aborted *)
Inductive fate := Goes | Leaves (v : Z) | Aborts.
(** where an assertion stands: its text, file, line and function *)
Record place := mkplace { p_text : text; p_file : text; p_line : Z; p_func : text }.
Definition fail_at (pm : Z) (junk : list Z) (s : state) (e : env) (w : place) (f : fate) : outcome (fate * state) :=
  s <- log_assertion pm junk s e (Some (p_text w)) (p_file w) (p_line w) (Some (p_func w)) ;; Ok (f, s).
(* zt_assert.h:44-52 *)
Definition zt_assert (ndebug : bool) (pm : Z) (junk : list Z) (s : state) (e : env) (w : place) (c : bool) : outcome (fate * state) :=
  if ndebug then Ok (Goes, s) else if c then Ok (Goes, s) else fail_at pm junk s e w Aborts.
Definition zt_assert_nf (ndebug : bool) (pm : Z) (junk : list Z) (s : state) (e : env) (w : place) (c : bool) : outcome (fate * state) :=
  if ndebug then Ok (Goes, s) else if c then Ok (Goes, s) else fail_at pm junk s e w Goes.
(* zt_assert.h:54 *)
Definition zt_assert_always (pm : Z) (junk : list Z) (s : state) (e : env) (w : place) (c : bool) : outcome (fate * state) :=
  if c then Ok (Goes, s) else fail_at pm junk s e w Aborts.
(* zt_assert.h:62 and 70; the former returns no value *)
Definition zt_assert_returnV (pm : Z) (junk : list Z) (s : state) (e : env) (w : place) (c : bool) (v : Z) : outcome (fate * state) :=
  if c then Ok (Goes, s) else fail_at pm junk s e w (Leaves v).
(* zt_assert.h:80 *)
Definition zt_abort (pm : Z) (junk : list Z) (s : state) (e : env) (w : place) : outcome (fate * state) :=
  s <- log_abort pm junk s e (Some (p_text w)) (p_file w) (p_line w) (Some (p_func w)) ;; Ok (Aborts, s).

(** ** zt_malloc.c *)
Definition block := list (option Z).
(** the C library: [gives] says whether there is memory *)
Definition malloc (n : Z) (gives : bool) : option block := if gives then Some (repeat None (Z.to_nat n)) else None.
Definition calloc (num size : Z) (gives : bool) : option block :=
  if num * size <? 2 ^ 64 then (if gives then Some (repeat (Some 0) (Z.to_nat (num * size))) else None) else None.
Definition realloc (p : option block) (n : Z) (gives : bool) : option block :=
  match p with
  | None => malloc n gives
  | Some b => if n =? 0 then None else if gives then Some (firstn (Z.to_nat n) b ++ repeat None (Z.to_nat n - length b)) else None
  end.
(** what a wrapper ends with: a value, or the program's end *)
Inductive result (A : Type) := Got (a : A) | Stopped.
Arguments Got {A}. Arguments Stopped {A}.
(* "mem", "string", "new_string", and "/zt_malloc.c" after the directory the library was built in *)
Definition t_mem : text := [109;101;109].
Definition t_string : text := [115;116;114;105;110;103].
Definition t_new_string : text := [110;101;119;95;115;116;114;105;110;103].
Definition t_file : text := [122;116;95;109;97;108;108;111;99;46;99].
(* "zt_calloc_p", "zt_malloc_p", "zt_realloc_p", "zt_strdup_p" *)
Definition f_calloc : text := [122;116;95;99;97;108;108;111;99;95;112].
Definition f_malloc : text := [122;116;95;109;97;108;108;111;99;95;112].
Definition f_realloc : text := [122;116;95;114;101;97;108;108;111;99;95;112].
Definition f_strdup : text := [122;116;95;115;116;114;100;117;112;95;112].
(* zt_assert_always(mem); return mem; *)
Definition always {A} (pm : Z) (junk : list Z) (s : state) (e : env) (dir t : text) (line : Z) (func : text) (mem : option A) : outcome (result A * state) :=
  ' (f, s) <- zt_assert_always pm junk s e (mkplace t (dir ++ 47 :: t_file) line func) (match mem with Some _ => true | None => false end) ;;
  Ok (match f, mem with Goes, Some m => Got m | _, _ => Stopped end, s).
(* zt_malloc.c:18-28 *)
Definition zt_calloc_p pm junk s e dir (num size : Z) (gives : bool) : outcome (result block * state) :=
  always pm junk s e dir t_mem 25 f_calloc (calloc num size gives).
(* zt_malloc.c:30-39 *)
Definition zt_malloc_p pm junk s e dir (num : Z) (gives : bool) : outcome (result block * state) :=
  always pm junk s e dir t_mem 36 f_malloc (malloc num gives).
(* zt_malloc.c:41-50 *)
Definition zt_realloc_p pm junk s e dir (p : option block) (num : Z) (gives : bool) : outcome (result block * state) :=
  always pm junk s e dir t_mem 48 f_realloc (realloc p num gives).
(* zt_malloc.c:53-63 *)
Definition zt_strdup_p pm junk s e dir (string : option text) (gives : bool) : outcome (result text * state) :=
  ' (r, s) <- always pm junk s e dir t_string 58 f_strdup string ;;
  match r with
  | Stopped => Ok (Stopped, s)
  | Got t => always pm junk s e dir t_new_string 60 f_strdup (if gives then Some t else None)
  end.
(* src/zt.h:33-37: the products are size_t *)
Definition zt_calloc pm junk s e dir (size num : Z) (gives : bool) := zt_calloc_p pm junk s e dir num size gives.
Definition zt_malloc pm junk s e dir (size num : Z) (gives : bool) := zt_malloc_p pm junk s e dir (num * size mod 2 ^ 64) gives.
Definition zt_realloc pm junk s e dir (p : option block) (size num : Z) (gives : bool) := zt_realloc_p pm junk s e dir p (num * size mod 2 ^ 64) gives.
