(** Model of src/libzt/zt_opts.c: command line option parsing.

    A string is the list of its bytes (none is 0), argv the list of the argument
    strings; argv[argc] is NULL ([nth_error] gives [None]).  *argc is the length of
    argv on entry.
    An error handler either leaves the process (the default, _zt_opt_error_wrapper
    441-455, whose codes are all non-zero here: [Abort]) or returns, in which case
    the call is recorded and parsing goes on: [stops].
    Simplifications: what the callbacks store is kept in three maps (int/long,
    char pointers, arrays of those) indexed by the number of the cb_data variable; the flag counter
    and the malloc'd copies are unbounded; strcasecmp uses the C locale. *)
From Verif Require Import Prelude.
Local Open Scope Z_scope.

Definition text := list Z.

Definition dash : Z := 45.
Definition equal : Z := 61.

(** Built-in callbacks. zt_opts.c 135-385 *)
Inductive kind :=
| KNull       (* zt_opt_null 135-138 *)
| KFlag       (* zt_opt_flag_int 244-251 *)
| KLong       (* zt_opt_long 170-195 (and zt_opt_intmax 140-168) *)
| KBool       (* zt_opt_bool_int 197-242 *)
| KString     (* zt_opt_string 253-263 *)
| KArray      (* zt_opt_string_array 265-297 *)
| KHelp.      (* zt_opt_help_stdout 368-385; the printing is in [wrap] *)

(** zt_opt_def, zt_opts.h 27-34. ZT_OPT_NSO, ZT_OPT_NLO and NULL are [None]. The
    table is the list of entries before ZT_OPT_END (cb == NULL). *)
Record def := mkdef { sopt : option Z; lopt : option text; cb : kind; slot : option nat;
                      help : option text }.

(** What the program can see. *)
Record env := mkenv {
  ints : nat -> Z; strs : nat -> option text; arrs : nat -> list text;
  errs : list Z (* codes passed to a returning error handler, newest first *) }.

Definition set_int (k : nat) (v : Z) (e : env) : env :=
  mkenv (fun j => if Nat.eqb j k then v else ints e j) (strs e) (arrs e) (errs e).
Definition set_str (k : nat) (v : text) (e : env) : env :=
  mkenv (ints e) (fun j => if Nat.eqb j k then Some v else strs e j) (arrs e) (errs e).
Definition set_arr (k : nat) (v : list text) (e : env) : env :=
  mkenv (ints e) (strs e) (fun j => if Nat.eqb j k then v else arrs e j) (errs e).

Definition EINVAL : Z := 22.
Definition ERANGE : Z := 34.

(** error(code, ...) *)
Definition error (stops : bool) (code : Z) (e : env) : outcome env :=
  if stops then Abort else Ok (mkenv (ints e) (strs e) (arrs e) (code :: errs e)).

(** ** Values *)
(** 97-98: skip the leading dashes *)
Fixpoint skip_dashes (p : text) : text :=
  match p with c :: r => if c =? dash then skip_dashes r else p | [] => [] end.

(** 100-106: the text after the first '=' *)
Fixpoint after_equal (p : text) : option text :=
  match p with
  | [] => None
  | c :: r => if c =? equal then Some r else after_equal r
  end.

Fixpoint text_eqb (a b : text) : bool :=
  match a, b with
  | [], [] => true
  | x :: a, y :: b => (x =? y) && text_eqb a b
  | _, _ => false
  end.

(** zt_opt_get_value 88-133: the value (NULL is [None]) and *args_consumed *)
Definition get_value (stops : bool) (argn : nat) (d : def) (argv : list text) (e : env)
  : outcome (option text * Z * env) :=
  match nth_error argv argn with
  | None => UB
  | Some a =>
    let p := skip_dashes a in
    ' (result, consumed) <-
      match after_equal p with
      | Some v => Ok (Some v, 0)
      | None =>
        match lopt d with
        | None => UB                                   (* 113: strcmp(NULL, pp) *)
        | Some l =>
          if text_eqb l p then Ok (nth_error argv (S argn), 1)
          else match p with
               | [] => UB                              (* 118-119: past the terminator *)
               | _ :: [] => Ok (nth_error argv (S argn), 1)
               | _ :: r => Ok (Some r, 0)
               end
        end
      end ;;
    match result with
    | None => e1 <- error stops EINVAL e ;; Ok (None, consumed, e1)
    | Some v => Ok (Some v, consumed, e)
    end
  end.

(** strtol(arg, &end, 0) / strtoimax: C99 7.20.1.4, for 64 bit long.
    Result: value, unparsed rest, and whether errno is ERANGE. *)
Definition LONG_MIN : Z := - 2 ^ 63.
Definition LONG_MAX : Z := 2 ^ 63 - 1.

Definition isspace (c : Z) : bool := (c =? 32) || ((9 <=? c) && (c <=? 13)).
Fixpoint skip_space (p : text) : text :=
  match p with c :: r => if isspace c then skip_space r else p | [] => [] end.

Definition digit_of (base c : Z) : option Z :=
  let v := if (48 <=? c) && (c <=? 57) then c - 48
           else if (97 <=? c) && (c <=? 122) then c - 87
           else if (65 <=? c) && (c <=? 90) then c - 55
           else 99 in
  if v <? base then Some v else None.

(** digits: value so far, how many were read, rest *)
Fixpoint read_digits (base acc : Z) (n : nat) (p : text) : Z * nat * text :=
  match p with
  | [] => (acc, n, [])
  | c :: r => match digit_of base c with
              | Some v => read_digits base (acc * base + v) (S n) r
              | None => (acc, n, p)
              end
  end.

Definition strtol0 (arg : text) : Z * text * bool :=
  let p := skip_space arg in
  let '(neg, p) := match p with
                   | 45 :: r => (true, r) | 43 :: r => (false, r) | _ => (false, p) end in
  let '(base, p) :=
    match p with
    | 48 :: x :: h :: r =>
        if ((x =? 120) || (x =? 88)) && match digit_of 16 h with Some _ => true | None => false end
        then (16, h :: r) else (8, p)
    | 48 :: _ => (8, p)
    | _ => (10, p)
    end in
  let '(v, n, rest) := read_digits base 0 0 p in
  match n with
  | O => (0, arg, false)
  | _ => let v := if neg then - v else v in
         if v <? LONG_MIN then (LONG_MIN, rest, true)
         else if LONG_MAX <? v then (LONG_MAX, rest, true)
         else (v, rest, false)
  end.

(** strcasecmp(a, b) == 0 *)
Definition lower (c : Z) : Z := if (65 <=? c) && (c <=? 90) then c + 32 else c.
Definition case_eqb (a b : text) : bool := text_eqb (map lower a) (map lower b).

Definition w_true : text := [116; 114; 117; 101].
Definition w_yes : text := [121; 101; 115].
Definition w_false : text := [102; 97; 108; 115; 101].
Definition w_no : text := [110; 111].

(** 206-235 *)
Definition bool_of (arg : text) : option Z :=
  match arg with
  | [c] => if (c =? 116) || (c =? 84) || (c =? 121) || (c =? 89) then Some 1
           else if (c =? 102) || (c =? 70) || (c =? 110) || (c =? 78) then Some 0
           else None
  | _ => if case_eqb arg w_true || case_eqb arg w_yes then Some 1
         else if case_eqb arg w_false || case_eqb arg w_no then Some 0
         else None
  end.

(** The callback of entry [d], called for argument number argn: returns the
    number of extra arguments consumed (negative: error). *)
Definition call (stops : bool) (argv : list text) (d : def) (argn : nat) (e : env)
  : outcome (Z * env) :=
  match cb d with
  | KNull => Ok (0, e)
  | KFlag => Ok (0, match slot d with Some k => set_int k (ints e k + 1) e | None => e end)
  | KLong =>
      ' (v, consumed, e1) <- get_value stops argn d argv e ;;
      match v with
      | None => UB                                            (* 178: strtol(NULL) *)
      | Some arg =>
        let '(r, rest, range) := strtol0 arg in
        e2 <- (if range then error stops ERANGE e1 else Ok e1) ;;
        e3 <- (match rest with [] => Ok e2 | _ => error stops EINVAL e2 end) ;;
        Ok (consumed, match slot d with Some k => set_int k r e3 | None => e3 end)
      end
  | KBool =>
      ' (v, consumed, e1) <- get_value stops argn d argv e ;;
      match v with
      | None => UB                                            (* 204: strlen(NULL) *)
      | Some arg =>
        match bool_of arg with
        | Some b => Ok (consumed, match slot d with Some k => set_int k b e1 | None => e1 end)
        | None => e2 <- error stops EINVAL e1 ;; Ok (0, e2)
        end
      end
  | KString =>
      ' (v, consumed, e1) <- get_value stops argn d argv e ;;
      match v with
      | None => Ok (consumed, e1)
      | Some arg => match slot d with
                    | Some k => Ok (consumed, set_str k arg e1)
                    | None => UB                              (* 259: store through NULL *)
                    end
      end
  | KArray =>
      ' (v, consumed, e1) <- get_value stops argn d argv e ;;
      match v with
      | None => Ok (consumed, e1)
      | Some arg => match slot d with
                    | Some k => Ok (consumed, set_arr k (arrs e1 k ++ [arg]) e1)
                    | None => UB
                    end
      end
  | KHelp => e1 <- error stops 0 e ;; Ok (0, e1)  (* 382: the default handler exits(-1) *)
  end.

(** ** zt_opt_process_args 457-529 *)

(** 490-493: does entry d match, p being the text after the dashes and [len] the
    length of the long name (0 for short options) *)
Definition matches (p : text) (len : nat) (d : def) : bool :=
  ((len =? 0)%nat &&
   match sopt d with
   | Some c => (match p with [] => 0 | h :: _ => h end) =? c
   | None => false
   end) ||
  match lopt d with
  | Some l => (length l =? len)%nat && text_eqb (firstn len p) l
  | None => false
  end.

(** 489: the first matching entry *)
Fixpoint find_opt (p : text) (len : nat) (defs : list def) : option def :=
  match defs with
  | [] => None
  | d :: r => if matches p len d then Some d else find_opt p len r
  end.

(** 478-480: length of the long name *)
Fixpoint name_len (p : text) : nat :=
  match p with [] => O | c :: r => if c =? equal then O else S (name_len r) end.

(** Result of handling one argument. *)
Inductive verdict := Next (i : nat) | Return (r : Z).

(** AGAIN, 488-520, for short options: p is never shorter than one letter after
    the first round. [found]: an earlier letter of this argument matched. *)
Fixpoint letters (stops : bool) (argv : list text) (defs : list def) (p : text) (i : nat)
    (found : bool) (e : env) {struct p} : outcome (verdict * env) :=
  match find_opt p 0 defs with
  | None => if found then Ok (Next i, e)
            else e1 <- error stops EINVAL e ;; Ok (Next i, e1)
  | Some d =>
      ' (consumed, e1) <- call stops argv d i e ;;
      if consumed <? 0 then Ok (Return consumed, e1)
      else if consumed =? 0 then
        match p with
        | [] => UB                                   (* 506: ++p past the terminator *)
        | _ :: [] => Ok (Next i, e1)
        | _ :: q => letters stops argv defs q i true e1
        end
      else Ok (Next (i + Z.to_nat consumed), e1)
  end.

(** the same code for a long option: at most one round *)
Definition long_name (stops : bool) (argv : list text) (defs : list def) (p : text) (i : nat)
    (e : env) : outcome (verdict * env) :=
  let len := name_len p in
  let combined := match nth_error p len with Some _ => true | None => false end in
  match find_opt p len defs with
  | None => e1 <- error stops EINVAL e ;; Ok (Next i, e1)
  | Some d =>
      ' (consumed, e1) <- call stops argv d i e ;;
      if consumed <? 0 then Ok (Return consumed, e1)
      else Ok (Next (if combined then i else (i + Z.to_nat consumed)%nat), e1)
  end.

(** 467-523: one argument. [None]: not an option, stop. *)
Definition one_arg (stops : bool) (argv : list text) (defs : list def) (i : nat) (e : env)
  : outcome (option verdict * env) :=
  match nth_error argv i with
  | None => UB
  | Some a =>
    match a with
    | 45 :: 45 :: p => ' (v, e1) <- long_name stops argv defs p i e ;; Ok (Some v, e1)
    | 45 :: p => ' (v, e1) <- letters stops argv defs p i false e ;; Ok (Some v, e1)
    | _ => Ok (None, e)
    end
  end.

(** 466-528: the loop. Result: (return value, new *argc if it was written).
    The fuel is the number of rounds; each advances i. *)
Fixpoint args_loop (stops : bool) (argv : list text) (defs : list def) (fuel i : nat) (e : env)
  : outcome (Z * option nat * env) :=
  if (i <? length argv)%nat then
    match fuel with
    | O => Loop
    | S fuel =>
      ' (v, e1) <- one_arg stops argv defs i e ;;
      match v with
      | None => Ok (0, Some i, e1)
      | Some (Return r) => Ok (r, None, e1)
      | Some (Next j) => args_loop stops argv defs fuel (S j) e1
      end
    end
  else Ok (0, Some i, e).

(** zt_opt_validate_default 402-439 *)
Definition alnum (c : Z) : bool :=
  ((48 <=? c) && (c <=? 57)) || ((65 <=? c) && (c <=? 90)) || ((97 <=? c) && (c <=? 122)).

Definition same_short (a b : def) : bool :=
  match sopt b, sopt a with Some x, Some y => x =? y | _, _ => false end.
Definition same_long (a b : def) : bool :=
  match lopt b, lopt a with Some x, Some y => text_eqb x y | _, _ => false end.

Definition check (stops : bool) (bad : bool) (e : env) : outcome env :=
  if bad then error stops EINVAL e else Ok e.

(** 424-437: compare entry i with every other *)
Fixpoint validate_pairs (stops : bool) (i x : nat) (d : def) (rest : list def) (e : env)
  : outcome env :=
  match rest with
  | [] => Ok e
  | d2 :: r =>
      e1 <- (if Nat.eqb x i then Ok e
             else (e0 <- check stops (same_short d d2) e ;; check stops (same_long d d2) e0)) ;;
      validate_pairs stops i (S x) d r e1
  end.

Fixpoint validate_from (stops : bool) (all : list def) (i : nat) (rest : list def) (e : env)
  : outcome env :=
  match rest with
  | [] => Ok e
  | d :: r =>
      e1 <- check stops (match sopt d, lopt d with None, None => true | _, _ => false end) e ;;
      e2 <- check stops (match help d with None => true | Some _ => false end) e1 ;;
      e3 <- check stops (match sopt d with Some c => negb (alnum c) | None => false end) e2 ;;
      e4 <- validate_pairs stops i 0 d all e3 ;;
      validate_from stops all (S i) r e4
  end.

Definition validate (stops : bool) (defs : list def) (e : env) : outcome env :=
  validate_from stops defs 0 defs e.

(** zt_opt_process_args(argc, argv, args, NULL, error) *)
Definition process_args (stops : bool) (argv : list text) (defs : list def) (e : env)
  : outcome (Z * option nat * env) :=
  e1 <- validate stops defs e ;;
  args_loop stops argv defs (length argv) 1 e1.

(** ** Help text layout: _zt_opt_help_stdout_printer 317-360 *)
(** BASE_WIDTH 324 *)
Definition base_width : nat := 50.

(** 337-339 *)
Fixpoint skip_blanks (p : text) : nat :=
  match p with c :: r => if c =? 32 then S (skip_blanks r) else O | [] => O end.

(** 349-351: the last blank at or before position w. [None]: the loop runs off the
    front (width wraps around below 0). *)
Fixpoint break_at (p : text) (w : nat) : option nat :=
  match nth_error p w with
  | Some 32 => Some w
  | _ => match w with O => None | S w => break_at p w end
  end.

(** 326-357: the lines printed, for the part of the text not printed yet.
    When no blank is found in the first line the code reads before the text; later
    it finds the blank that ended the previous line at offt + SIZE_MAX, prints
    everything left and steps back by one: the same line is printed for ever. *)
Fixpoint wrap_from (fuel : nat) (first : bool) (rest : text) : outcome (list text) :=
  match rest with
  | [] => Ok []
  | _ =>
    match fuel with
    | O => Loop
    | S fuel =>
      let p := skipn (skip_blanks rest) rest in
      if (length p <? base_width)%nat then Ok [p]
      else match break_at p base_width with
           | Some w => ls <- wrap_from fuel false (skipn w p) ;; Ok (firstn w p :: ls)
           | None => if first && (skip_blanks rest =? 0)%nat then UB else Loop
           end
    end
  end.

Definition wrap (h : text) : outcome (list text) :=
  if (base_width <? length h)%nat then wrap_from (length h) true h else Ok [h].
