(** Model of src/libzt/zt_cfg/cfg_private.c and cfg_ini.c: configuration store and INI
    parser (reached through zt_cfg.c 23-49).

    Strings are byte lists without the terminator. A configuration is the list of its
    blocks (newest first), each the list of its variables (newest first). Names are
    unique (add_block, add_variable search first), so a reference to a value cell is
    the pair of names of that cell.
    Simplifications: memory (strdup failures, leaks of overwritten strings) is not
    modelled; a double is represented by the text strtod read it from, and whether
    strtod accepts a text completely is the parameter [isfloat] of all theorems; the
    line counter, numentries, [altered] and the log are left out. strtol is the one of OptsModel.v. *)
From Verif Require Import Prelude OptsModel.
Local Open Scope Z_scope.

(** struct zt_cfg_value_ty, cfg_private.h 24-36 *)
Inductive entry :=
| EBool (b : Z)
| EInt (n : Z)
| EFloat (t : text)
| EString (s : text)
| ERef (block variable : text).

Definition block := (text * list (text * entry))%type.
Definition store := list block.

(** enum zt_cfg_type, zt_cfg.h 21-27 *)
Inductive ty := TBool | TInt | TFloat | TString | TRef.
Definition code (t : ty) : Z :=
  match t with TBool => 0 | TInt => 1 | TFloat => 2 | TString => 3 | TRef => 4 end.
Definition type_of (e : entry) : ty :=
  match e with
  | EBool _ => TBool | EInt _ => TInt | EFloat _ => TFloat | EString _ => TString
  | ERef _ _ => TRef
  end.

(** get_block, cfg_private.c 66-76 *)
Fixpoint get_block (st : store) (name : text) : option (list (text * entry)) :=
  match st with
  | [] => None
  | (n, vs) :: r => if text_eqb name n then Some vs else get_block r name
  end.

(** get_variable 97-107 *)
Fixpoint get_variable (vs : list (text * entry)) (name : text) : option entry :=
  match vs with
  | [] => None
  | (n, e) :: r => if text_eqb n name then Some e else get_variable r name
  end.

Definition lookup (st : store) (b v : text) : option entry :=
  match get_block st b with None => None | Some vs => get_variable vs v end.

(** add_variable 109-126 followed by a store into the cell *)
Fixpoint put_variable (vs : list (text * entry)) (name : text) (e : entry) : list (text * entry) :=
  match vs with
  | [] => []
  | (n, x) :: r => if text_eqb n name then (n, e) :: r else (n, x) :: put_variable r name e
  end.
Definition set_variable (vs : list (text * entry)) (name : text) (e : entry) : list (text * entry) :=
  match get_variable vs name with
  | Some _ => put_variable vs name e
  | None => (name, e) :: vs
  end.

(** add_block 78-95, then the variable *)
Fixpoint put_block (st : store) (b v : text) (e : entry) : store :=
  match st with
  | [] => []
  | (n, vs) :: r => if text_eqb b n then (n, set_variable vs v e) :: r
                    else (n, vs) :: put_block r b v e
  end.
Definition set_entry (st : store) (b v : text) (e : entry) : store :=
  match get_block st b with
  | Some _ => put_block st b v e
  | None => (b, [(v, e)]) :: st
  end.

(** get_type 128-168 *)
Definition get_type (isfloat : text -> bool) (t : text) : entry :=
  let '(n, rest, _) := strtol0 t in
  let full := match t, rest with _ :: _, [] => true | _, _ => false end in
  if full then EInt n
  else if match t with [] => false | _ => isfloat t end then EFloat t
  else if case_eqb t w_yes || case_eqb t w_true then EBool 1
  else if case_eqb t w_no || case_eqb t w_false then EBool 0
  else match t with
       | c :: r => if (c =? 39) || (c =? 34) then EString (removelast r) else EString t
       | [] => EString []
       end.

(** 188-192: split at the first '.' *)
Fixpoint split_dot (s : text) : option (text * text) :=
  match s with
  | [] => None
  | c :: r => if c =? 46 then Some ([], r)
              else match split_dot r with Some (a, b) => Some (c :: a, b) | None => None end
  end.

(** cfg_insert_bvv 170-206. The cell exists (calloc'd: a false bool) before references
    are looked up, 177-178. *)
Definition insert (isfloat : text -> bool) (st : store) (b v t : text) : store :=
  let st1 := match lookup st b v with Some _ => st | None => set_entry st b v (EBool 0) end in
  let e := match get_type isfloat t with
           | EString s =>
               match split_dot s with
               | Some (rb, rv) => match lookup st1 rb rv with
                                  | Some _ => ERef rb rv
                                  | None => EString s
                                  end
               | None => EString s
               end
           | e => e
           end in
  set_entry st1 b v e.

(** 267-269: follow references. Fuel: one per step. *)
Fixpoint resolve (fuel : nat) (st : store) (e : entry) {struct fuel} : outcome entry :=
  match e with
  | ERef b v =>
      match fuel with
      | O => Loop
      | S fuel => match lookup st b v with Some e' => resolve fuel st e' | None => UB end
      end
  | _ => Ok e
  end.

(** zt_cfg_priv_get 248-294: the result and the value stored through var *)
Definition get (fuel : nat) (st : store) (b v : text) (t : ty) : outcome (Z * option entry) :=
  match lookup st b v with
  | None => Ok (-1, None)
  | Some e =>
      e1 <- resolve fuel st e ;;
      if code (type_of e1) =? code t then Ok (code t, Some e1) else Ok (-1, None)
  end.

(** ** zt_cfg_priv_set 209-246 *)
Definition BUFMAX : Z := 1024.

(** "%ld" *)
Fixpoint digits_of (fuel : nat) (n : Z) : text :=
  match fuel with
  | O => []
  | S f => if n <? 10 then [48 + n] else digits_of f (n / 10) ++ [48 + n mod 10]
  end.
Definition print_long (n : Z) : text := if n <? 0 then 45 :: digits_of 20 (- n) else digits_of 20 n.

(** snprintf(value, BUFMAX, "%s", s) *)
Definition bounded (s : text) : text := firstn (Z.to_nat (BUFMAX - 1)) s.

Inductive arg :=
| AInt (n : Z)        (* long *)
| AFloat (printed : text)   (* double, given by its "%f" text *)
| ABool (s : text)    (* 226-233: a string such as "yes"; an int 0 or 1 is refused *)
| ABoolInt            (* the address of an int 0 or 1 *)
| AString (s : text).

Definition set (isfloat : text -> bool) (st : store) (b v : text) (a : arg) : Z * store :=
  match a with
  | AInt n => (1, insert isfloat st b v (bounded (print_long n)))
  | AFloat t => (1, insert isfloat st b v (bounded t))
  | ABool s => (1, insert isfloat st b v (bounded s))
  | ABoolInt => (-1, st)
  | AString s => (1, insert isfloat st b v (bounded s))
  end.

(** ** cfg_ini.c *)

(** strings end at the first 0 byte *)
Fixpoint cut0 (s : text) : text :=
  match s with [] => [] | c :: r => if c =? 0 then [] else c :: cut0 r end.

(** parse_block, cfg_ini.c 69-99: name ([None]: too long), rest of the file. *)
Fixpoint read_block (f : text) (i : Z) : option text * text :=
  match f with
  | [] => (if i <? BUFMAX then Some [] else None, [])
  | c :: r =>
      if i <? BUFMAX then
        if c =? 93 then (Some [], r)
        else let '(n, r') := read_block r (i + 1) in
             (match n with Some n => Some (c :: n) | None => None end, r')
      else (None, r)
  end.

(** cfg_discard_line, cfg_private.c 43-52; also cfg_ini.c 198-200 *)
Fixpoint discard_line (f : text) : text :=
  match f with [] => [] | c :: r => if c =? 10 then r else discard_line r end.

Definition isblank (c : Z) : bool := (c =? 32) || (c =? 9).

(** cfg_discard_whitespace 54-64 *)
Fixpoint discard_blank (f : text) : text :=
  match f with [] => [] | c :: r => if isblank c then discard_blank r else f end.

(** fgets(buff, BUFMAX, file) *)
Fixpoint take_line (n : nat) (f : text) : text * text :=
  match n, f with
  | O, _ => ([], f)
  | _, [] => ([], [])
  | S n, c :: r => if c =? 10 then ([c], r)
                   else let '(a, b) := take_line n r in (c :: a, b)
  end.

(** 22, 136: valid_variable_name *)
Definition name_char (c : Z) : bool :=
  ((97 <=? c) && (c <=? 122)) || ((65 <=? c) && (c <=? 90)) || ((48 <=? c) && (c <=? 57)) || (c =? 95).
Fixpoint name_prefix (s : text) : text :=
  match s with [] => [] | c :: r => if name_char c then c :: name_prefix r else [] end.

(** 143-148 *)
Fixpoint cut_comment (s : text) : text :=
  match s with [] => [] | c :: r => if (c =? 59) || (c =? 35) then [] else c :: cut_comment r end.

(** 151-158 (the first character is never removed) *)
Fixpoint strip_blanks (s : text) : text :=
  match s with
  | [] => []
  | c :: r => match strip_blanks r with [] => if isblank c then [] else [c] | x => c :: x end
  end.
Definition strip_value (s : text) : text :=
  match s with [] => [] | c :: r => c :: strip_blanks r end.

Definition ends_newline (s : text) : bool := last s 0 =? 10.

(** parse_line 101-167: [None] is "return 0" *)
Definition parse_line (f : text) : outcome (option (text * text) * text) :=
  let '(raw, rest) := take_line (Z.to_nat (BUFMAX - 1)) f in
  let s := cut0 raw in
  match after_equal s with
  | None => Ok (None, rest)                                      (* 117-121 *)
  | Some val0 =>
    if negb (ends_newline s) && match rest with [] => false | _ => true end
    then Ok (None, rest)                                         (* 128-131 *)
    else
      let val1 := if ends_newline s then removelast val0 else val0 in
      let var := name_prefix s in
      let val2 := discard_blank val1 in
      let val3 := cut_comment val2 in
      match val3 with
      | [] => UB                                                 (* 152-153: val[SIZE_MAX] *)
      | _ =>
        (* 160: val >= buff + len *)
        if negb (ends_newline s) && (length val2 <=? 1)%nat then Ok (None, rest)
        else Ok (Some (var, strip_value val3), rest)
      end
  end.

Definition global : text := [71; 108; 111; 98; 97; 108].

(** parse_file 169-224 *)
Fixpoint parse_from (isfloat : text -> bool) (fuel : nat) (f : text) (blk : option text) (st : store)
    {struct fuel} : outcome (Z * store) :=
  match f with
  | [] => Ok (0, st)
  | c :: r =>
    match fuel with
    | O => Loop
    | S fuel =>
      if c =? 10 then parse_from isfloat fuel r blk st
      else if c =? 91 then
        let '(n, r1) := read_block r 0 in
        parse_from isfloat fuel (discard_line r1) (match n with Some n => Some (cut0 n) | None => None end) st
      else if (c =? 59) || (c =? 35) then parse_from isfloat fuel (discard_line r) blk st
      else if isblank c then parse_from isfloat fuel (discard_blank r) blk st
      else
        ' (kv, r1) <- parse_line f ;;
        match kv with
        | None => Ok (-1, st)
        | Some (var, val) =>
            match blk with
            | None => UB                              (* add_block(cfg, NULL) *)
            | Some b => parse_from isfloat fuel r1 blk (insert isfloat st b var val)
            end
        end
    end
  end.

(** zt_cfg_ini 39-53, for a readable file with contents f: NULL is [None] *)
Definition cfg_ini (isfloat : text -> bool) (f : text) : outcome (option store) :=
  ' (r, st) <- parse_from isfloat (S (length f)) f (Some global) [] ;;
  Ok (if r <? 0 then None else Some st).
