(** strsep of zt_win32.c (used where the C library has none).  The string lies in a block of bytes, a pointer into it is an offset, NULL is None; [delim] is
    another block, which is only read (simplified: it does not overlap the string).  Reading behind a block is undefined. *)
From Verif Require Import Prelude.

(* zt_win32.c:124-133: is c among the characters of delim, its NUL included?  (spanp starts at delim; the list is what follows spanp) *)
Fixpoint span (c : Z) (delim : list Z) {struct delim} : outcome bool :=
  match delim with
  | [] => UB
  | sc :: delim => if (sc =? c)%Z then Ok true else if (sc =? 0)%Z then Ok false else span c delim
  end.
(* zt_win32.c:121-125, 133-134: read on from offset s ([rest] is the block from there) until a character of delim; that character and its offset *)
Fixpoint walk (rest : list Z) (s : nat) (delim : list Z) {struct rest} : outcome (Z * nat) :=
  match rest with
  | [] => UB
  | c :: rest => hit <- span c delim ;; if (hit : bool) then Ok (c, s) else walk rest (S s) delim
  end.
(* zt_win32.c:110-136 strsep: the block, *stringp afterwards, the result *)
Definition strsep (block : list Z) (stringp : option nat) (delim : list Z) : outcome (list Z * option nat * option nat) :=
  match stringp with
  | None => Ok (block, None, None)
  | Some tok =>
      ' (c, s) <- walk (skipn tok block) tok delim ;;
      if (c =? 0)%Z then Ok (block, None, Some tok) else Ok (upd block s 0%Z, Some (S s), Some tok)
  end.
(* the loop of zt_unit.c:328: while ((tok = strsep(&tmp, delim)) != NULL) *)
Fixpoint strsep_all (fuel : nat) (block : list Z) (stringp : option nat) (delim : list Z) {struct fuel} : outcome (list Z * list nat) :=
  match fuel with
  | O => Loop
  | S fuel =>
      ' (block, stringp, tok) <- strsep block stringp delim ;;
      match tok with
      | None => Ok (block, [])
      | Some tok => ' (block, toks) <- strsep_all fuel block stringp delim ;; Ok (block, tok :: toks)
      end
  end.
