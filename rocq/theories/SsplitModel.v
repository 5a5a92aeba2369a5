(** str_split and str_split_free of zt_unit.c:291-343, for every delimiter string, on memory.  The block it allocates is the vector of pointers and, behind it, a
    copy of the string; here these are two areas: the slots of the vector (None is NULL, Some p the offset p in the copy) and the bytes of the copy.  A slot
    behind the vector is undefined (in C it would be part of the copy).  Simplified: the arguments are C strings given by their text (no NUL); argc is not
    bounded by INT_MAX; zt_malloc succeeds (it aborts otherwise).  strsep is the library's (SepModel.v), which is the function of the C library on other systems. *)
From Verif Require Import Prelude SepModel.

(* the C library's strpbrk: the rest of s from the first character of delim on *)
Fixpoint strpbrk (s delim : list Z) {struct s} : option (list Z) :=
  match s with
  | [] => None
  | c :: r => if existsb (fun d => d =? c)%Z delim then Some s else strpbrk r delim
  end.
(* zt_unit.c:304-312: count the separators *)
Fixpoint count (fuel : nat) (p1 delim : list Z) (argc : nat) {struct fuel} : outcome nat :=
  match fuel with
  | O => Loop
  | S fuel =>
      match strpbrk p1 delim with
      | None => Ok argc
      | Some [] => UB
      | Some (_ :: p1) => match p1 with [] => Ok (argc + 1) | _ => count fuel p1 delim (argc + 1) end
      end
  end.
Definition put (slots : list (option nat)) (ap : nat) (v : option nat) : outcome (list (option nat)) := if ap <? length slots then Ok (upd slots ap v) else UB.
(* zt_unit.c:328-335: the pieces go to the slots; an empty one is overwritten by the next *)
Fixpoint fill (fuel : nat) (slots : list (option nat)) (copy : list Z) (tmp : option nat) (delim : list Z) (ap argc : nat) {struct fuel} : outcome (list (option nat) * list Z) :=
  match fuel with
  | O => Loop
  | S fuel =>
      ' (copy, tmp, piece) <- strsep copy tmp delim ;;
      slots <- put slots ap piece ;;
      match piece with
      | None => Ok (slots, copy)
      | Some p =>
          match nth_error copy p with
          | None => UB
          | Some c =>
              if (c =? 0)%Z then fill fuel slots copy tmp delim ap argc
              else if argc - 1 =? 0 then Ok (slots, copy) else fill fuel slots copy tmp delim (ap + 1) (argc - 1)
          end
      end
  end.
(* zt_unit.c:291-338 str_split: None if an argument is NULL; otherwise *elts, the vector, the copy *)
Definition str_split (fuel : nat) (str delim : option (list Z)) : outcome (option (nat * list (option nat) * list Z)) :=
  match str, delim with
  | Some str, Some delim =>
      argc <- count fuel str delim 1 ;;
      ' (slots, copy) <- fill fuel (repeat None (argc + 1)) (str ++ [0%Z]) (Some 0) (delim ++ [0%Z]) 0 argc ;;
      Ok (Some (argc, slots, copy))
  | _, _ => Ok None
  end.
