(** Model of src/libzt/zt_int.h: checked integer arithmetic.
    zt_assert is modelled as enabled.  The LP64 x86-64 data model is used for the ranges; the *_mul / *_div
    instances for long exist only when not compiled for x86-64 (zt_int.h:126-128, 156-158, 176-178, 203-205):
    there long is 32 bits wide, which has the same ranges as [SInt]/[UInt] here. *)
From Verif Require Export Prelude.
Open Scope Z_scope.

(** zt_int.h:40-43, 62-65 : the instantiated types. *)
Inductive sty := SChar | SShort | SInt | SLong.
Inductive uty := UChar | UShort | UInt | ULong.

(** sizeof(type) * 8 *)
Definition sbits (t : sty) : Z := match t with SChar => 8 | SShort => 16 | SInt => 32 | SLong => 64 end.
Definition ubits (t : uty) : Z := match t with UChar => 8 | UShort => 16 | UInt => 32 | ULong => 64 end.

(** CHAR_MIN .. LONG_MIN, CHAR_MAX .. LONG_MAX (limits.h, zt_int.h:11-14), UCHAR_MAX ... *)
Definition smin (t : sty) : Z := - 2 ^ (sbits t - 1).
Definition smax (t : sty) : Z := 2 ^ (sbits t - 1) - 1.
Definition umax (t : uty) : Z := 2 ^ ubits t - 1.

(** Type in which C evaluates arithmetic after the integer promotions. *)
Definition sprom (t : sty) : sty := match t with SChar | SShort => SInt | _ => t end.

(** Signed arithmetic: a result outside the promoted type is undefined behaviour. *)
Definition sck (t : sty) (v : Z) : outcome Z :=
  if (smin (sprom t) <=? v) && (v <=? smax (sprom t)) then Ok v else UB.
(** Unsigned arithmetic: uchar/ushort promote to int (checked), uint/ulong wrap. *)
Definition uck (t : uty) (v : Z) : outcome Z :=
  match t with
  | UChar | UShort => sck SInt v
  | _ => Ok (v mod 2 ^ ubits t)
  end.
(** Conversion of the returned expression to the function's return type. *)
Definition scast (t : sty) (v : Z) : Z := (v + 2 ^ (sbits t - 1)) mod 2 ^ sbits t - 2 ^ (sbits t - 1).
Definition ucast (t : uty) (v : Z) : Z := v mod 2 ^ ubits t.

(** zt_int.h:31 ZT_INT_SAME_SIGN(u,v) : !((u ^ v) < 0) *)
Definition same_sign (u v : Z) : bool := negb (Z.lxor u v <? 0).

(** zt_int.h:33-39 ZT_INT_UNSIGNED_ADD *)
Definition uint_add (t : uty) (lhs rhs : Z) : outcome Z :=
  d <- uck t (umax t - lhs) ;;
  _ <- guard (rhs <=? d) ;;
  s <- uck t (lhs + rhs) ;;
  Ok (ucast t s).

(** zt_int.h:45-60 ZT_INT_SIGNED_ADD *)
Definition sint_add (t : sty) (lhs rhs : Z) : outcome Z :=
  _ <- (if same_sign lhs rhs
        then if rhs <? 0
             then d <- sck t (smin t - rhs) ;; guard (d <=? lhs)
             else d <- sck t (smax t - lhs) ;; guard (rhs <=? d)
        else Ok tt) ;;
  s <- sck t (lhs + rhs) ;;
  Ok (scast t s).

(** zt_int.h:70-76 ZT_INT_UNSIGNED_SUB *)
Definition uint_sub (t : uty) (lhs rhs : Z) : outcome Z :=
  _ <- guard (rhs <? lhs) ;;
  s <- uck t (lhs - rhs) ;;
  Ok (ucast t s).

(** zt_int.h:83-97 ZT_INT_SIGNED_SUB *)
Definition sint_sub (t : sty) (lhs rhs : Z) : outcome Z :=
  _ <- (if negb (same_sign lhs rhs)
        then if 0 <=? lhs
             then d <- sck t (smax t + rhs) ;; guard (lhs <=? d)
             else d <- sck t (smin t + rhs) ;; guard (d <=? lhs)
        else Ok tt) ;;
  s <- sck t (lhs - rhs) ;;
  Ok (scast t s).

(** zt_int.h:119-128 : cvtype of the unsigned multiplication: unsigned int for the narrow types,
    unsigned long long (64 bit) for uint.  There is no ulong instance on x86-64. *)
Definition ucvbits (t : uty) : Z := match t with UChar | UShort => 32 | _ => 64 end.

(** zt_int.h:109-117 ZT_INT_UNSIGNED_MUL *)
Definition uint_mul (t : uty) (lhs rhs : Z) : outcome Z :=
  let tmp := (lhs * rhs) mod 2 ^ ucvbits t in
  _ <- guard (Z.shiftr tmp (ubits t) <=? 0) ;;
  Ok (ucast t tmp).

(** zt_int.h:149-158 : cvtype of the signed multiplication and division: int / long long. *)
Definition scv (t : sty) : sty := match t with SChar | SShort => SInt | _ => SLong end.

(** zt_int.h:130-146 ZT_INT_SIGNED_MUL *)
Definition sint_mul (t : sty) (lhs rhs : Z) : outcome Z :=
  if (rhs =? 0) || (lhs =? 0) then Ok 0
  else if (rhs =? 1) || (lhs =? 1) then
    p <- sck t (rhs * lhs) ;; Ok (scast t p)
  else
    tmp <- sck (scv t) (lhs * rhs) ;;
    _ <- guard ((smin t <=? tmp) && (tmp <=? smax t)) ;;
    p <- sck t (lhs * rhs) ;;
    Ok (scast t p).

(** zt_int.h:163-169 ZT_INT_UNSIGNED_DIV *)
Definition uint_div (t : uty) (lhs rhs : Z) : outcome Z :=
  _ <- guard (negb (rhs =? 0)) ;;
  Ok (ucast t (lhs / rhs)).

(** C division: truncation toward zero; division by 0 and overflow are undefined behaviour. *)
Definition cdiv (t : sty) (a b : Z) : outcome Z :=
  if b =? 0 then UB else sck t (Z.quot a b).

(** zt_int.h:181-196 ZT_INT_SIGNED_DIV *)
Definition sint_div (t : sty) (lhs rhs : Z) : outcome Z :=
  _ <- guard (negb (rhs =? 0)) ;;
  _ <- (if (lhs <? 0) && (rhs <? 0)
        then guard (negb (lhs =? smin t) && (rhs =? -1)) else Ok tt) ;;
  if same_sign lhs rhs then q <- cdiv t lhs rhs ;; Ok (scast t q)
  else
    tmp <- cdiv (scv t) lhs rhs ;;
    _ <- guard (smin t <=? tmp) ;;
    Ok (scast t tmp).
