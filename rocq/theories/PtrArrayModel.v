(** Model of src/libzt/zt_ptr_array.c.  Pointers are Z (0 = NULL); a slot of the block is [None] until written
    (zt_malloc does not initialise).  size and count are int32_t: signed overflow is UB.
    Simplification: allocation succeeds (zt_malloc aborts otherwise, zt_malloc.c). *)
From Verif Require Import Prelude.
Open Scope Z_scope.

(* zt_ptr_array.h:8-14; [cb] says whether a free callback is registered *)
Record parr := mkparr { size : Z; count : Z; slots : list (option Z); cb : bool }.

Definition DEFAULT_SIZE : Z := 32.  (* zt_ptr_array.h:4 *)
Definition I32MAX : Z := 2147483647.

(** a->array[i] *)
Definition rd (a : parr) (i : Z) : outcome Z :=
  if (0 <=? i) && (i <? Z.of_nat (length (slots a))) then
    match nth_error (slots a) (Z.to_nat i) with Some (Some v) => Ok v | _ => UB end
  else UB.
(** a->array[i] = v *)
Definition wr (a : parr) (i : Z) (v : Z) : outcome parr :=
  if (0 <=? i) && (i <? Z.of_nat (length (slots a))) then
    Ok (mkparr (size a) (count a) (upd (slots a) (Z.to_nat i) (Some v)) (cb a))
  else UB.

(* zt_ptr_array.c:9-27 zt_ptr_array_init *)
Definition pa_init (c : bool) : parr := mkparr DEFAULT_SIZE 0 (repeat None (Z.to_nat DEFAULT_SIZE)) c.

(* zt_ptr_array.c:37-39 the loop of zt_ptr_array_copy_data, from index i, n iterations left; dst is the target block *)
Fixpoint copy_loop (n : nat) (a : parr) (i : Z) (dst : list (option Z)) : outcome (list (option Z)) :=
  match n with
  | O => Ok dst
  | S n' => v <- rd a i ;;
            _ <- safe ((0 <=? i) && (i <? Z.of_nat (length dst))) ;;
            copy_loop n' a (i + 1) (upd dst (Z.to_nat i) (Some v))
  end.
(* zt_ptr_array.c:29-42 zt_ptr_array_copy_data (arguments not NULL) *)
Definition pa_copy_data (a : parr) (dst : list (option Z)) : outcome (list (option Z)) :=
  copy_loop (Z.to_nat (count a)) a 0 dst.

(* zt_ptr_array.c:44-78 zt_ptr_array_resize *)
Definition pa_resize (a : parr) (expand : Z) : outcome (Z * parr) :=
  let sz := if expand =? 0 then DEFAULT_SIZE else expand in
  _ <- safe (size a + sz <=? I32MAX) ;;
  if size a + sz <? size a then Ok (-1, a) else
  nd <- pa_copy_data a (repeat None (Z.to_nat (size a + sz))) ;;
  Ok (0, mkparr (size a + sz) (count a) nd (cb a)).

(* zt_ptr_array.c:80-93 zt_ptr_array_move_idx_to_idx *)
Definition pa_move (a : parr) (src dst : Z) : outcome (Z * parr) :=
  if src >? count a then Ok (-1, a) else
  if dst >? count a then Ok (-1, a) else
  v <- rd a src ;;
  a' <- wr a dst v ;;
  Ok (0, a').

(* zt_ptr_array.c:103-112 the loop of zt_ptr_array_del; the result also lists the pointers given to free_cb *)
Fixpoint del_loop (fuel : nat) (a : parr) (d i : Z) : outcome (parr * list Z) :=
  match fuel with O => Loop | S f =>
    if i <? count a then
      v <- rd a i ;;
      if v =? d then
        ' (_, a1) <- pa_move a (count a - 1) i ;;
        let a2 := mkparr (size a1) (count a1 - 1) (slots a1) (cb a1) in
        ' (a3, fr) <- del_loop f a2 d (i + 1) ;;
        Ok (a3, if cb a then d :: fr else fr)
      else del_loop f a d (i + 1)
    else Ok (a, [])
  end.
(* zt_ptr_array.c:95-115 zt_ptr_array_del *)
Definition pa_del (fuel : nat) (a : parr) (d : Z) : outcome (Z * parr * list Z) :=
  if d =? 0 then Ok (-1, a, []) else
  ' (a', fr) <- del_loop fuel a d 0 ;;
  Ok (-1, a', fr).

(* zt_ptr_array.c:182-194 zt_ptr_array_get_idx *)
Definition pa_get (a : parr) (idx : Z) : outcome Z :=
  if idx =? -1 then rd a (count a - 1)
  else if idx >=? count a then Ok 0
  else rd a idx.

(* zt_ptr_array.c:134-150 zt_ptr_array_add *)
Definition pa_add (a : parr) (d : Z) : outcome (Z * parr) :=
  if d =? 0 then Ok (0, a) else
  ' (r, a1) <- (if count a >=? size a then pa_resize a 0 else Ok (0, a)) ;;
  if r <? 0 then Ok (-1, a1) else
  a2 <- wr a1 (count a1) d ;;
  Ok (0, mkparr (size a2) (count a2 + 1) (slots a2) (cb a2)).

(* zt_ptr_array.c:117-132 zt_ptr_array_cat, two different arrays *)
Fixpoint cat_loop (fuel : nat) (dst src : parr) (i : Z) : outcome (Z * parr) :=
  match fuel with O => Loop | S f =>
    if i <? count src then
      v <- pa_get src i ;;
      ' (r, dst') <- pa_add dst v ;;
      if negb (r =? 0) then Ok (-1, dst') else cat_loop f dst' src (i + 1)
    else Ok (0, dst)
  end.
Definition pa_cat (fuel : nat) (dst src : parr) : outcome (Z * parr) := cat_loop fuel dst src 0.
(* zt_ptr_array.c:117-132 with dst == src *)
Fixpoint cat_self_loop (fuel : nat) (a : parr) (i : Z) : outcome (Z * parr) :=
  match fuel with O => Loop | S f =>
    if i <? count a then
      v <- pa_get a i ;;
      ' (r, a') <- pa_add a v ;;
      if negb (r =? 0) then Ok (-1, a') else cat_self_loop f a' (i + 1)
    else Ok (0, a)
  end.

(* zt_ptr_array.c:161-173 freeing the members: the pointers released, in order *)
Fixpoint free_loop (n : nat) (a : parr) (i : Z) : outcome (list Z) :=
  match n with
  | O => Ok []
  | S n' => v <- rd a i ;; r <- free_loop n' a (i + 1) ;; Ok (if v =? 0 then r else v :: r)
  end.
(* zt_ptr_array.c:152-180 zt_ptr_array_free: members released before the block and the struct *)
Definition pa_free (a : parr) (free_members : Z) : outcome (list Z) :=
  if free_members >? 0 then free_loop (Z.to_nat (count a)) a 0 else Ok [].
