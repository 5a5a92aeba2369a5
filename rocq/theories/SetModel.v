(** Model of src/libzt/zt_set.c over the table model.  An element is a pointer value with its length.  Simplifications: as in
    TableModel.v; the [long length] counter does not overflow; lengths are at most 8 ([zt_table_hash_int], which zt_set_init
    installs, reads past the pointer variable for longer ones, see C21_long_element_refuted); the sets passed to
    union/intersection/difference are different objects; zt_set_destroy's callback is not modelled. *)
From Verif Require Import Prelude HashModel HashProofs TableModel.
Open Scope Z_scope.

Definition elt : Type := Z * nat.
(* zt_set.c:17 zt_table_hash_int; equals TableModel.table_hash_int for lengths <= 8 (C21_hash) *)
Definition elt_hash (e : elt) : Z :=
  match table_hash_int (fst e) (snd e) with Ok h => h | _ => 0 end.

Section Set_.
Variable matchf : elt -> elt -> bool.

(* zt_set.h:9-13 *)
Record zset := mkset { stbl : table elt elt; slen : Z }.

(* zt_set.c:7-23 zt_set_init *)
Definition set_init : zset := mkset (table_init elt elt false false 128) 0.

(* zt_set.c:137-147 zt_set_is_member: 1 when found (or a NULL datum was found) *)
Definition set_is_member (s : zset) (e : elt) : outcome bool :=
  r <- table_get elt elt elt_hash matchf (stbl s) e ;; Ok (match r with Some _ => true | None => false end).

(* zt_set.c:49-58 zt_set_insert *)
Definition set_insert (s : zset) (e : elt) : outcome (Z * zset) :=
  m <- set_is_member s e ;;
  if (m : bool) then Ok (1, s) else
  ' (r, t) <- table_set elt elt elt_hash matchf (stbl s) e e ;; Ok (r, mkset t (slen s + 1)).

(* zt_set.c:60-65 zt_set_remove: the pointer stored through data (0 = NULL) *)
Definition set_remove (s : zset) (p : Z) : outcome (Z * Z * zset) :=
  ' (r, t) <- table_del elt elt elt_hash matchf (stbl s) (p, 0%nat) ;;
  Ok (0, match r with Some e => fst e | None => 0 end, mkset t (slen s - 1)).

(* a callback that works on the set [acc]; an undefined step stops the iteration *)
Definition callback (f : zset -> elt -> outcome (Z * zset)) (acc : outcome zset) (k d : elt) : Z * outcome zset :=
  match acc with
  | Ok s => match f s d with
            | Ok (r, s') => (r, Ok s')
            | Abort => (1, Abort) | UB => (1, UB) | Loop => (1, Loop) end
  | x => (1, x)
  end.
Definition iterate (t : table elt elt) (f : zset -> elt -> outcome (Z * zset)) (s : zset) : outcome (Z * zset) :=
  let '(r, a) := table_for_each t (callback f) (Ok s) in s' <- a ;; Ok (r, s').

(* zt_set.c:72-91 zt_set_union *)
Definition set_union (su s1 s2 : zset) : outcome (Z * zset) :=
  ' (_, u1) <- iterate (stbl s1) set_insert su ;;
  ' (_, u2) <- iterate (stbl s2) set_insert u1 ;;
  Ok (0, u2).
(* zt_set.c:93-103 _intersect *)
Definition intersect_cb (s2 : zset) (acc : zset) (d : elt) : outcome (Z * zset) :=
  m <- set_is_member s2 d ;; if (m : bool) then set_insert acc d else Ok (0, acc).
(* zt_set.c:105-113 zt_set_intersection *)
Definition set_intersection (si s1 s2 : zset) : outcome (Z * zset) := iterate (stbl s1) (intersect_cb s2) si.
(* zt_set.c:115-125 _difference *)
Definition difference_cb (s2 : zset) (acc : zset) (d : elt) : outcome (Z * zset) :=
  m <- set_is_member s2 d ;; if (m : bool) then Ok (0, acc) else set_insert acc d.
(* zt_set.c:127-135 zt_set_difference *)
Definition set_difference (sd s1 s2 : zset) : outcome (Z * zset) := iterate (stbl s1) (difference_cb s2) sd.
(* zt_set.c:149-158 _is_subset *)
Definition subset_cb (s2 : zset) (acc : zset) (d : elt) : outcome (Z * zset) :=
  m <- set_is_member s2 d ;; Ok (if (m : bool) then 0 else 1, acc).
(* zt_set.c:160-171 zt_set_is_subset *)
Definition set_is_subset (s1 s2 : zset) : outcome bool :=
  if slen s1 >? slen s2 then Ok false else ' (r, _) <- iterate (stbl s1) (subset_cb s2) s1 ;; Ok (r =? 0).
(* zt_set.c:173-184 zt_set_is_equal *)
Definition set_is_equal (s1 s2 : zset) : outcome bool :=
  if negb (slen s1 =? slen s2) then Ok false else ' (r, _) <- iterate (stbl s1) (subset_cb s2) s1 ;; Ok (r =? 0).
(* zt_set.c:199-211 zt_set_for_each *)
Definition set_for_each {S} (s : zset) (f : S -> Z -> Z * S) (x : S) : Z * S :=
  table_for_each (stbl s) (fun st _ d => f st (fst d)) x.
End Set_.
