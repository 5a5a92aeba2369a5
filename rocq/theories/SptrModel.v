(** Model of src/libzt/zt_set.c on tables in memory (TptrModel.v): any number of sets share one heap of nodes and are named by their position, so that the same set can be given
    for several arguments of zt_set_union, zt_set_intersection and zt_set_difference.  SetModel.v has the same functions on lists, with different sets only.
    Simplifications: elements as in SetModel.v (a pointer value and a length of at most 8); the nodes of different tables come from one allocator (TmemModel.v has the pools);
    the length counter does not overflow; zt_set_remove is in SetModel.v only. *)
From Verif Require Import Prelude HashModel TableModel SetModel TptrModel.
Open Scope Z_scope.

Section Sptr.
Variable matchf : elt -> elt -> bool.
Variable pick : nat -> list nat -> nat.
Notation heap := (heap elt elt).

(* zt_set.h:9-14; the match function is the table's, destroy is a parameter of set_destroy *)
Record pzset := mkps { ptbl : ptable; plen : Z }.
Record world := mkw { wheap : heap; wsets : list pzset }.
Definition wget (w : world) (i : nat) : outcome pzset := match nth_error (wsets w) i with Some s => Ok s | None => UB end.

(* zt_set.c:7-23 zt_set_init: the new set comes last *)
Definition w_init (w : world) : world := mkw (wheap w) (wsets w ++ [mkps (pinit false false 128) 0]).
(* zt_set.c:137-147 zt_set_is_member *)
Definition w_member (fuel : nat) (w : world) (i : nat) (e : elt) : outcome bool :=
  s <- wget w i ;; r <- pget elt_hash matchf fuel (wheap w) (ptbl s) e ;; Ok (match r with Some _ => true | None => false end).
(* zt_set.c:49-58 zt_set_insert *)
Definition w_insert (fuel : nat) (w : world) (i : nat) (e : elt) : outcome (Z * world) :=
  m <- w_member fuel w i e ;;
  if (m : bool) then Ok (1, w) else
  s <- wget w i ;; ' (r, h, t) <- pset elt_hash matchf pick fuel (wheap w) (ptbl s) e e ;;
  Ok (r, mkw h (upd (wsets w) i (mkps t (plen s + 1)))).

(* zt_table.c:280-299 zt_table_for_each on the table of set i: the bucket heads are read when their turn comes, next before the callback *)
Section Walk.
Variable cb : world -> elt -> outcome (Z * world).
Fixpoint walk_chain (fuel : nat) (w : world) (p : option nat) : outcome (Z * world) :=
  match fuel with
  | O => Loop
  | S f => match p with
           | None => Ok (0, w)
           | Some x => n <- hget (wheap w) x ;; ' (r, w) <- cb w (hd n) ;; if r =? 0 then walk_chain f w (hn n) else Ok (r, w)
           end
  end.
Fixpoint walk_loop (fuel : nat) (w : world) (i : nat) (bs : list nat) : outcome (Z * world) :=
  match bs with
  | [] => Ok (0, w)
  | b :: bs => s <- wget w i ;; p <- head_at (ptbl s) b ;; ' (r, w) <- walk_chain fuel w p ;; if r =? 0 then walk_loop fuel w i bs else Ok (r, w)
  end.
Definition walk (fuel : nat) (w : world) (i : nat) : outcome (Z * world) := s <- wget w i ;; walk_loop fuel w i (seq 0 (length (pbuckets (ptbl s)))).
End Walk.

(* zt_set.c:72-79 _union *)
Definition union_cb (fuel : nat) (u : nat) (w : world) (d : elt) : outcome (Z * world) := w_insert fuel w u d.
(* zt_set.c:81-91 zt_set_union *)
Definition w_union (fuel : nat) (w : world) (u i j : nat) : outcome (Z * world) :=
  ' (_, w) <- walk (union_cb fuel u) fuel w i ;; ' (_, w) <- walk (union_cb fuel u) fuel w j ;; Ok (0, w).
(* zt_set.c:93-103 _intersect; 105-113 zt_set_intersection *)
Definition w_intersect_cb (fuel : nat) (v j : nat) (w : world) (d : elt) : outcome (Z * world) := m <- w_member fuel w j d ;; if (m : bool) then w_insert fuel w v d else Ok (0, w).
Definition w_intersection (fuel : nat) (w : world) (v i j : nat) : outcome (Z * world) := walk (w_intersect_cb fuel v j) fuel w i.
(* zt_set.c:115-125 _difference; 127-135 zt_set_difference *)
Definition w_difference_cb (fuel : nat) (v j : nat) (w : world) (d : elt) : outcome (Z * world) := m <- w_member fuel w j d ;; if (m : bool) then Ok (0, w) else w_insert fuel w v d.
Definition w_difference (fuel : nat) (w : world) (v i j : nat) : outcome (Z * world) := walk (w_difference_cb fuel v j) fuel w i.
(* zt_set.c:149-158 _is_subset; 160-171 zt_set_is_subset; 173-184 zt_set_is_equal *)
Definition w_subset_cb (fuel : nat) (j : nat) (w : world) (d : elt) : outcome (Z * world) := m <- w_member fuel w j d ;; Ok (if (m : bool) then 0 else 1, w).
Definition w_is_subset (fuel : nat) (w : world) (i j : nat) : outcome bool :=
  s <- wget w i ;; s' <- wget w j ;; if plen s >? plen s' then Ok false else ' (r, _) <- walk (w_subset_cb fuel j) fuel w i ;; Ok (r =? 0).
Definition w_is_equal (fuel : nat) (w : world) (i j : nat) : outcome bool :=
  s <- wget w i ;; s' <- wget w j ;; if negb (plen s =? plen s') then Ok false else ' (r, _) <- walk (w_subset_cb fuel j) fuel w i ;; Ok (r =? 0).

(* zt_set.c:25-35 _destroy, 37-46 zt_set_destroy: the pointers given to the set's destroy function, if it has one, in order; the set is gone (its position is kept).
   The callback gets the datum, and always returns 0; the nodes are read only before the table is destroyed *)
Fixpoint data_chain (fuel : nat) (h : heap) (p : option nat) : outcome (list elt) :=
  match fuel with O => Loop | S f => match p with None => Ok [] | Some x => n <- hget h x ;; l <- data_chain f h (hn n) ;; Ok (hd n :: l) end end.
Fixpoint data_loop (fuel : nat) (h : heap) (bs : list (option nat)) : outcome (list elt) :=
  match bs with [] => Ok [] | p :: bs => l <- data_chain fuel h p ;; m <- data_loop fuel h bs ;; Ok (l ++ m) end.
Definition w_destroy (fuel : nat) (has_destroy : bool) (w : world) (i : nat) : outcome (list Z) :=
  s <- wget w i ;; l <- data_loop fuel (wheap w) (pbuckets (ptbl s)) ;; Ok (if has_destroy then map fst l else []).
End Sptr.
