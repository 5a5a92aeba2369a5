(** Model of src/libzt/zt_gc.c.  Objects are addresses (0 is NULL).  Simplifications: the three intrusive circular lists are the lists of the objects on them
    (property C24 relates the operations on the links to these lists); the two bits of an object's colour are two booleans; counters do not overflow;
    every object given to the collector has been through zt_gc_prepare or zt_gc_register, so removing an object that is on no list does nothing.
    The user's mark_fn calls zt_gc_mark on the objects its object points to, [kids]; the user's release_fn is only recorded, in [log]. *)
From Verif Require Import Prelude.
Local Open Scope Z_scope.

(* zt_gc.c:22-40; [one]: is_white == one_is_white; [scan] = 0 stands for gc->scan == gc->grey *)
Record gc := mkgc { enabled : Z; allocs : Z; mps : Z; before : Z; one : bool; black : list nat; grey : list nat; white : list nat; scan : nat; wb : nat -> bool; pb : nat -> bool; log : list nat }.
Definition set_en (g : gc) (e a : Z) := mkgc e a (mps g) (before g) (one g) (black g) (grey g) (white g) (scan g) (wb g) (pb g) (log g).
Definition set_lists (g : gc) (b y w : list nat) := mkgc (enabled g) (allocs g) (mps g) (before g) (one g) b y w (scan g) (wb g) (pb g) (log g).
Definition set_scan (g : gc) (s : nat) := mkgc (enabled g) (allocs g) (mps g) (before g) (one g) (black g) (grey g) (white g) s (wb g) (pb g) (log g).
Definition setf (f : nat -> bool) (x : nat) (v : bool) : nat -> bool := fun y => if (y =? x)%nat then v else f y.
Definition set_wb (g : gc) (x : nat) (v : bool) := mkgc (enabled g) (allocs g) (mps g) (before g) (one g) (black g) (grey g) (white g) (scan g) (setf (wb g) x v) (pb g) (log g).
Definition set_pb (g : gc) (x : nat) (v : bool) := mkgc (enabled g) (allocs g) (mps g) (before g) (one g) (black g) (grey g) (white g) (scan g) (wb g) (setf (pb g) x v) (log g).

(* zt_gc.c:47-71, 100-111 *)
Definition is_white (g : gc) (x : nat) : bool := Bool.eqb (wb g x) (one g).
Definition clear_white (g : gc) (x : nat) : gc := set_wb g x (negb (one g)).
(* zt_list.h:65-69 zt_elist_remove *)
Definition del (x : nat) (l : list nat) : list nat := filter (fun y => negb (y =? x)%nat) l.
Definition unlink (g : gc) (x : nat) : gc := set_lists g (del x (black g)) (del x (grey g)) (del x (white g)).
(* the element after x on a list, 0 for the list's head; following the links of an object that is not on the list is undefined *)
Fixpoint next_of (l : list nat) (x : nat) : outcome nat :=
  match l with [] => UB | y :: r => if (y =? x)%nat then Ok (hd 0%nat r) else next_of r x end.

(* zt_gc.c:159-194 zt_gc_init *)
Definition gc_init (marks al : Z) : gc := mkgc 0 0 marks al true [] [] [] 0 (fun _ => false) (fun _ => false) [].
(* zt_gc.c:390-404 zt_gc_mark *)
Definition gc_mark (g : gc) (x : nat) : outcome gc :=
  _ <- guard (negb (x =? 0)%nat) ;;
  if negb (pb g x) && is_white g x then
    let g := unlink (clear_white g x) x in Ok (set_lists g (black g) (grey g ++ [x]) (white g))
  else Ok g.
Fixpoint mark_all (g : gc) (l : list nat) : outcome gc := match l with [] => Ok g | x :: r => g <- gc_mark g x ;; mark_all g r end.
(* zt_gc.c:270-294 zt_gc_free_white *)
Definition free_white (g : gc) : gc := mkgc (enabled g) (allocs g) (mps g) (before g) (one g) (black g) (grey g) [] (scan g) (wb g) (pb g) (log g ++ white g).
(* zt_gc.c:296-315 zt_gc_switch *)
Definition gc_switch (g : gc) : gc :=
  let g := free_white g in
  mkgc (enabled g) (allocs g) (mps g) (before g) (negb (one g)) (white g) (grey g) (black g) (scan g) (wb g) (pb g) (log g).
(* zt_gc.c:341-379: the loop; the boolean tells whether the grey list was exhausted *)
Fixpoint collect_loop (fuel : nat) (kids : nat -> list nat) (full : bool) (marks : Z) (g : gc) {struct fuel} : outcome (gc * bool) :=
  match fuel with
  | O => Loop
  | S fuel =>
      if (scan g =? 0)%nat then Ok (g, true)
      else
        let elt := scan g in
        g <- mark_all (clear_white g elt) (kids elt) ;;
        nx <- next_of (grey g) elt ;;
        let g := if pb g elt then g else let g := unlink g elt in set_lists g (elt :: black g) (grey g) (white g) in
        let g := set_scan g nx in
        if negb full && (mps g <=? marks + 1) && negb (nx =? 0)%nat then Ok (g, false)
        else collect_loop fuel kids full (marks + 1) g
  end.
(* zt_gc.c:317-388 zt_gc_collect *)
Definition gc_collect (fuel : nat) (kids : nat -> list nat) (g : gc) (full : bool) : outcome gc :=
  if (enabled g <? 0) || (negb full && (allocs g <? before g)) then Ok g
  else
    let g := set_en g (enabled g - 1) 0 in
    let g := if (scan g =? 0)%nat then set_scan g (hd 0%nat (grey g)) else g in
    ' (g, fin) <- collect_loop fuel kids full 0 g ;;
    let g := set_en g (enabled g + 1) (allocs g) in
    Ok (if fin then gc_switch g else g).
(* zt_gc.c:78-89 zt_gc_protect *)
Definition gc_protect (g : gc) (x : nat) : gc :=
  let g := unlink (clear_white g x) x in
  set_pb (set_lists g (black g) (x :: grey g) (white g)) x true.
(* zt_gc.c:91-98 zt_gc_unprotect *)
Definition gc_unprotect (g : gc) (x : nat) : outcome gc := _ <- guard (negb (x =? 0)%nat) ;; Ok (set_pb g x false).
(* zt_gc.c:141-150 zt_gc_enable *)
Definition gc_enable (fuel : nat) (kids : nat -> list nat) (g : gc) : outcome gc :=
  let g := set_en g (enabled g + 1) (allocs g) in
  _ <- guard (enabled g <=? 0) ;;
  if (enabled g =? 0) && (before g <=? allocs g) then gc_collect fuel kids g false else Ok g.
(* zt_gc.c:152-156 zt_gc_disable *)
Definition gc_disable (g : gc) : gc := set_en g (enabled g - 1) (allocs g).
(* zt_gc.c:235-245 zt_gc_unregister *)
Definition gc_unregister (fuel : nat) (kids : nat -> list nat) (g : gc) (x : nat) : outcome gc :=
  let g := unlink g x in
  let g := set_en g (enabled g) (allocs g + 1) in
  if allocs g <? before g then gc_collect fuel kids g false else Ok g.
(* zt_gc.c:247-268 zt_gc_register, of an object that is on no list *)
Definition gc_register (fuel : nat) (kids : nat -> list nat) (g : gc) (x : nat) : outcome gc :=
  let g := clear_white g x in
  let g := set_lists g (black g) (grey g ++ [x]) (white g) in
  let g := set_en g (enabled g) (allocs g + 1) in
  if before g <=? allocs g then gc_collect fuel kids g false else Ok g.
(* zt_gc.c:196-225 zt_gc_destroy *)
Definition gc_destroy (fuel : nat) (kids : nat -> list nat) (g : gc) : outcome gc :=
  let g := if enabled g =? 0 then g else set_en g 0 (allocs g) in
  g <- gc_collect fuel kids g true ;;
  Ok (mkgc 1 (allocs g) (mps g) (before g) (one g) [] [] [] (scan g) (wb g) (pb g) (log g ++ white g ++ grey g ++ black g)).
(* zt_gc.c:420-440 zt_gc_for_each: the objects visited with the list they are on *)
Definition gc_for_each (g : gc) : list (nat * Z) := map (fun x => (x, 0)) (black g) ++ map (fun x => (x, 1)) (grey g) ++ map (fun x => (x, 2)) (white g).
