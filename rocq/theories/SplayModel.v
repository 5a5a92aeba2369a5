(** Model of the splay trees of compat/sys/tree.h (SPLAY macros, lines 62-298), with every element a block in memory and the links as pointers.
    The local variable __node of the splay functions is a block that exists during the call.
    Simplifications: the caller's comparison function depends on the two elements' keys only ([cmp] is any function of two keys), a key is an integer; __comp, an int, is a Z. *)
From Verif Require Import Prelude HeapModel.
Local Open Scope nat_scope.

(* tree.h:75-79 SPLAY_ENTRY: spe_left, spe_right; and the caller's key *)
Record node := mknode { lf : nat; rt : nat; key : Z }.
Definition get (h : hp node) (x : nat) : outcome node := hget h x.
Definition set_lf (h : hp node) (x p : nat) : outcome (hp node) := c <- get h x ;; Ok (hput h x (mknode p (rt c) (key c))).
Definition set_rt (h : hp node) (x p : nat) : outcome (hp node) := c <- get h x ;; Ok (hput h x (mknode (lf c) p (key c))).
Definition left (h : hp node) (x : nat) : outcome nat := c <- get h x ;; Ok (lf c).
Definition right (h : hp node) (x : nat) : outcome nat := c <- get h x ;; Ok (rt c).
Definition keyof (h : hp node) (x : nat) : outcome Z := c <- get h x ;; Ok (key c).

(* tree.h:89-93 SPLAY_ROTATE_RIGHT; the new root is tmp *)
Definition rotate_right (h : hp node) (root tmp : nat) : outcome (hp node) := r <- right h tmp ;; h <- set_lf h root r ;; set_rt h tmp root.
(* tree.h:95-99 SPLAY_ROTATE_LEFT *)
Definition rotate_left (h : hp node) (root tmp : nat) : outcome (hp node) := l <- left h tmp ;; h <- set_rt h root l ;; set_lf h tmp root.
(* tree.h:101-105 SPLAY_LINKLEFT: gives the memory and the new root; the new tmp is the old root *)
Definition linkleft (h : hp node) (root tmp : nat) : outcome (hp node * nat) := h <- set_lf h tmp root ;; r <- left h root ;; Ok (h, r).
(* tree.h:107-111 SPLAY_LINKRIGHT *)
Definition linkright (h : hp node) (root tmp : nat) : outcome (hp node * nat) := h <- set_rt h tmp root ;; r <- right h root ;; Ok (h, r).
(* tree.h:113-118 SPLAY_ASSEMBLE *)
Definition assemble (h : hp node) (root loc l r : nat) : outcome (hp node) :=
  a <- left h root ;; h <- set_rt h l a ;;
  b <- right h root ;; h <- set_lf h r b ;;
  a <- right h loc ;; h <- set_lf h root a ;;
  b <- left h loc ;; set_rt h root b.

(* tree.h:220-243 the loop of name_SPLAY, 257-279 the loop of name_SPLAY_MINMAX; [c] answers (cmp)(elm, x) from the key of x, or is the constant __comp; result: memory, root, __left, __right *)
Fixpoint loop (fuel : nat) (c : Z -> Z) (h : hp node) (root l r : nat) {struct fuel} : outcome (hp node * nat * nat * nat) :=
  match fuel with
  | O => Loop
  | S f =>
      k <- keyof h root ;;
      if (c k =? 0)%Z then Ok (h, root, l, r)
      else if (c k <? 0)%Z then
        tmp <- left h root ;;
        if tmp =? 0 then Ok (h, root, l, r) else
        kt <- keyof h tmp ;;
        if (c kt <? 0)%Z then
          h <- rotate_right h root tmp ;;
          x <- left h tmp ;;
          if x =? 0 then Ok (h, tmp, l, r) else
          ' (h, root') <- linkleft h tmp r ;; loop f c h root' l tmp
        else ' (h, root') <- linkleft h root r ;; loop f c h root' l root
      else
        tmp <- right h root ;;
        if tmp =? 0 then Ok (h, root, l, r) else
        kt <- keyof h tmp ;;
        if (c kt >? 0)%Z then
          h <- rotate_left h root tmp ;;
          x <- right h tmp ;;
          if x =? 0 then Ok (h, tmp, l, r) else
          ' (h, root') <- linkright h tmp l ;; loop f c h root' tmp r
        else ' (h, root') <- linkright h root l ;; loop f c h root' root r
  end.
(* tree.h:212-245, 250-281: with __node *)
Definition splay (pick : nat -> list nat -> nat) (fuel : nat) (c : Z -> Z) (h : hp node) (root : nat) : outcome (hp node * nat) :=
  let (loc, h) := hnew pick h (mknode 0 0 0) in
  ' (h, root, l, r) <- loop fuel c h root loc loc ;;
  h <- assemble h root loc l r ;;
  h <- hfree h loc ;;
  Ok (h, root).

Section C.
Variable pick : nat -> list nat -> nat.
Variable cmp : Z -> Z -> Z.
Variable fuel : nat.
Definition mem := (hp node * nat)%type. (* memory and sph_root *)
(* name_SPLAY(head, elm) *)
Definition splay_elm (m : mem) (e : nat) : outcome mem := k <- keyof (fst m) e ;; splay pick fuel (cmp k) (fst m) (snd m).
(* tree.h:130-140 SPLAY_FIND *)
Definition find (m : mem) (e : nat) : outcome (nat * mem) :=
  if snd m =? 0 then Ok (0, m) else
  m <- splay_elm m e ;; k <- keyof (fst m) e ;; kr <- keyof (fst m) (snd m) ;;
  Ok (if (cmp k kr =? 0)%Z then snd m else 0, m).
(* tree.h:142-155 SPLAY_NEXT *)
Fixpoint leftmost (f : nat) (h : hp node) (x : nat) {struct f} : outcome nat := match f with O => Loop | S f => l <- left h x ;; if l =? 0 then Ok x else leftmost f h l end.
Definition nextof (m : mem) (e : nat) : outcome (nat * mem) :=
  m <- splay_elm m e ;;
  r <- right (fst m) e ;;
  if r =? 0 then Ok (0, m) else x <- leftmost fuel (fst m) r ;; Ok (x, m).
(* tree.h:156-161 SPLAY_MIN_MAX, 290-293 SPLAY_MIN, SPLAY_MAX *)
Definition minmax (m : mem) (v : Z) : outcome (nat * mem) :=
  if snd m =? 0 then Ok (0, m) else m <- splay pick fuel (fun _ => v) (fst m) (snd m) ;; Ok (snd m, m).
(* tree.h:167-189 SPLAY_INSERT *)
Definition insert (m : mem) (e : nat) : outcome (nat * mem) :=
  if snd m =? 0 then h <- set_rt (fst m) e 0 ;; h <- set_lf h e 0 ;; Ok (0, (h, e)) else
  ' (h, root) <- splay_elm m e ;;
  k <- keyof h e ;; kr <- keyof h root ;;
  if (cmp k kr <? 0)%Z then
    l <- left h root ;; h <- set_lf h e l ;; h <- set_rt h e root ;; h <- set_lf h root 0 ;; Ok (0, (h, e))
  else if (cmp k kr >? 0)%Z then
    r <- right h root ;; h <- set_rt h e r ;; h <- set_lf h e root ;; h <- set_rt h root 0 ;; Ok (0, (h, e))
  else Ok (root, (h, root)).
(* tree.h:191-210 SPLAY_REMOVE *)
Definition remove (m : mem) (e : nat) : outcome (nat * mem) :=
  if snd m =? 0 then Ok (0, m) else
  ' (h, root) <- splay_elm m e ;;
  k <- keyof h e ;; kr <- keyof h root ;;
  if (cmp k kr =? 0)%Z then
    l <- left h root ;;
    if l =? 0 then r <- right h root ;; Ok (e, (h, r)) else
    tmp <- right h root ;;
    ' (h, root) <- splay_elm (h, l) e ;;
    h <- set_rt h root tmp ;; Ok (e, (h, root))
  else Ok (0, (h, root)).
(* tree.h:295-298 SPLAY_FOREACH: the elements visited *)
Fixpoint walk (f : nat) (m : mem) (x : nat) {struct f} : outcome (list nat * mem) :=
  match f with O => Loop | S f => if x =? 0 then Ok ([], m) else ' (y, m) <- nextof m x ;; ' (l, m) <- walk f m y ;; Ok (x :: l, m) end.
Definition foreach (m : mem) : outcome (list nat * mem) := ' (x, m) <- minmax m (-1) ;; walk fuel m x.
Inductive call := Insert (e : nat) | Remove (e : nat) | Find (e : nat) | Next (e : nat) | Min | Max | Foreach.
Definition one (x : outcome (nat * mem)) : outcome (list nat * mem) := ' (a, m) <- x ;; Ok ([a], m).
Definition do_call (m : mem) (c : call) : outcome (list nat * mem) :=
  match c with
  | Insert e => one (insert m e) | Remove e => one (remove m e) | Find e => one (find m e) | Next e => one (nextof m e)
  | Min => one (minmax m (-1)) | Max => one (minmax m 1) | Foreach => foreach m
  end.
Fixpoint calls (m : mem) (l : list call) : outcome (list (list nat) * mem) :=
  match l with [] => Ok ([], m) | c :: r => ' (a, m) <- do_call m c ;; ' (o, m) <- calls m r ;; Ok (a :: o, m) end.
End C.
(* the caller's elements *)
Fixpoint elements (pick : nat -> list nat -> nat) (h : hp node) (ks : list Z) : list nat * hp node :=
  match ks with [] => ([], h) | k :: r => let (e, h) := hnew pick h (mknode 0 0 k) in let (es, h) := elements pick h r in (e :: es, h) end.
