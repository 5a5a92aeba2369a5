(** Model of what the library does when memory runs out: zt_cstr_split, zt_cstr_cut and zt_cstr_tok (zt_cstr.c:899-1005) with the arrays they return (zt_ptr_array.c), the string options of zt_opts.c
    (253-297) and zt_buf.c.  malloc, calloc, realloc and strdup are asked for memory; the k-th request is granted if [gives k].  zt_malloc.c's functions abort the program when theirs is refused.
    Simplifications: counts stay below 2^31; the texts that strtok_r and the loops of zt_cstr_cut and zt_cstr_tok leave in the private copy are not kept in the copy's block, only that it is there. *)
From Verif Require Import Prelude CstrModel HeapModel.
Local Open Scope Z_scope.

(** a string; struct zt_ptr_array (zt_ptr_array.h:6-13): size, count, array; an array of that many pointers of which the first are written (NULL is 0) *)
Inductive blk := Text (s : list Z) | Arr (size count arr : nat) | Slots (n : nat) (l : list nat).
Record mem := mkmem { heap : hp blk; asked : nat }.

Section M.
Variable pick : nat -> list nat -> nat.
Variable gives : nat -> bool.

(* malloc, calloc, strdup: NULL when refused *)
Definition request (m : mem) (c : blk) : nat * mem := if gives (asked m) then let (x, h) := hnew pick (heap m) c in (x, mkmem h (S (asked m))) else (0%nat, mkmem (heap m) (S (asked m))).
(* zt_malloc.c:18-39 *)
Definition require (m : mem) (c : blk) : outcome (nat * mem) := if gives (asked m) then Ok (request m c) else Abort.
Definition release (m : mem) (p : nat) : outcome mem := h <- hfree (heap m) p ;; Ok (mkmem h (asked m)).
Definition arr_at (m : mem) (p : nat) : outcome (nat * nat * nat) := c <- hget (heap m) p ;; match c with Arr s n a => Ok (s, n, a) | _ => UB end.
Definition slots_at (m : mem) (p : nat) : outcome (nat * list nat) := c <- hget (heap m) p ;; match c with Slots n l => Ok (n, l) | _ => UB end.
Definition text_at (m : mem) (p : nat) : outcome (list Z) := c <- hget (heap m) p ;; match c with Text s => Ok s | _ => UB end.
Definition put (m : mem) (p : nat) (c : blk) : mem := mkmem (hput (heap m) p c) (asked m).

(* zt_ptr_array.c:9-27 zt_ptr_array_init *)
Definition init (m : mem) : outcome (nat * mem) :=
  ' (a, m) <- require m (Arr 0 0 0) ;;
  ' (d, m) <- require m (Slots 32 []) ;;
  Ok (a, put m a (Arr 32 0 d)).
(* zt_ptr_array.c:44-77 zt_ptr_array_resize(array, 0) *)
Definition resize (m : mem) (a : nat) : outcome mem :=
  ' (s, c, d) <- arr_at m a ;;
  ' (e, m) <- require m (Slots (s + 32) []) ;;
  ' (_, l) <- slots_at m d ;;
  _ <- safe (c <=? length l)%nat ;;
  let m := put m e (Slots (s + 32) (firstn c l)) in
  m <- release m d ;;
  Ok (put m a (Arr (s + 32) c e)).
(* zt_ptr_array.c:134-150 zt_ptr_array_add *)
Definition add (m : mem) (a p : nat) : outcome mem :=
  if (p =? 0)%nat then Ok m else
  ' (s, c, _) <- arr_at m a ;;
  m <- (if (s <=? c)%nat then resize m a else Ok m) ;;
  ' (s, c, d) <- arr_at m a ;;
  ' (n, l) <- slots_at m d ;;
  _ <- safe (c <? n)%nat ;;
  Ok (put (put m d (Slots n (firstn c l ++ [p]))) a (Arr s (S c) d)).
Fixpoint free_each (m : mem) (l : list nat) : outcome mem := match l with [] => Ok m | p :: r => m <- (if (p =? 0)%nat then Ok m else release m p) ;; free_each m r end.
(* zt_ptr_array.c:152-179 zt_ptr_array_free(array, 1); zt_cstr.c:899-906 zt_cstr_split_free, zt_cstr_cut_free *)
Definition free_all (m : mem) (a : nat) : outcome mem :=
  ' (s, c, d) <- arr_at m a ;;
  ' (_, l) <- slots_at m d ;;
  _ <- safe (c <=? length l)%nat ;;
  m <- free_each m (firstn c l) ;;
  m <- release m d ;;
  release m a.

(* zt_cstr.c:925-931 *)
Fixpoint split_go (fuel : nat) (m : mem) (a copy : nat) (rest delim : list Z) : outcome mem :=
  match strtok rest delim with
  | None => Ok m
  | Some (tok, rest) =>
      match fuel with
      | O => Loop
      | S f => _ <- text_at m copy ;; let (x, m) := request m (Text tok) in m <- add m a x ;; split_go f m a copy rest delim
      end
  end.
(* zt_cstr.c:908-936 zt_cstr_split; line 925: strtok_r(NULL, delim, &endptr) with endptr NULL if there is no copy *)
Definition split (m : mem) (str delim : list Z) : outcome (nat * mem) :=
  ' (a, m) <- init m ;;
  let (copy, m) := request m (Text str) in
  if (copy =? 0)%nat then UB else
  m <- split_go (S (length str)) m a copy str delim ;;
  m <- release m copy ;;
  Ok (a, m).

(* zt_cstr.c:951-963 *)
Fixpoint cut_go (fuel : nat) (m : mem) (a copy : nat) (pos : list Z) (delim : Z) (keep : bool) : outcome mem :=
  if delim =? 0 then UB else
  match index_of pos delim with
  | None => Ok m
  | Some k =>
      match skipn (k + 1) pos with
      | [] => Ok m
      | rest =>
          match fuel with
          | O => Loop
          | S f => _ <- text_at m copy ;; let (x, m) := request m (Text (if keep then delim :: rest else rest)) in m <- add m a x ;; cut_go f m a copy rest delim keep
          end
      end
  end.
(* zt_cstr.c:938-967 zt_cstr_cut; line 951: strchr(NULL, delim) if there is no copy *)
Definition cut (m : mem) (str : list Z) (delim : Z) (keep : bool) : outcome (nat * mem) :=
  ' (a, m) <- init m ;;
  let (copy, m) := request m (Text str) in
  if (copy =? 0)%nat then UB else
  m <- cut_go (S (length str)) m a copy str delim keep ;;
  m <- release m copy ;;
  Ok (a, m).

(* zt_cstr.c:986-1001 *)
Fixpoint tok_go (fuel : nat) (m : mem) (a copy : nat) (s : list Z) (delim : Z) : outcome mem :=
  match rindex_of s delim with
  | Some (S k) =>
      match fuel with
      | O => Loop
      | S f => _ <- text_at m copy ;; let (x, m) := request m (Text s) in m <- add m a x ;; tok_go f m a copy (firstn (S k) s) delim
      end
  | _ => _ <- text_at m copy ;; let (x, m) := request m (Text s) in add m a x
  end.
(* zt_cstr.c:969-1005 zt_cstr_tok, delim as in CstrModel; lines 983, 986: a write through NULL or strrchr(NULL, delim) if there is no copy *)
Definition tok (m : mem) (str : list Z) (delim : Z) : outcome (nat * mem) :=
  ' (a, m) <- init m ;;
  let (copy, m) := request m (Text str) in
  match rev str with
  | [] => UB
  | c :: r =>
      if (copy =? 0)%nat then UB else
      m <- tok_go (S (length str)) m a copy (if schar c =? delim then rev r else str) delim ;;
      m <- release m copy ;;
      Ok (a, m)
  end.

(* zt_opts.c:253-263 zt_opt_string: what *cb_data becomes (what it was is not looked at) *)
Definition opt_string (m : mem) (arg : list Z) : nat * mem := request m (Text arg).
(* zt_opts.c:276-281: while (cur_array[i++] != NULL) *)
Fixpoint find_null (l : list nat) : outcome nat := match l with [] => UB | p :: r => if (p =? 0)%nat then Ok O else k <- find_null r ;; Ok (S k) end.
(* zt_opts.c:265-297 zt_opt_string_array with *cb_data = cur *)
Definition opt_array (m : mem) (cur : nat) (arg : list Z) : outcome (nat * mem) :=
  ' (k, l) <- (if (cur =? 0)%nat then Ok (O, []) else ' (_, l) <- slots_at m cur ;; k <- find_null l ;; Ok (k, l)) ;;
  (* zt_realloc to k + 2 pointers *)
  ' (e, m) <- require m (Slots (k + 2) (firstn (k + 2) l)) ;;
  m <- (if (cur =? 0)%nat then Ok m else release m cur) ;;
  let (x, m) := request m (Text arg) in
  Ok (e, put m e (Slots (k + 2) (firstn k l ++ [x; 0%nat]))).
Fixpoint opt_arrays (m : mem) (cur : nat) (args : list (list Z)) : outcome (nat * mem) := match args with [] => Ok (cur, m) | a :: r => ' (cur, m) <- opt_array m cur a ;; opt_arrays m cur r end.
(* an option given several times; the value when *cb_data was NULL before *)
Fixpoint opt_strings (m : mem) (cur : nat) (args : list (list Z)) : nat * mem := match args with [] => (cur, m) | a :: r => let (cur, m) := opt_string m a in opt_strings m cur r end.
End M.

(** ** zt_buf.c *)
From Verif Require Import Blocks BufModel.
(* zt_buf.c:53-72 zt_buf_expand, with realloc refused or not: then buf = top = NULL, the old block is nobody's, and 0 is returned all the same *)
Definition expand_o (ok : bool) (b : buf) (n : Z) : outcome buf :=
  if ok then buf_expand b n else _ <- BufModel.realloc b 0 ;; Ok (mkbuf (len b) ((len b + (if n <? 1024 then 1024 else n)) mod W64) None 0).
(* zt_buf.c:91-101 zt_buf_add; memcpy to NULL is undefined: a write outside the block *)
Definition add_o (ok : bool) (b : buf) (d : list Z) : outcome buf :=
  let n := Z.of_nat (length d) in
  b1 <- (if n >? buf_unused b then expand_o ok b n else Ok b) ;;
  l <- wrn (block b1) (Z.to_nat (off b1 + len b1)) d ;;
  Ok (mkbuf ((len b1 + n) mod W64) (max b1) (match blk b1 with Some _ => Some l | None => None end) (off b1)).
(* zt_buf.c:122-129 zt_buf_reserve *)
Definition reserve_o (ok : bool) (b : buf) (n : Z) : outcome buf := if n >? buf_unused b then expand_o ok b n else Ok b.
