(** Model of src/libzt/zt_cstr.c.  A C string argument is the list of its bytes before the
    terminating NUL (values 1..255); a memory block is the list of its bytes. *)
From Verif Require Import Prelude.
Open Scope Z_scope.

Definition zlen {A} (s : list A) : Z := Z.of_nat (length s).

(* p[i] for a NUL terminated string p of which nothing is known beyond the NUL. *)
Definition rd (s : list Z) (i : Z) : outcome Z :=
  if i <? 0 then UB
  else if i <? zlen s then Ok (nth (Z.to_nat i) s 0)
  else if i =? zlen s then Ok 0 else UB.

(* &p[i]: the C string starting there (one may point at the NUL). *)
Definition at_ (s : list Z) (i : Z) : outcome (list Z) :=
  if (0 <=? i) && (i <=? zlen s) then Ok (skipn (Z.to_nat i) s) else UB.

(* The C string a reader sees in a memory block: the bytes before the first NUL. *)
Fixpoint cstring (m : list Z) : list Z :=
  match m with [] => [] | c :: r => if c =? 0 then [] else c :: cstring r end.

(* `*p++ = c` into a block of [cap] bytes of which the first [length acc] are written. *)
Definition bput (cap : Z) (acc : list Z) (c : Z) : outcome (list Z) :=
  if zlen acc <? cap then Ok (acc ++ [c]) else UB.

(* char values as int: char is signed (LP64 Linux x86). *)
Definition schar (b : Z) : Z := if b <? 128 then b else b - 256.

(** libc *)
Definition inset (set : list Z) (c : Z) : bool := existsb (Z.eqb c) set.
(* strchr(set, c) != NULL: the terminator is part of the string *)
Definition strchr_b (set : list Z) (c : Z) : bool := (c =? 0) || inset set c.
Fixpoint strspn (s set : list Z) : Z :=
  match s with [] => 0 | c :: r => if inset set c then 1 + strspn r set else 0 end.
Fixpoint strcspn (s set : list Z) : Z :=
  match s with [] => 0 | c :: r => if inset set c then 0 else 1 + strcspn r set end.
(* strncmp: only the sign is specified by C; we return -1, 0, 1. *)
Fixpoint strncmp (a b : list Z) (n : nat) {struct n} : Z :=
  match n with
  | O => 0
  | S n' => match a, b with
            | [], [] => 0
            | [], _ => -1
            | _, [] => 1
            | x :: a', y :: b' => if x =? y then strncmp a' b' n' else if x <? y then -1 else 1
            end
  end.

(* zt_cstr.c:70-77 *)
Definition BASE (i len : Z) : Z := if len <=? i then len - 1 else i.
(* zt_cstr.c:80-91.  The size_t sum i+len converted back to ssize_t is i+len for len < 2^63. *)
Definition IDX (i len : Z) : Z := if i <? 0 then BASE (i + len) len else BASE i len.
(* zt_cstr.c:37-54 *)
Definition CONVERT (s : list Z) (i j : Z) : outcome (Z * Z) :=
  let len := zlen s in
  if 0 <? len then
    let i := IDX i len in
    let j := IDX j len in
    let '(i, j) := if j <? i then (j, i) else (i, j) in
    _ <- guard ((0 <=? i) && (j <? len)) ;; Ok (i, j)
  else Ok (0, 0).
(* zt_cstr.c:57-68 *)
Definition IDXLEN (i j : Z) : outcome Z :=
  let r := if i <? j then (j - i) + 1 else (i - j) + 1 in
  _ <- guard (0 <? r) ;; Ok r.

(* `while (i <= j) *p++ = s[i++];` *)
Fixpoint copy_up (fuel : nat) (s : list Z) (i j cap : Z) (acc : list Z) : outcome (list Z) :=
  if i <=? j then
    match fuel with
    | O => Loop
    | S f => c <- rd s i ;; acc <- bput cap acc c ;; copy_up f s (i + 1) j cap acc
    end
  else Ok acc.
(* `while (i <= j) *p++ = s[j--];` *)
Fixpoint copy_down (fuel : nat) (s : list Z) (i j cap : Z) (acc : list Z) : outcome (list Z) :=
  if i <=? j then
    match fuel with
    | O => Loop
    | S f => c <- rd s j ;; acc <- bput cap acc c ;; copy_down f s i (j - 1) cap acc
    end
  else Ok acc.
Definition fuel_of (i j : Z) : nat := Z.to_nat (j - i + 1).

(* zt_cstr.c:97-113.  The result is the content of the new block. *)
Definition zt_cstr_sub (s : list Z) (i j : Z) : outcome (list Z) :=
  ' (i, j) <- CONVERT s i j ;;
  n <- IDXLEN i j ;;
  acc <- copy_up (fuel_of i j) s i j (n + 1) [] ;;
  bput (n + 1) acc 0.

(* the `while (n-- > 0) for (k = i; k <= j; k++) *p++ = s[k];` of zt_cstr_dup *)
Fixpoint dup_loop (n : nat) (s : list Z) (i j cap : Z) (acc : list Z) : outcome (list Z) :=
  match n with
  | O => Ok acc
  | S n' => acc <- copy_up (fuel_of i j) s i j cap acc ;; dup_loop n' s i j cap acc
  end.
(* zt_cstr.c:118-145; s == NULL is [None].  The size is computed in size_t and wraps. *)
Definition zt_cstr_dup (s : option (list Z)) (i j n : Z) : outcome (option (list Z)) :=
  _ <- guard (0 <=? n) ;;
  match s with
  | None => Ok None
  | Some s =>
      ' (i, j) <- CONVERT s i j ;;
      l <- IDXLEN i j ;;
      let cap := (n * l + 1) mod 2 ^ 64 in
      acc <- (if 0 <? l then dup_loop (Z.to_nat n) s i j cap [] else Ok []) ;;
      m <- bput cap acc 0 ;; Ok (Some m)
  end.

(* zt_cstr.c:150-171 *)
Definition zt_cstr_cat (s1 : list Z) (i1 j1 : Z) (s2 : list Z) (i2 j2 : Z) : outcome (list Z) :=
  ' (i1, j1) <- CONVERT s1 i1 j1 ;;
  ' (i2, j2) <- CONVERT s2 i2 j2 ;;
  n1 <- IDXLEN i1 j1 ;;
  n2 <- IDXLEN i2 j2 ;;
  let cap := n1 + n2 + 1 in
  acc <- copy_up (fuel_of i1 j1) s1 i1 j1 cap [] ;;
  acc <- copy_up (fuel_of i2 j2) s2 i2 j2 cap acc ;;
  bput cap acc 0.

(* zt_cstr.c:189-196: first pass, computing the length *)
Fixpoint catv_len (args : list (list Z * Z * Z)) (len : Z) : outcome Z :=
  match args with
  | [] => Ok len
  | (s, i, j) :: r =>
      ' (i, j) <- CONVERT s i j ;; n <- IDXLEN i j ;; catv_len r (len + (n + 1))
  end.
(* zt_cstr.c:203-213: second pass *)
Fixpoint catv_copy (args : list (list Z * Z * Z)) (cap : Z) (acc : list Z) : outcome (list Z) :=
  match args with
  | [] => Ok acc
  | (s, i, j) :: r =>
      ' (i, j) <- CONVERT s i j ;;
      acc <- copy_up (fuel_of i j) s i j cap acc ;; catv_copy r cap acc
  end.
(* zt_cstr.c:176-217.  The variadic list up to the NULL is a list of triples; callers must pass
   the indices as int (the library itself passes ssize_t in zt_cstr_path_append: on x86-64 the
   low 32 bits are read, which is the same number for strings shorter than 2^31). *)
Definition zt_cstr_catv (args : list (list Z * Z * Z)) : outcome (list Z) :=
  len <- catv_len args 0 ;;
  acc <- catv_copy args (len + 1) [] ;;
  bput (len + 1) acc 0.

(* zt_cstr.c:222-237 *)
Definition zt_cstr_reverse (s : list Z) (i j : Z) : outcome (list Z) :=
  ' (i, j) <- CONVERT s i j ;;
  n <- IDXLEN i j ;;
  acc <- copy_down (fuel_of i j) s i j (n + 1) [] ;;
  bput (n + 1) acc 0.

(* zt_cstr.c:246-268: the initialiser lists 0..225; C zero-fills 226..255. *)
Definition map0 : list Z := map Z.of_nat (seq 0 226) ++ repeat 0 30.
(* zt_cstr.c:271-273 *)
Fixpoint map_fill (m from to : list Z) : outcome (list Z) :=
  match from, to with
  | f :: from', t :: to' => map_fill (upd m (Z.to_nat f) t) from' to'
  | [], [] => Ok m
  | _, _ => Abort (* zt_cstr.c:275 *)
  end.
(* zt_cstr.c:284-286 *)
Fixpoint map_copy (fuel : nat) (m s : list Z) (i j cap : Z) (acc : list Z) : outcome (list Z) :=
  if i <=? j then
    match fuel with
    | O => Loop
    | S f => c <- rd s i ;; acc <- bput cap acc (nth (Z.to_nat c) m 0) ;;
             map_copy f m s (i + 1) j cap acc
    end
  else Ok acc.
(* zt_cstr.c:243-292; [None] for NULL pointers *)
Definition zt_cstr_map (s : option (list Z)) (i j : Z) (from to : option (list Z)) :
  outcome (option (list Z)) :=
  m <- match from, to with Some f, Some t => map_fill map0 f t | _, _ => Ok map0 end ;;
  match s with
  | None => Ok None
  | Some s =>
      ' (i, j) <- CONVERT s i j ;;
      n <- IDXLEN i j ;;
      acc <- map_copy (fuel_of i j) m s i j (n + 1) [] ;;
      r <- bput (n + 1) acc 0 ;; Ok (Some r)
  end.

(* zt_cstr.c:298-309 *)
Definition zt_cstr_pos (s : list Z) (i : Z) : outcome Z :=
  let i := IDX i (zlen s) in
  _ <- guard ((0 <=? i) && (i <=? zlen s)) ;; Ok i.
(* zt_cstr.c:314-318 *)
Definition zt_cstr_len (s : list Z) (i j : Z) : outcome Z :=
  ' (i, j) <- CONVERT s i j ;; IDXLEN i j.

(* zt_cstr.c:324-342 *)
Definition zt_cstr_cmp (s1 : list Z) (i1 j1 : Z) (s2 : list Z) (i2 j2 : Z) : outcome Z :=
  ' (i1, j1) <- CONVERT s1 i1 j1 ;;
  ' (i2, j2) <- CONVERT s2 i2 j2 ;;
  p1 <- at_ s1 i1 ;;
  p2 <- at_ s2 i2 ;;
  if j1 - i1 <? j2 - i2 then
    n <- IDXLEN i1 j1 ;;
    let cond := strncmp p1 p2 (Z.to_nat n) in Ok (if cond =? 0 then -1 else cond)
  else if j2 - i2 <? j1 - i1 then
    n <- IDXLEN i2 j2 ;;
    let cond := strncmp p1 p2 (Z.to_nat n) in Ok (if cond =? 0 then 1 else cond)
  else Ok (strncmp p1 p2 (Z.to_nat (j1 - i1))).

(* the scanning loops `for (; i <= j; i++) if (P(s[i])) return i;` *)
Fixpoint scan_up (fuel : nat) (P : Z -> bool) (s : list Z) (i j : Z) : outcome (option Z) :=
  if i <=? j then
    match fuel with
    | O => Loop
    | S f => c <- rd s i ;; if P c then Ok (Some i) else scan_up f P s (i + 1) j
    end
  else Ok None.
(* `for (; j >= i; j--) if (P(s[j])) return j;` *)
Fixpoint scan_down (fuel : nat) (P : Z -> bool) (s : list Z) (i j : Z) : outcome (option Z) :=
  if i <=? j then
    match fuel with
    | O => Loop
    | S f => c <- rd s j ;; if P c then Ok (Some j) else scan_down f P s i (j - 1)
    end
  else Ok None.

(* zt_cstr.c:348-360.  [c] is an int; s[i] is a (signed) char promoted to int. *)
Definition zt_cstr_chr (s : list Z) (i j c : Z) : outcome Z :=
  ' (i, j) <- CONVERT s i j ;;
  r <- scan_up (fuel_of i j) (fun x => schar x =? c) s i j ;;
  Ok (match r with Some k => k | None => 0 end).
(* zt_cstr.c:364-376 *)
Definition zt_cstr_rchr (s : list Z) (i j c : Z) : outcome Z :=
  ' (i, j) <- CONVERT s i j ;;
  r <- scan_down (fuel_of i j) (fun x => schar x =? c) s i j ;;
  Ok (match r with Some k => k | None => 0 end).
(* zt_cstr.c:382-395 *)
Definition zt_cstr_upto (s : list Z) (i j : Z) (set : list Z) : outcome Z :=
  ' (i, j) <- CONVERT s i j ;;
  r <- scan_up (fuel_of i j) (strchr_b set) s i j ;;
  Ok (match r with Some k => k | None => -1 end).
(* zt_cstr.c:401-413 *)
Definition zt_cstr_rupto (s : list Z) (i j : Z) (set : list Z) : outcome Z :=
  ' (i, j) <- CONVERT s i j ;;
  r <- scan_down (fuel_of i j) (strchr_b set) s i j ;;
  Ok (match r with Some k => k | None => -1 end).
(* zt_cstr.c:485-501 *)
Definition zt_cstr_any (s : list Z) (i j : Z) (set : list Z) : outcome Z :=
  ' (i, j) <- CONVERT s i j ;;
  _ <- guard ((0 <=? i) && (i <=? j)) ;;
  r <- scan_up (fuel_of i j) (fun c => negb (c =? 0) && strchr_b set c) s i j ;;
  Ok (match r with Some k => k | None => -1 end).
(* zt_cstr.c:507-525 *)
Definition zt_cstr_rany (s : list Z) (i j : Z) (set : list Z) : outcome Z :=
  ' (i, j) <- CONVERT s i j ;;
  _ <- guard ((0 <=? i) && (i <=? j)) ;;
  let orig := i in
  r <- scan_down (fuel_of i j) (fun c => negb (c =? 0) && strchr_b set c) s i j ;;
  Ok (match r with Some k => k - orig | None => -1 end).

(* zt_cstr.c:437-441: `for (; i + len <= j + 1; i++) if (strncmp(&s[i], str, len) == 0) return i;` *)
Fixpoint find_loop (fuel : nat) (s str : list Z) (i j : Z) : outcome Z :=
  if i + zlen str <=? j + 1 then
    match fuel with
    | O => Loop
    | S f => p <- at_ s i ;;
             if strncmp p str (length str) =? 0 then Ok i else find_loop f s str (i + 1) j
    end
  else Ok (-1).
(* zt_cstr.c:418-444 *)
Definition zt_cstr_find (s : list Z) (i j : Z) (str : list Z) : outcome Z :=
  ' (i, j) <- CONVERT s i j ;;
  match str with
  | [] => Ok (-1)
  | [c] =>
      r <- scan_up (fuel_of i j) (fun x => x =? c) s i j ;;
      match r with
      | Some k => Ok k
      | None => find_loop 0 s str (j + 1) j (* i was advanced to j + 1 *)
      end
  | _ => find_loop (fuel_of i j) s str i j
  end.
(* zt_cstr.c:472-476: `for (offt = j - len + 1; offt >= i; offt--)` *)
Fixpoint rfind_loop (fuel : nat) (s str : list Z) (i offt : Z) : outcome Z :=
  if i <=? offt then
    match fuel with
    | O => Loop
    | S f => p <- at_ s offt ;;
             if strncmp p str (length str) =? 0 then Ok offt else rfind_loop f s str i (offt - 1)
    end
  else Ok (-1).
(* zt_cstr.c:450-479 *)
Definition zt_cstr_rfind (s : list Z) (i j : Z) (str : list Z) : outcome Z :=
  ' (i, j) <- CONVERT s i j ;;
  match str with
  | [] => Ok (-1)
  | [c] =>
      r <- scan_down (fuel_of i j) (fun x => x =? c) s i j ;;
      match r with
      | Some k => Ok k
      | None => rfind_loop 0 s str i (i - 1) (* j was lowered to i - 1; offt = j - 1 + 1 *)
      end
  | _ => rfind_loop (fuel_of i j) s str i (j - zlen str + 1)
  end.

(** In-place functions: the argument is the whole memory block [m] holding the string. *)
(* m[i] = c *)
Definition mset (m : list Z) (i c : Z) : outcome (list Z) :=
  if (0 <=? i) && (i <? zlen m) then Ok (upd m (Z.to_nat i) c) else UB.

(* zt_cstr.c:528-540 *)
Definition zt_cstr_chomp (m : list Z) : outcome (list Z) :=
  let i := zlen (cstring m) in
  if i =? 0 then UB (* str[-1] *)
  else if nth (Z.to_nat (i - 1)) m 0 =? 10 then mset m (i - 1) 0 else Ok m.

(* zt_cstr.c:570-584: `for (i = len-1; i > 0; i--) if (strspn(&s[i], accept) == 0) return len-i-1;` *)
Fixpoint rspn_loop (n : nat) (s accept : list Z) : Z :=
  match n with
  | O => zlen s
  | S n' => (* i = S n' *)
      if strspn (skipn n s) accept =? 0 then zlen s - Z.of_nat n - 1 else rspn_loop n' s accept
  end.
Definition zt_cstr_rspn (s accept : list Z) : Z := rspn_loop (length s - 1) s accept.
(* zt_cstr.c:586-600 *)
Fixpoint rcspn_loop (n : nat) (s reject : list Z) : Z :=
  match n with
  | O => zlen s
  | S n' => if strcspn (skipn n s) reject =? 0 then Z.of_nat n else rcspn_loop n' s reject
  end.
Definition zt_cstr_rcspn (s reject : list Z) : Z := rcspn_loop (length s - 1) s reject.

(* zt.h:105 *)
Definition WHITESPACE : list Z := [32; 9].
(* zt_cstr.c:543-568.  memmove(str, &str[len], strlen(str)-len+1): the bytes behind keep their
   old values. *)
Definition zt_cstr_strip (m : list Z) : outcome (list Z) :=
  let s := cstring m in
  let len := strspn s WHITESPACE in
  let s1 := skipn (Z.to_nat len) s in
  let m := s1 ++ 0 :: skipn (length s1 + 1) m in
  let nl := inset s1 10 in
  let len := zlen s1 - zt_cstr_rspn s1 (WHITESPACE ++ [10]) in
  if len =? 0 then Ok m
  else if nl then m <- mset m len 10 ;; mset m (len + 1) 0
  else mset m len 0.

(* zt.h:118 *)
Definition PATH_SEPERATOR : list Z := [47].
Definition NUL : list Z := [0].

(* memcpy(to, src, n) *)
Definition memcpy (to src : list Z) (n : Z) : outcome (list Z) :=
  if (n <=? zlen to) && (n <=? zlen src) then
    Ok (firstn (Z.to_nat n) src ++ skipn (Z.to_nat n) to) else UB.
(* zt_cstr.c:885-896; [to] is the destination block (of at least the announced size).
   Result: count copied and new destination. *)
Definition zt_cstr_copy (from : list Z) (i j : Z) (to : list Z) (len : Z) : outcome (Z * list Z) :=
  ' (i, j) <- CONVERT from i j ;;
  flen <- IDXLEN i j ;;
  let min := Z.min flen len in
  to <- memcpy to (skipn (Z.to_nat i) (from ++ NUL)) min ;;
  Ok (min, to).

(* memset(npath, 0, len) *)
Definition memset0 (m : list Z) (len : Z) : outcome (list Z) :=
  if len <=? zlen m then Ok (repeat 0 (Z.to_nat len) ++ skipn (Z.to_nat len) m) else UB.

(* zt_cstr.c:602-629 *)
Definition zt_cstr_basename (npath : list Z) (len : Z) (path : list Z) (suffix : option (list Z)) :
  outcome (list Z) :=
  npath <- memset0 npath len ;;
  start <- zt_cstr_rfind path 0 (-1) PATH_SEPERATOR ;;
  let start := if negb (start =? -1) then start + zlen PATH_SEPERATOR else 0 in
  end_ <- match suffix with
          | Some sfx =>
              e <- zt_cstr_rfind path start (-1) sfx ;;
              if 0 <? e then c <- rd path e ;; Ok (if c =? 46 then e - 1 else e) else Ok e
          | None => Ok (-1)
          end ;;
  ' (_, npath) <- zt_cstr_copy path start end_ npath len ;;
  Ok npath.

(* zt_cstr.c:632-658 *)
Definition zt_cstr_dirname (npath : list Z) (len : Z) (path : list Z) : outcome (list Z) :=
  npath <- memset0 npath len ;;
  tail <- at_ path (zlen path - zlen PATH_SEPERATOR) ;;
  let end_ := if strncmp tail PATH_SEPERATOR 2 =? 0 then -1 - zlen PATH_SEPERATOR else -1 in
  e <- zt_cstr_rfind path 0 end_ PATH_SEPERATOR ;;
  if e =? -1 then
    ' (_, npath) <- zt_cstr_copy [46] 0 (-1) npath len ;; Ok npath
  else
    ' (_, npath) <- zt_cstr_copy path 0 (e - 1) npath len ;; Ok npath.

(* zt_cstr.c:674-676 *)
Fixpoint trail_loop (n : nat) (path1 : list Z) : Z := (* y = n *)
  match n with
  | O => 0
  | S n' => if strncmp (skipn n path1) PATH_SEPERATOR 1 =? 0 then trail_loop n' path1 else Z.of_nat n
  end.
(* zt_cstr.c:677-679 *)
Fixpoint lead_loop (path2 : list Z) : Z :=
  match path2 with
  | c :: r => if c =? 47 then 1 + lead_loop r else 0
  | [] => 0
  end.
(* zt_cstr.c:661-685 *)
Definition zt_cstr_path_append (path1 path2 : list Z) : outcome (list Z) :=
  let y := match path1 with [] => -1 | _ => trail_loop (length path1 - 1) path1 end in
  let x := lead_loop path2 in
  zt_cstr_catv [(path1, 0, y); (PATH_SEPERATOR, 0, -1); (path2, x, -1)].

(* zt_cstr.c:687-698 *)
Definition zt_cstr_abspath (path : list Z) : bool :=
  (strncmp path PATH_SEPERATOR 1 =? 0) ||
  match path with
  | c :: r => (c =? 46) && (strncmp r PATH_SEPERATOR 1 =? 0)
  | [] => false
  end.

(** Tokenisers *)
(* strtok_r on the private copy: [rest] is the text from the saved pointer on.  Returns the token
   and the text behind it. *)
Definition strtok (rest delim : list Z) : option (list Z * list Z) :=
  let rest := skipn (Z.to_nat (strspn rest delim)) rest in
  match rest with
  | [] => None
  | _ => let n := Z.to_nat (strcspn rest delim) in
         Some (firstn n rest, skipn (n + 1) rest)
  end.
(* zt_cstr.c:908-936: the token list handed to zt_ptr_array_add *)
Fixpoint split_loop (fuel : nat) (rest delim : list Z) : outcome (list (list Z)) :=
  match strtok rest delim with
  | None => Ok []
  | Some (tok, rest') =>
      match fuel with
      | O => Loop
      | S f => r <- split_loop f rest' delim ;; Ok (tok :: r)
      end
  end.
Definition zt_cstr_split (str delim : list Z) : outcome (list (list Z)) :=
  split_loop (S (length str)) str delim.

(* zt_cstr.c:938-967: strings added, in order.  [pos] is the text from cut_tok on; [delim] is the
   byte searched for by strchr (int converted to char). *)
Fixpoint index_of (s : list Z) (c : Z) : option nat :=
  match s with
  | [] => None
  | x :: r => if x =? c then Some O else option_map S (index_of r c)
  end.
Fixpoint cut_loop (fuel : nat) (pos : list Z) (delim : Z) (keep : bool) : outcome (list (list Z)) :=
  if delim =? 0 then UB (* strchr finds the terminator; cut_tok++ leaves the block *)
  else match index_of pos delim with
  | None => Ok []
  | Some k =>
      let rest := skipn (k + 1) pos in
      match rest with
      | [] => Ok []
      | _ =>
        match fuel with
        | O => Loop
        | S f => r <- cut_loop f rest delim keep ;;
                 Ok ((if keep then delim :: rest else rest) :: r)
        end
      end
  end.
Definition zt_cstr_cut (str : list Z) (delim : Z) (keep : bool) : outcome (list (list Z)) :=
  cut_loop (S (length str)) str delim keep.

(* last occurrence (strrchr) *)
Fixpoint rindex_of (s : list Z) (c : Z) : option nat :=
  match s with
  | [] => None
  | x :: r => match rindex_of r c with
              | Some k => Some (S k)
              | None => if x =? c then Some O else None
              end
  end.
(* zt_cstr.c:986-999 *)
Fixpoint tok_loop (fuel : nat) (s : list Z) (delim : Z) : outcome (list (list Z)) :=
  match rindex_of s delim with
  | Some (S k) =>
      match fuel with
      | O => Loop
      | S f => r <- tok_loop f (firstn (S k) s) delim ;; Ok (s :: r)
      end
  | _ => (* first character, or NULL *) Ok [s] (* zt_cstr.c:1001 *)
  end.
(* zt_cstr.c:969-1005 for delim other than NUL; str[strlen(str)-1] == delim compares a signed char
   with the int, so delim is taken in 1..127 here. *)
Definition zt_cstr_tok (str : list Z) (delim : Z) : outcome (list (list Z)) :=
  match rev str with
  | [] => UB (* str[-1] *)
  | c :: r => let s := if schar c =? delim then rev r else str in
              tok_loop (S (length str)) s delim
  end.

(** Hexadecimal *)
(* zt_internal.h:82 *)
Definition HEX_DIGITS : list Z := [48;49;50;51;52;53;54;55;56;57;97;98;99;100;101;102].
(* zt_cstr.c:806-819; hex == NULL is [None] (count only).  [n] is the loop counter. *)
Fixpoint b2h_loop (data : list Z) (n : Z) (dlen hlen : Z) (fuel : nat) (hex : option (list Z)) :
  outcome (Z * option (list Z)) :=
  if (n <? dlen) && (n * 2 <? hlen) then
    match fuel with
    | O => Loop
    | S f =>
        _ <- safe (n <? zlen data) ;;
        let c := nth (Z.to_nat n) data 0 in
        hex <- match hex with
               | None => Ok None
               | Some h =>
                   h <- mset h (2 * n) (nth (Z.to_nat (Z.land (Z.shiftr c 4) 15)) HEX_DIGITS 0) ;;
                   h <- mset h (2 * n + 1) (nth (Z.to_nat (Z.land c 15)) HEX_DIGITS 0) ;;
                   Ok (Some h)
               end ;;
        b2h_loop data (n + 1) dlen hlen f hex
    end
  else Ok (n * 2, hex).
Definition zt_binary_to_hex (data : list Z) (dlen : Z) (hex : option (list Z)) (hlen : Z) :=
  b2h_loop data 0 dlen hlen (Z.to_nat dlen) hex.

(* zt_cstr.c:821-835 *)
Definition hex_to_char (c : Z) : Z :=
  if (48 <=? c) && (c <=? 57) then c - 48
  else if (65 <=? c) && (c <=? 70) then c - 55
  else if (97 <=? c) && (c <=? 102) then c - 87
  else -1.
(* a byte of a memory block that need not be NUL terminated *)
Definition mrd (m : list Z) (i : Z) : outcome Z :=
  if (0 <=? i) && (i <? zlen m) then Ok (nth (Z.to_nat i) m 0) else UB.
(* zt_cstr.c:850-883.  [hex] is the whole input block; [n], [y] the counters, hex pointer = [n]
   (the pointer and n advance together).  [dlen] is already SIZE_MAX when data is NULL. *)
Fixpoint h2b_loop (fuel : nat) (hex : list Z) (n hlen : Z) (data : option (list Z)) (y dlen : Z) :
  outcome (Z * option (list Z)) :=
  if negb (n <? hlen) then Ok (y, data)
  else
    c0 <- mrd hex n ;;
    if (c0 =? 0) || negb (y <? dlen) then Ok (y, data)
    else match fuel with
    | O => Loop
    | S f =>
        let c := hex_to_char c0 in
        if c =? -1 then Ok (0, data)
        else
          c1 <- mrd hex (n + 1) ;;
          let c2 := hex_to_char c1 in
          if c2 =? -1 then Ok (0, data)
          else
            let cc := Z.lor (Z.shiftl c 4) (Z.land c2 15) in
            data <- match data with
                    | None => Ok None
                    | Some d => d <- mset d y cc ;; Ok (Some d)
                    end ;;
            h2b_loop f hex (n + 2) hlen data (y + 1) dlen
    end.
Definition zt_hex_to_binary (hex : list Z) (hlen : Z) (data : option (list Z)) (dlen : Z) :=
  let dlen := match data with None => 2 ^ 64 - 1 | Some _ => dlen end in
  h2b_loop (length hex) hex 0 hlen data 0 dlen.

(** itoa *)
(* zt_cstr.c:1041-1044, fuel: 4 rounds are enough for an int *)
Fixpoint idl_loop (fuel : nat) (value result : Z) : outcome (Z * Z) :=
  if (1000 <=? value) || (value <=? -1000) then
    match fuel with
    | O => Loop
    | S f => idl_loop f (Z.quot value 1000) (result + 3)
    end
  else Ok (value, result).
(* zt_cstr.c:1036-1055 *)
Definition zt_cstr_int_display_len (value : Z) : outcome Z :=
  let result := if 0 <=? value then 1 else 2 in
  ' (value, result) <- idl_loop 4 value result ;;
  if (100 <=? value) || (value <=? -100) then Ok (result + 2)
  else if (10 <=? value) || (value <=? -10) then Ok (result + 1)
  else Ok result.
(* zt_cstr.c:1007 *)
Definition itoa_integers : list Z :=
  [57;56;55;54;53;52;51;50;49;48;49;50;51;52;53;54;55;56;57].
(* zt_cstr.c:1026-1030 *)
Fixpoint itoa_loop (fuel : nat) (s : list Z) (loc value : Z) : outcome (list Z) :=
  s <- mset s loc (nth (Z.to_nat (9 + Z.rem value 10)) itoa_integers 0) ;;
  let value := Z.quot value 10 in
  if value =? 0 then Ok s
  else match fuel with O => Loop | S f => itoa_loop f s (loc - 1) value end.
(* zt_cstr.c:1009-1033; [s] is the memory behind the pointer, [None] for NULL. *)
Definition zt_cstr_itoa (s : option (list Z)) (value offset bufsiz : Z) :
  outcome (Z * option (list Z)) :=
  n <- zt_cstr_int_display_len value ;;
  let loc := offset + n in
  match s with
  | None => Ok (-1, None)
  | Some m =>
      if bufsiz <? loc then Ok (-1, Some m)
      else
        m <- (if value <? 0 then mset m offset 45 else Ok m) ;;
        m <- mset m loc 0 ;;
        m <- itoa_loop 10 m (loc - 1) value ;;
        Ok (loc, Some m)
  end.
