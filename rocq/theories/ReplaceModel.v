(** Model of src/libzt/replace: asprintf.c, basename.c, vsyslog.c (compiled where the C library lacks these functions).
    The heap is the list of the blocks in use.  Parameters: whether malloc and realloc find memory, what a fresh block holds, what the C library's printf makes of the
    format and the arguments (it may differ between two calls, or fail), the system's error texts.
    Simplifications: a vsnprintf that fails leaves the buffer unchanged; fbuf and obuf of vsyslog are found by zt_calloc (it stops the program otherwise). *)
From Verif Require Import Prelude CstrModel CstrSpec LogModel.
Local Open Scope Z_scope.

Record mem := mkmem { blocks : list (nat * list Z); next : nat }.
Definition INT_MAX : Z := 2147483647.
(** malloc of the C library *)
Definition fresh (junk : nat -> Z) (n : Z) : list Z := map junk (seq 0 (Z.to_nat n)).
Definition malloc (junk : nat -> Z) (m : mem) (n : Z) (gives : bool) : option nat * mem :=
  if gives then (Some (next m), mkmem ((next m, fresh junk n) :: blocks m) (S (next m))) else (None, m).
Definition block_of (m : mem) (p : nat) : option (list Z) :=
  match find (fun b => (fst b =? p)%nat) (blocks m) with Some b => Some (snd b) | None => None end.
Definition without (m : mem) (p : nat) : list (nat * list Z) := filter (fun b => negb (fst b =? p)%nat) (blocks m).
Definition free (m : mem) (p : nat) : outcome mem :=
  match block_of m p with Some _ => Ok (mkmem (without m p) (next m)) | None => UB end.
(** realloc: the new block is another one (the old address may not be used any more in either case) *)
Definition realloc (junk : nat -> Z) (m : mem) (p : nat) (n : Z) (gives : bool) : outcome (option nat * mem) :=
  match block_of m p with
  | None => UB
  | Some b => if gives then Ok (Some (next m), mkmem ((next m, firstn (Z.to_nat n) b ++ fresh junk (n - zlen b)) :: without m p) (S (next m))) else Ok (None, m)
  end.
(** vsnprintf(block, size, ...): [t] is the text printed, None an error; a text of more than INT_MAX characters is an error, too *)
Definition vsnprintf (m : mem) (p : nat) (size : Z) (t : option (list Z)) : outcome (Z * mem) :=
  match block_of m p with
  | None => UB
  | Some b =>
      match t with
      | None => Ok (-1, m)
      | Some t =>
          if INT_MAX <? zlen t then Ok (-1, m) else
          let w := firstn (Z.to_nat (size - 1)) t ++ [0] in
          if zlen w <=? zlen b then Ok (zlen t, mkmem ((p, w ++ skipn (length w) b) :: without m p) (next m)) else UB
      end
  end.

(** what the caller sees: the result, *str, whether errno was set to ENOMEM, the heap *)
Record answer := mkanswer { ret : Z; str : option nat; enomem : bool; heap : mem }.
Definition INIT_SZ : Z := 128.                       (* asprintf.c:40 *)
(* asprintf.c:80-84 *)
Definition fail (m : mem) : answer := mkanswer (-1) None true m.
(* asprintf.c:42-85 vasprintf; g1, g2: malloc and realloc find memory; t1, t2: what the two calls of vsnprintf print *)
Definition vasprintf (junk : nat -> Z) (m : mem) (g1 g2 : bool) (t1 t2 : option (list Z)) : outcome answer :=
  let '(s, m) := malloc junk m INIT_SZ g1 in                                (* 51 *)
  match s with
  | None => Ok (fail m)
  | Some s =>
      ' (r, m) <- vsnprintf m s INIT_SZ t1 ;;                               (* 54 *)
      if (0 <=? r) && (r <? INIT_SZ) then Ok (mkanswer r (Some s) false m)  (* 55-56 *)
      else if (r =? INT_MAX) || (r <? 0) then m <- free m s ;; Ok (fail m)  (* 57-59 *)
      else
        let len := r + 1 in                                                 (* 61 *)
        ' (n, m) <- realloc junk m s len g2 ;;                              (* 62 *)
        match n with
        | None => m <- free m s ;; Ok (fail m)
        | Some n =>
            ' (r, m) <- vsnprintf m n len t2 ;;                             (* 68 *)
            if (0 <=? r) && (r <? len) then Ok (mkanswer r (Some n) false m)
            else m <- free m n ;; Ok (fail m)                               (* 72-73 *)
        end
  end.
(* asprintf.c:89-100 asprintf: *str is set to NULL first *)
Definition asprintf := vasprintf.

(** strrchr of the C library: the part of the string from the last occurrence on *)
Fixpoint strrchr (s : list Z) (c : Z) : option (list Z) :=
  match s with
  | [] => None
  | x :: r => match strrchr r c with Some t => Some t | None => if x =? c then Some s else None end
  end.
(* basename.c:47-53 *)
Definition basename (path : list Z) : list Z := match strrchr path 47 with Some t => tl t | None => path end.

(** ** vsyslog.c *)
(** write characters at a position of a buffer *)
Definition put (buf : list Z) (i : Z) (t : list Z) : outcome (list Z) :=
  if (0 <=? i) && (i + zlen t <=? zlen buf) then Ok (firstn (Z.to_nat i) buf ++ t ++ skipn (Z.to_nat i + length t) buf) else UB.
(* "Unknown Error " *)
Definition unknown_error : list Z := [85;110;107;110;111;119;110;32;69;114;114;111;114;32].
(* vsyslog.c:34-38 *)
Definition error_text (errno nerr : Z) (errlist : Z -> list Z) : list Z :=
  if (errno <? nerr) && (0 <? errno) then errlist errno else unknown_error ++ decimal errno.
(* vsyslog.c:25-47 percent_m: bp is an offset in obuf, [rest] what cp points to *)
Fixpoint percent_m (err : list Z) (obuf : list Z) (bp len : Z) (rest : list Z) {struct rest} : outcome (list Z) :=
  if bp <? len then
    match rest with
    | [] => put obuf bp [0]
    | c :: r =>
        obuf <- put obuf bp [c] ;;
        match r with
        | d :: r2 =>
            if (c =? 37) && (d =? 109) then
              obuf <- put obuf bp (err ++ [0]) ;; percent_m err obuf (bp + zlen err) len r2
            else percent_m err obuf (bp + 1) len r
        | [] => percent_m err obuf (bp + 1) len r
        end
    end
  else Ok obuf.
(* vsyslog.c:49-78 vsyslog: what is handed to syslog; [render f] is what vsprintf makes of the format f and the arguments *)
Definition vsyslog (err : list Z) (render : list Z -> list Z) (format : list Z) : outcome (list Z) :=
  let len := zlen format in
  let flen := len * 2 in
  let olen := flen * 3 in
  _ <- safe (olen + 1 <=? INT_MAX) ;;
  fbuf <- percent_m err (repeat 0 (Z.to_nat (flen + 1))) 0 flen format ;;
  obuf <- put (repeat 0 (Z.to_nat (olen + 1))) 0 (render (cstring fbuf) ++ [0]) ;;
  Ok (cstring obuf).
