(** Model of src/libzt/zt_uuid.c.  A UUID is the list of its 16 bytes.  An input string is the memory block it is in (the contents, a NUL, possibly
    more).  Simplifications: allocation succeeds; powl(62, k) is exact for k <= 10 (62^10 = 2^10 * 31^10 and 31^10 < 2^53); calls of zt_uuid4 in
    different threads do not overlap (the function keeps its state pointer in an unprotected static: see UraceModel.v). *)
From Verif Require Import Prelude CstrModel Sha1Model RandModel RandProofs.
Open Scope Z_scope.

(* zt_uuid.h:8-13 *)
Definition UUID_STR_LEN := 36.
Definition UUID_SHORT_STR_LEN := 32.
Definition UUID_BASE62_STR_LEN := 22.
Definition UUID_ALEN := 16.
(* zt_uuid.h:15-20; any other value of the enum is [other] *)
Inductive fmt := std_fmt | short_fmt | base62_fmt | base62_hashable_fmt | other.
(* zt_uuid.c:22 *)
Definition SEG : Z := 11.
(* zt_uuid.c:23-26: '0'..'9' 'a'..'z' 'A'..'Z' and the terminator *)
Definition base62_alphabet : list Z := map (fun i => 48 + Z.of_nat i) (seq 0 10) ++ map (fun i => 97 + Z.of_nat i) (seq 0 26) ++ map (fun i => 65 + Z.of_nat i) (seq 0 26) ++ [0].

(* zt_uuid.c:85-88, 120-123: version and variant *)
Definition stamp (ver : Z) (b : list Z) : list Z :=
  let b := upd b 6 (Z.lor (Z.land (nth 6 b 0) 0x0F) (Z.shiftl ver 4)) in
  upd b 8 (Z.lor (Z.land (nth 8 b 0) 0x3F) 0x80).

(** zt_uuid4: the threads' contexts (thread-specific data, calloc'ed on first use) and the static flag *)
Record world := mkworld { tls : nat -> option rstate; rand_initialized : bool }.
Definition set_tls (w : world) (t : nat) (s : rstate) (f : bool) : world := mkworld (fun u => if Nat.eqb u t then Some s else tls w u) f.
(* zt_uuid.c:44-63 zt_uuid4_get_ctx *)
Definition get_ctx (w : world) (t : nat) : rstate := match tls w t with Some s => s | None => mkr (repeat 0 624) 0 0 end.
(* the four bytes of a uint32_t in memory (little endian) *)
Definition le4 (v : Z) : list Z := [v mod 256; v / 256 mod 256; v / 65536 mod 256; v / 16777216 mod 256].
(* zt_uuid.c:65-91 zt_uuid4 called in thread t when time(NULL) is now *)
Definition uuid4 (w : world) (t : nat) (now : Z) : outcome (list Z * world) :=
  let s := get_ctx w t in
  s <- (if rand_initialized w then Ok s else srandom s now) ;;
  ' (v1, s) <- uint32 now s ;; ' (v2, s) <- uint32 now s ;; ' (v3, s) <- uint32 now s ;; ' (v4, s) <- uint32 now s ;;
  Ok (stamp 4 (le4 v1 ++ le4 v2 ++ le4 v3 ++ le4 v4), set_tls w t s true).

(* zt_uuid.c:16-19 *)
Inductive ns := DNS | URL | OID | X500 | unknown_ns.
Definition ns_tail : list Z := [0x9d; 0xad; 0x11; 0xd1; 0x80; 0xb4; 0x00; 0xc0; 0x4f; 0xd4; 0x30; 0xc8].
Definition ns_bytes (n : ns) : option (list Z) :=
  match n with
  | DNS => Some ([0x6b; 0xa7; 0xb8; 0x10] ++ ns_tail) | URL => Some ([0x6b; 0xa7; 0xb8; 0x11] ++ ns_tail)
  | OID => Some ([0x6b; 0xa7; 0xb8; 0x12] ++ ns_tail) | X500 => Some ([0x6b; 0xa7; 0xb8; 0x14] ++ ns_tail) | unknown_ns => None
  end.
(* zt_uuid.c:93-126 zt_uuid5: None is the return value -1; also the caller's value as left behind *)
Definition uuid5 (junk value : list Z) (vlen : Z) (n : ns) : outcome (option (list Z) * list Z) :=
  let c := sha1_init junk in
  match ns_bytes n with
  | None => Ok (None, value)
  | Some b =>
      ' (c, _) <- sha1_update c b UUID_ALEN ;;
      ' (c, value) <- sha1_update c value vlen ;;
      ' (d, _) <- sha1_finalize c ;;
      Ok (Some (stamp 5 (firstn 16 d)), value)
  end.

(* zt_uuid.c:135-157 _flagToSize *)
Definition flagToSize (f : fmt) : outcome Z :=
  match f with
  | std_fmt => Ok (UUID_STR_LEN + 1) | short_fmt => Ok (UUID_SHORT_STR_LEN + 1) | base62_hashable_fmt | base62_fmt => Ok (UUID_BASE62_STR_LEN + 1)
  | other => Abort
  end.

(* zt_uuid.c:484-489; i counts down *)
Fixpoint encode_loop (fuel : nat) (v : Z) (i : nat) (out : list Z) {struct fuel} : outcome (nat * list Z) :=
  if v =? 0 then Ok (i, out)
  else match fuel with
  | O => Loop
  | S f => match i with
           | O => UB
           | S i => out <- mset out (Z.of_nat i) (nth (Z.to_nat (v mod 62)) base62_alphabet 0) ;; encode_loop f (v / 62) i out
           end
  end.
(* zt_uuid.c:492-494 *)
Fixpoint zero_fill (i : nat) (out : list Z) {struct i} : outcome (list Z) :=
  match i with O => Ok out | S i => out <- mset out (Z.of_nat i) 48 ;; zero_fill i out end.
(* zt_uuid.c:475-501 base62_encode_int64 with olen = 11 (its only callers); out is the memory from the pointer on *)
Definition encode62 (v : Z) (out : list Z) : outcome (Z * list Z) :=
  ' (i, out) <- encode_loop 64 v 11 out ;; out' <- zero_fill i out ;; Ok (Z.of_nat i, out').
(* zt_uuid.c:513-529 *)
Fixpoint decode_loop (n : nat) (inp : list Z) (i tlen v : Z) {struct n} : outcome (option Z) :=
  match n with
  | O => Ok (Some v)
  | S n =>
      c <- mrd inp i ;;
      let r := if (48 <=? c) && (c <=? 57) then Some (c - 48) else if (97 <=? c) && (c <=? 122) then Some (c - (97 - 10)) else if (65 <=? c) && (c <=? 90) then Some (c - (65 - 36)) else None in
      match r with None => Ok None | Some d => decode_loop n inp (i + 1) tlen ((v + d * 62 ^ (tlen - i - 1)) mod 2 ^ 64) end
  end.
(* zt_uuid.c:503-533 base62_decode_int64: None is -1 *)
Definition decode62 (inp : list Z) (ilen : Z) : outcome (option Z) :=
  let tlen := if ilen >? SEG then SEG else ilen in decode_loop (Z.to_nat tlen) inp 0 tlen 0.

(* zt_uuid.c:195-199: eight bytes, most significant first *)
Definition join8 (b : list Z) : Z := fold_left (fun v i => Z.lor v (Z.shiftl (nth i b 0) (Z.of_nat (7 - i) * 8))) (seq 0 8) 0.
(* zt_uuid.c:385-389 *)
Definition split8 (v : Z) : list Z := map (fun i => Z.land (Z.shiftr v (Z.of_nat (7 - i) * 8)) 0xFF) (seq 0 8).

(* snprintf(dst, size, ...) of a text without NULs *)
Definition snprintf (dst : list Z) (size : Z) (text : list Z) : outcome (list Z) :=
  if size <=? 0 then Ok dst else
  let t := firstn (Z.to_nat (size - 1)) text ++ [0] in
  if zlen t <=? zlen dst then Ok (t ++ skipn (length t) dst) else UB.
(* the %8.8s-... format of zt_uuid.c:228 applied at the offsets of zt_uuid.c:232-237 *)
Definition sub (l : list Z) (i n : nat) : list Z := firstn n (skipn i l).
Definition layout (f : fmt) (hex : list Z) : list Z :=
  match f with
  | std_fmt => sub hex 0 8 ++ [45] ++ sub hex 8 4 ++ [45] ++ sub hex 12 4 ++ [45] ++ sub hex 16 4 ++ [45] ++ sub hex 20 12
  | _ => sub hex 0 8 ++ sub hex 8 4 ++ sub hex 12 4 ++ sub hex 16 4 ++ sub hex 20 12
  end.
(* zt_uuid.c:180-244 _zt_uuid_fillstr: return value and the buffer; t_uuids and uuids_hex start as junk (zeros here: every byte is written before use) *)
Definition fillstr_ (uuid : list Z) (uuids : list Z) (size : Z) (f : fmt) : outcome (Z * list Z) :=
  match f with
  | base62_fmt | base62_hashable_fmt =>
      _ <- guard (size <=? UUID_BASE62_STR_LEN + 1) ;;
      let v1 := join8 (firstn 8 uuid) in
      let v2 := join8 (skipn 8 uuid) in
      ' (ok1, uuids) <- (match f with
        | base62_hashable_fmt =>
            ' (ok1, t) <- encode62 v1 (repeat 0 11) ;;
            if zlen uuids <? SEG then UB else Ok (ok1, rev t ++ skipn 11 uuids)
        | _ => encode62 v1 uuids
        end) ;;
      ' (ok2, tl) <- encode62 v2 (skipn 11 uuids) ;;
      let uuids := firstn 11 uuids ++ tl in
      if (0 <=? ok1) && (0 <=? ok2) then u <- mset uuids UUID_BASE62_STR_LEN 0 ;; Ok (UUID_BASE62_STR_LEN, u) else Ok (-1, uuids)
  | std_fmt | short_fmt =>
      ' (_, hex) <- zt_binary_to_hex uuid UUID_ALEN (Some (repeat 0 32)) UUID_SHORT_STR_LEN ;;
      hex <- match hex with Some h => Ok h | None => UB end ;;
      let text := layout f hex in
      u <- snprintf uuids size text ;;
      _ <- guard (match f with std_fmt => zlen text =? UUID_STR_LEN | _ => zlen text =? UUID_SHORT_STR_LEN end) ;;
      Ok (zlen text, u)
  | other => Abort
  end.
(* zt_uuid.c:265-293 zt_uuid_tostr, non-NULL arguments *)
Definition tostr (uuid : list Z) (f : fmt) : outcome (Z * option (list Z)) :=
  sz <- flagToSize f ;;
  ' (r, u) <- fillstr_ uuid (repeat 0 (Z.to_nat sz)) sz f ;;
  if r <? 0 then Ok (r, None) else Ok (r, Some u).
(* zt_uuid.c:317-331 zt_uuid_fillstr: return value, *uuids_size and the buffer; NULL arguments are None *)
Definition fillstr (uuid : option (list Z)) (uuids : option (list Z)) (size : Z) (f : fmt) : outcome (Z * Z * option (list Z)) :=
  req <- flagToSize f ;;
  match uuid, uuids with
  | Some u, Some b => if size <? req then Ok (0, req, uuids) else ' (r, b) <- fillstr_ u b size f ;; Ok (r, size, Some b)
  | _, _ => Ok (0, req, uuids)
  end.

(** sscanf(s, "%8s-%4s-%4s-%4s-%12s"): each %ns skips white space and stores up to n characters and a NUL; stops at the first mismatch *)
Definition isspace (c : Z) : bool := (c =? 32) || ((9 <=? c) && (c <=? 13)).
Fixpoint skip_ws (s : list Z) : list Z := match s with c :: r => if isspace c then skip_ws r else s | [] => [] end.
Fixpoint word (n : nat) (s : list Z) {struct n} : list Z * list Z :=
  match n, s with
  | S n, c :: r => if isspace c then ([], s) else let '(w, t) := word n r in (c :: w, t)
  | _, _ => ([], s)
  end.
(* stores [w] and a NUL at [off] in the partly initialised buffer *)
Fixpoint poke (b : list (option Z)) (off : nat) (w : list Z) {struct w} : list (option Z) :=
  match w with [] => upd b off (Some 0) | c :: w => poke (upd b off (Some c)) (S off) w end.
Fixpoint scan (fields : list (nat * nat)) (s : list Z) (b : list (option Z)) {struct fields} : list (option Z) :=
  match fields with
  | [] => b
  | (n, off) :: r =>
      let '(w, t) := word n (skip_ws s) in
      match w with
      | [] => b
      | _ => let b := poke b off w in
             match r with [] => b | _ => match t with 45 :: t => scan r t b | _ => b end end
      end
  end.
Definition std_fields : list (nat * nat) := [(8, 0); (4, 8); (4, 12); (4, 16); (12, 20)]%nat.
Fixpoint known (b : list (option Z)) : list Z := match b with Some c :: r => c :: known r | _ => [] end.

(* zt_uuid.c:334-397 zt_uuid_fromstr: return value and the uuid; m is the memory of the string *)
Definition fromstr (m : list Z) (uuid : list Z) (f : fmt) : outcome (Z * list Z) :=
  let hexto h := ' (_, u) <- zt_hex_to_binary h UUID_SHORT_STR_LEN (Some uuid) UUID_ALEN ;; match u with Some u => Ok (0, u) | None => UB end in
  match f with
  | std_fmt =>
      if negb (zlen (cstring m) =? UUID_STR_LEN) then Ok (-1, uuid)
      else hexto (known (scan std_fields (cstring m) (repeat None 33)))   (* reading an uninitialised byte is a read past [known] *)
  | short_fmt =>
      if negb (zlen (cstring m) =? UUID_SHORT_STR_LEN) then Ok (-1, uuid) else hexto (firstn 32 m)
  | base62_fmt | base62_hashable_fmt =>
      r1 <- (match f with
        | base62_hashable_fmt => if zlen m <? SEG then UB else decode62 (rev (firstn 11 m)) SEG
        | _ => decode62 m SEG
        end) ;;
      match r1 with
      | None => Ok (-1, uuid)
      | Some v1 =>
          if zlen m <? SEG then UB else
          r2 <- decode62 (skipn 11 m) UUID_BASE62_STR_LEN ;;
          match r2 with
          | None => Ok (-1, uuid)
          | Some v2 => Ok (0, split8 v1 ++ split8 v2)
          end
      end
  | other => Ok (-1, uuid)
  end.

(* zt_uuid.c:399-402 zt_uuid_cmp: the sign of memcmp *)
Fixpoint memcmp (a b : list Z) : Z :=
  match a, b with x :: a, y :: b => if x <? y then -1 else if y <? x then 1 else memcmp a b | _, _ => 0 end.
Definition cmp (a b : list Z) : Z := memcmp (firstn 16 a) (firstn 16 b).

(* zt_uuid.c:404 *)
Definition VALID_CHARS : list Z := [97;98;99;100;101;102;65;66;67;68;69;70;48;49;50;51;52;53;54;55;56;57].
(* zt_uuid.c:445-469: is character c allowed at position i *)
Definition char_ok (f : fmt) (i : nat) (c : Z) : bool :=
  match f with
  | std_fmt => if (i =? 8)%nat || (i =? 13)%nat || (i =? 18)%nat || (i =? 23)%nat then c =? 45 else strchr_b VALID_CHARS c
  | base62_fmt | base62_hashable_fmt => strchr_b (removelast base62_alphabet) c
  | _ => strchr_b VALID_CHARS c
  end.
Fixpoint chars_ok (f : fmt) (i : nat) (s : list Z) : bool := match s with [] => true | c :: r => char_ok f i c && chars_ok f (S i) r end.
(* zt_uuid.c:406-473 zt_uuid_isvalid *)
Definition isvalid (m : list Z) (f : fmt) : Z :=
  let s := cstring m in
  let len := match f with std_fmt => Some 36 | short_fmt => Some 32 | base62_fmt | base62_hashable_fmt => Some 22 | other => None end in
  match len with None => -1 | Some n => if negb (zlen s =? n) then -1 else if chars_ok f 0 s then 0 else -1 end.
