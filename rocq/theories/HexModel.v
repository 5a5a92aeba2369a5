(** Model of the hex dumper of src/libzt/zt_cstr.c.  The reader and the printer are callbacks: state transformers.  isprint is that of the C locale; its argument must be a byte value.
    printf to stdout succeeds. *)
From Verif Require Import Prelude CstrModel.
Local Open Scope Z_scope.

(* isprint: an argument outside 0..255 other than EOF is undefined *)
Definition isprint (c : Z) : outcome bool := _ <- safe ((0 <=? c) && (c <=? 255)) ;; Ok ((32 <=? c) && (c <=? 126)).
(* the locals of zt_hexdump, zt_cstr.c:754-760: bytes is size_t, addr is uint32_t *)
Record hd := mkhd { hbytes : Z; haddr : Z; hline : Z; hpos : Z; cpos : Z; htxt : list Z; hhex : list Z }.

Section Hexdump.
Context {S T : Type} (getc : S -> Z * S) (output : T -> Z -> option (list Z) -> option (list Z) -> outcome (Z * T)).
(* zt_cstr.c:766-790: the loop; inr is the return of -1 from inside it *)
Fixpoint hexdump_loop (fuel : nat) (d : hd) (st : S) (t : T) {struct fuel} : outcome ((hd * S * T) + (S * T)) :=
  match fuel with
  | O => Loop
  | Datatypes.S fuel =>
      let '(c, st) := getc st in
      if c =? -1 then Ok (inl (d, st, t)) else
      let d := if haddr d mod 16 =? 0 then mkhd (hbytes d) (haddr d) (haddr d) 0 0 (repeat 0 17) (repeat 0 51) else d in
      hex <- mset (hhex d) (hpos d) (nth (Z.to_nat (Z.land (Z.shiftr c 4) 15)) HEX_DIGITS 0) ;;
      hex <- mset hex (hpos d + 1) (nth (Z.to_nat (Z.land c 15)) HEX_DIGITS 0) ;;
      hex <- mset hex (hpos d + 2) 32 ;;
      p <- isprint c ;;
      txt <- mset (htxt d) (cpos d) (if p then c else 46) ;;
      let d := mkhd (hbytes d) (haddr d) (hline d) (hpos d + 3) (cpos d + 1) txt hex in
      ' (r, t) <- (if haddr d mod 16 =? 15 then output t (hline d) (Some (hhex d)) (Some (htxt d)) else Ok (0, t)) ;;
      if r =? -1 then Ok (inr (st, t)) else
      hexdump_loop fuel (mkhd ((hbytes d + 1) mod 2 ^ 64) ((haddr d + 1) mod 2 ^ 32) (hline d) (hpos d) (cpos d) (htxt d) (hhex d)) st t
  end.
(* zt_cstr.c:752-800 zt_hexdump; [jt] and [jh] are what the two arrays contain before; (size_t)-1 is 2^64 - 1 *)
Definition zt_hexdump (fuel : nat) (jt jh : list Z) (st : S) (t : T) : outcome (Z * S * T) :=
  x <- hexdump_loop fuel (mkhd 0 0 0 0 0 jt jh) st t ;;
  match x with
  | inr (st, t) => Ok (2 ^ 64 - 1, st, t)
  | inl (d, st, t) =>
      ' (r, t) <- (if negb (haddr d mod 16 =? 15) && negb (haddr d mod 16 =? 0) then output t (hline d) (Some (hhex d)) (Some (htxt d)) else Ok (0, t)) ;;
      if r =? -1 then Ok (2 ^ 64 - 1, st, t) else
      ' (_, t) <- output t 0 None None ;;
      Ok (hbytes d, st, t)
  end.
End Hexdump.

(* zt_cstr.c:700-718 struct _str_state and _read_str: the offset is the state; c is a (signed) char *)
Definition read_str (data : list Z) (size : Z) (offt : outcome Z) : Z * outcome Z :=
  match offt with
  | Ok o => if size =? o then (-1, offt) else match mrd data o with Ok c => (schar c, Ok (o + 1)) | _ => (0, UB) end
  | x => (0, x)
  end.
(* zt_cstr.c:745-750 zt_hexdump_str; reading outside the data makes the whole undefined *)
Definition zt_hexdump_str {T} (output : T -> Z -> option (list Z) -> option (list Z) -> outcome (Z * T)) (fuel : nat) (jt jh : list Z) (data : list Z) (size : Z) (t : T) : outcome (Z * T) :=
  ' (n, o, t) <- zt_hexdump (read_str data size) output fuel jt jh (Ok 0) t ;; _ <- o ;; Ok (n, t).

(* %.12s: at most n bytes, up to the NUL *)
Fixpoint take_str (n : nat) (m : list Z) : outcome (list Z) :=
  match n with
  | O => Ok []
  | Datatypes.S n => match m with [] => UB | c :: r => if c =? 0 then Ok [] else s <- take_str n r ;; Ok (c :: s) end
  end.
(* %.wzX *)
Definition upper (d : Z) : Z := if d <? 10 then 48 + d else 55 + d.
Fixpoint uhex_loop (fuel : nat) (n : Z) (acc : list Z) : list Z :=
  match fuel with O => acc | Datatypes.S f => if n =? 0 then acc else uhex_loop f (n / 16) (upper (n mod 16) :: acc) end.
Definition uhex (w : nat) (n : Z) : list Z := let s := uhex_loop 16 n [] in repeat 48 (w - length s) ++ s.
Definition spaces (n : Z) : list Z := repeat 32 (Z.to_nat n).
(* zt_cstr.c:720-743 zt_hexdump_default_printer: t is what stdout got so far.  snprintf returns the length the text would have; of the text at most 99 bytes fit *)
Definition default_printer (t : list Z) (addr : Z) (hex txt : option (list Z)) : outcome (Z * list Z) :=
  match hex with
  | None => Ok (0, t ++ [10])
  | Some hex =>
      h0 <- take_str 12 hex ;; h1 <- take_str 12 (skipn 12 hex) ;; h2 <- take_str 12 (skipn 24 hex) ;; h3 <- take_str 12 (skipn 36 hex) ;;
      let w := if addr <? 65535 then 4 else if addr <? 4294967295 then 8 else 16 in
      let s := uhex (Z.to_nat w) addr ++ [32; 32; 32] ++ h0 ++ [32] ++ h1 ++ [32] ++ h2 ++ [32] ++ h3 in
      let base := 55 + w in
      let offt := zlen s in
      match txt with
      | None => UB
      | Some txt =>
          txt <- take_str (Datatypes.S (length txt)) txt ;;
          let s2 := spaces (Z.abs (base - offt)) ++ [124; 32] ++ txt in
          _ <- safe (offt <=? 99) ;;
          Ok (0, t ++ firstn 99 s ++ firstn (Z.to_nat (99 - offt)) s2 ++ [10])
      end
  end.
