(** What a hex dump is. *)
From Verif Require Import Prelude.
Local Open Scope Z_scope.

(** a reader that delivers the bytes l and then EOF *)
Inductive reads {S} (getc : S -> Z * S) : S -> list Z -> S -> Prop :=
| Eof st st' : getc st = (-1, st') -> reads getc st [] st'
| Byte st c st1 l st' : getc st = (c, st1) -> 0 <= c <= 255 -> reads getc st1 l st' -> reads getc st (c :: l) st'.
(** "0123456789abcdef"[d] *)
Definition digit (d : Z) : Z := if d <? 10 then 48 + d else 87 + d.
(** the two columns for some bytes: two hex digits and a space each; the printable characters *)
Definition hexcol (ch : list Z) : list Z := concat (map (fun b => [digit (b / 16); digit (b mod 16); 32]) ch).
Definition txtcol (ch : list Z) : list Z := map (fun b => if (32 <=? b) && (b <=? 126) then b else 46) ch.
(** what a callback is given for them: C strings in arrays of 51 and 17 bytes *)
Definition hexarr (ch : list Z) : list Z := hexcol ch ++ repeat 0 (51 - 3 * length ch).
Definition txtarr (ch : list Z) : list Z := txtcol ch ++ repeat 0 (17 - length ch).
(** line k of a dump of l: address (32 bits) and bytes *)
Definition line (l : list Z) (k : nat) : Z * list Z := (Z.of_nat (16 * k) mod 2 ^ 32, firstn 16 (skipn (16 * k) l)).
(** the lines of a dump *)
Definition all_lines (l : list Z) : list (Z * list Z) := map (line l) (seq 0 ((length l + 15) / 16)).
(** what is shown: a last line of exactly 15 bytes is missing *)
Definition shown (l : list Z) : list (Z * list Z) := if (length l mod 16 =? 15)%nat then map (line l) (seq 0 (length l / 16)) else all_lines l.
(** a callback is called with the lines in order, until it returns -1 *)
Fixpoint show {T} (output : T -> Z -> option (list Z) -> option (list Z) -> outcome (Z * T)) (t : T) (ls : list (Z * list Z)) : outcome (bool * T) :=
  match ls with
  | [] => Ok (true, t)
  | (a, ch) :: r => ' (x, t) <- output t a (Some (hexarr ch)) (Some (txtarr ch)) ;; if x =? -1 then Ok (false, t) else show output t r
  end.

(** the text of a line: the address in w = 4, 8 or 16 hex digits, three blanks, four groups of four bytes, a bar in column w + 55, the characters *)
Definition upper_digit (d : Z) : Z := if d <? 10 then 48 + d else 55 + d.
Definition address (w : nat) (a : Z) : list Z := map (fun i => upper_digit ((a / 16 ^ Z.of_nat (w - 1 - i)) mod 16)) (seq 0 w).
Definition width (a : Z) : nat := if a <? 65535 then 4%nat else if a <? 4294967295 then 8%nat else 16%nat.
Definition group (ch : list Z) (i : nat) : list Z := hexcol (firstn 4 (skipn (4 * i) ch)).
Definition left_part (a : Z) (ch : list Z) : list Z := address (width a) a ++ [32; 32; 32] ++ group ch 0 ++ [32] ++ group ch 1 ++ [32] ++ group ch 2 ++ [32] ++ group ch 3.
Definition line_text (x : Z * list Z) : list Z :=
  let '(a, ch) := x in let s := left_part a ch in s ++ repeat 32 (width a + 55 - length s) ++ [124; 32] ++ txtcol ch ++ [10].
