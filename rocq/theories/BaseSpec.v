(** Specification of base-N encoding, after RFC 4648: the input octets form a bit string (most significant bit
    first); it is cut into groups of k bits, the last one filled up with zero bits; each group selects a symbol of
    the alphabet; the text is then filled with '=' up to a multiple of the quantum size if padding is in use. *)
From Verif Require Export Prelude BaseModel.
Open Scope Z_scope.

(** The k low bits of x, most significant first. *)
Fixpoint tobits (k : nat) (x : Z) : list bool :=
  match k with O => [] | S k' => Z.testbit x (Z.of_nat k') :: tobits k' x end.
(** Value of a bit string, most significant first. *)
Definition val (l : list bool) : Z := fold_left (fun a b => 2 * a + Z.b2z b) l 0.
(** Cut in pieces of k (the last one may be shorter). *)
Fixpoint chunks_f {A} (fuel k : nat) (l : list A) : list (list A) :=
  match fuel with
  | O => []
  | S f => match l with [] => [] | _ => firstn k l :: chunks_f f k (skipn k l) end
  end.
Definition chunks {A} (k : nat) (l : list A) : list (list A) := chunks_f (length l) k l.

Definition bits_of_bytes (l : list Z) : list bool := flat_map (tobits 8) l.
Definition digits (k : nat) (l : list Z) : list Z :=
  map (fun c => val (c ++ repeat false (k - length c))) (chunks k (bits_of_bytes l)).

Definition symbol (d : base_def) (v : Z) : Z := nth (Z.to_nat v) (alphabet d) 0.

(** RFC 4648 text of a byte string. *)
Definition rfc_encode (d : base_def) (l : list Z) : list Z :=
  let s := map (symbol d) (digits (obits d) l) in
  s ++ (if with_padding d then repeat 61 ((ogroups d - length s mod ogroups d) mod ogroups d) else []).

(** Decoding: the bits of the digits, cut into octets, an incomplete last octet is dropped. *)
Definition bytes_of_bits (l : list bool) : list Z :=
  map val (chunks 8 (firstn (8 * (length l / 8)) l)).
Definition undigits (k : nat) (ds : list Z) : list Z := bytes_of_bits (flat_map (tobits k) ds).

(** The six definitions exported by zt_base.h:26-33. *)
Definition shipped : list base_def :=
  [base64_rfc; base64_rfc_nopad; base64_uri; base32_rfc; base32_hex; base16_rfc].

(** Characters every shipped definition skips: TAB, LF, CR, SP, '='. *)
Definition ignored (c : Z) : Prop := In c [9; 10; 13; 32; 61].
(** Digit values of the alphabet characters in a text, in order. *)
Fixpoint index_of (l : list Z) (c : Z) (i : Z) : option Z :=
  match l with [] => None | x :: r => if c =? x then Some i else index_of r c (i + 1) end.
Definition digit_vals (d : base_def) (txt : list Z) : list Z :=
  flat_map (fun c => match index_of (alphabet d) c 0 with Some v => [v] | None => [] end) txt.
