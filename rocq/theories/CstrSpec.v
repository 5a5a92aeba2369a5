(** Specification vocabulary for the string functions (no reference to the model's loops). *)
From Verif Require Import Prelude.
Open Scope Z_scope.

(** A C string: no embedded NUL. *)
Definition cstr (s : list Z) : Prop := Forall (fun c => 0 < c < 256) s.

(** Slices s[i:j]: both ends inclusive, negative indices count from the end, indices beyond the end
    mean the last character, the ends may be given in either order.  [n] is the string length. *)
Definition index (n i : Z) : Z := if i <? 0 then i + n else Z.min i (n - 1).
Definition low (n i j : Z) : Z := Z.min (index n i) (index n j).
Definition high (n i j : Z) : Z := Z.max (index n i) (index n j).
Definition slice (s : list Z) (i j : Z) : list Z :=
  let n := Z.of_nat (length s) in
  firstn (Z.to_nat (high n i j - low n i j + 1)) (skipn (Z.to_nat (low n i j)) s).
(** The indices designate characters of the string (for an empty string nothing is required). *)
Definition in_range (s : list Z) (i j : Z) : Prop :=
  s = [] \/ (- Z.of_nat (length s) <= i /\ - Z.of_nat (length s) <= j).

(** [p] is the least (greatest) position of the slice satisfying P, -1 if there is none. *)
Definition first_pos (P : Z -> Prop) (s : list Z) (i j r : Z) : Prop :=
  let n := Z.of_nat (length s) in
  (low n i j <= r <= high n i j /\ (exists c, nth_error s (Z.to_nat r) = Some c /\ P c) /\
   forall k c, low n i j <= k < r -> nth_error s (Z.to_nat k) = Some c -> ~ P c) \/
  (r = -1 /\ forall k c, low n i j <= k <= high n i j -> nth_error s (Z.to_nat k) = Some c -> ~ P c).
Definition last_pos (P : Z -> Prop) (s : list Z) (i j r : Z) : Prop :=
  let n := Z.of_nat (length s) in
  (low n i j <= r <= high n i j /\ (exists c, nth_error s (Z.to_nat r) = Some c /\ P c) /\
   forall k c, r < k <= high n i j -> nth_error s (Z.to_nat k) = Some c -> ~ P c) \/
  (r = -1 /\ forall k c, low n i j <= k <= high n i j -> nth_error s (Z.to_nat k) = Some c -> ~ P c).

(** the byte [x] is the (signed) char [c] *)
Definition char_is (c x : Z) : Prop := -128 <= c <= 127 /\ x = c mod 256.
(** [pat] occurs at [k] inside the slice. *)
Definition occurs (s pat : list Z) (i j k : Z) : Prop :=
  let n := Z.of_nat (length s) in
  low n i j <= k /\ k + Z.of_nat (length pat) <= high n i j + 1 /\
  exists before after, s = before ++ pat ++ after /\ Z.of_nat (length before) = k.

(** Lexicographic order on byte strings. *)
Fixpoint lex (a b : list Z) : comparison :=
  match a, b with
  | [], [] => Eq
  | [], _ :: _ => Lt
  | _ :: _, [] => Gt
  | x :: a', y :: b' => match x ?= y with Eq => lex a' b' | c => c end
  end.
Definition has_sign (r : Z) (c : comparison) : Prop := (r ?= 0) = c.

(** Character translation: the last pair for [c] wins, other characters are kept. *)
Fixpoint translate (from to : list Z) (c : Z) : Z :=
  match from, to with
  | f :: from', t :: to' =>
      if existsb (Z.eqb c) from' then translate from' to' c
      else if c =? f then t else c
  | _, _ => c
  end.

(** Fields of [s] separated by characters of [delim] (possibly empty fields). *)
Fixpoint fields (delim s : list Z) : list (list Z) :=
  match s with
  | [] => [[]]
  | c :: r => if existsb (Z.eqb c) delim then [] :: fields delim r
              else match fields delim r with
                   | f :: fs => (c :: f) :: fs
                   | [] => [[c]]
                   end
  end.
Definition nonempty {A} (l : list A) : bool := match l with [] => false | _ => true end.

(** Decimal representation of an integer. *)
Fixpoint digits (fuel : nat) (n : Z) : list Z :=
  match fuel with
  | O => []
  | S f => if n <? 10 then [48 + n] else digits f (n / 10) ++ [48 + n mod 10]
  end.
Definition decimal (n : Z) : list Z :=
  if n <? 0 then 45 :: digits (S (Z.to_nat (Z.log2 (- n)))) (- n)
  else digits (S (Z.to_nat (Z.log2 n))) n.
(** reading a decimal numeral back *)
Definition undecimal (l : list Z) : Z :=
  match l with
  | 45 :: r => - fold_left (fun a d => 10 * a + (d - 48)) r 0
  | _ => fold_left (fun a d => 10 * a + (d - 48)) l 0
  end.
