(** Specification vocabulary for C34: what a format string with its arguments should print. *)
From Verif Require Import Prelude FormatModel.
Open Scope Z_scope.

(** Positional notation. *)
Definition digit (k : Z) : Z := if k <? 10 then 48 + k else 87 + k. (* 0-9 a-f *)
Fixpoint numeral_ (fuel : nat) (base n : Z) : text :=
  match fuel with
  | O => []
  | S f => (if n <? base then [] else numeral_ f base (n / base)) ++ [digit (n mod base)]
  end.
Definition numeral (base n : Z) : text := numeral_ (S (Z.to_nat (Z.log2 n))) base n.

(** reading a numeral back (for the theorem that [numeral] is right) *)
Definition undigit (c : Z) : Z := if c <? 58 then c - 48 else c - 87.
Definition reads (base : Z) (l : text) : Z := fold_left (fun a c => base * a + undigit c) l 0.

(** A width or precision: absent, digits in the format, or `*` with an int argument. *)
Inductive size := Unset | Lit (ds : text) | Star (n : Z).
Definition size_text (s : size) : text := match s with Unset => [] | Lit ds => ds | Star _ => [42] end.
Definition size_args (s : size) : list arg := match s with Star n => [AInt n] | _ => [] end.
Definition size_value (s : size) : option Z :=
  match s with Unset => None | Lit ds => Some (reads 10 ds) | Star n => Some n end.
Definition all_digits (ds : text) : Prop := Forall (fun c => 48 <= c <= 57) ds.
Definition size_ok (s : size) : Prop :=
  match s with
  | Unset => True
  | Lit ds => ds <> [] /\ all_digits ds /\ reads 10 ds <= 2147483647
  | Star n => -2147483648 < n <= 2147483647
  end.

(** One directive: % or ~, flags, width, precision (None: no dot), conversion letter, argument. *)
Record dir := { lead : Z; flags : text; width : size; prec : option size; code : Z; value_ : arg }.
Inductive piece := Chr (c : Z) | Twice (c d : Z) | Dir (d : dir).

Definition prec_text (p : option size) : text := match p with None => [] | Some s => 46 :: size_text s end.
Definition prec_args (p : option size) : list arg := match p with None => [] | Some s => size_args s end.
Definition piece_text (p : piece) : text :=
  match p with
  | Chr c => [c]
  | Twice c d => [c; d]
  | Dir d => lead d :: flags d ++ size_text (width d) ++ prec_text (prec d) ++ [code d]
  end.
Definition piece_args (p : piece) : list arg :=
  match p with
  | Dir d => size_args (width d) ++ prec_args (prec d) ++ [value_ d]
  | _ => []
  end.
Definition format_of (ps : list piece) : text := flat_map piece_text ps.
Definition args_of (ps : list piece) : list arg := flat_map piece_args ps.

Definition is_control (c : Z) : Prop := c = 37 \/ c = 126.

(** ** Fields *)
Definition has (d : dir) (c : Z) : bool := existsb (Z.eqb c) (flags d).
Definition field_width (d : dir) : Z := match size_value (width d) with Some w => Z.abs w | None => 0 end.
(** '-' flag or negative width *)
Definition left (d : dir) : bool := has d 45 || match size_value (width d) with Some w => w <? 0 | None => false end.
(** a negative precision counts as none *)
Definition field_prec (d : dir) : option Z :=
  match prec d with
  | Some s => match size_value s with Some p => if p <? 0 then None else Some p | None => None end
  | None => None
  end.
Definition spaces (n : Z) : text := repeat 32 (Z.to_nat n).
Definition zeros (n : Z) : text := repeat 48 (Z.to_nat n).
Definition len (l : text) : Z := Z.of_nat (length l).

(** What the library prints for a number with sign [s] ("", "-", "+" or " ") and digits [ds]. *)
Definition number (d : dir) (p : option Z) (s ds : text) : text :=
  let body := zeros (match p with Some k => k | None => 1 end - len ds) ++ ds in
  let n := len s + (match p, ds with Some 0, [48] => 0 | _, _ => len body end) in
  let gap := field_width d - n in
  if left d then s ++ body ++ spaces gap
  else if has d 48 && match p with None => true | Some _ => false end then s ++ zeros gap ++ body
  else s ++ spaces gap ++ body.
(** ... and what C's printf prints: the sign goes next to the digits, and no digits at all for value
    zero with precision zero. *)
Definition c_number (d : dir) (p : option Z) (s ds : text) : text :=
  let body := match p, ds with
              | Some 0, [48] => []
              | Some k, _ => zeros (k - len ds) ++ ds
              | None, _ => ds
              end in
  let gap := field_width d - (len s + len body) in
  if left d then s ++ body ++ spaces gap
  else if has d 48 && match p with None => true | Some _ => false end then s ++ zeros gap ++ body
  else spaces gap ++ s ++ body.

Definition blank (d : dir) : text := if has d 32 then [32] else [].
(** '#' with a width: that many characters of the string are skipped (all stay if there are not more) *)
Definition skipped (d : dir) (s : text) : text :=
  match size_value (width d) with
  | Some w => if has d 35 && (Z.abs w <? len s) then skipn (Z.to_nat (Z.abs w)) s else s
  | None => s
  end.
Definition cut_to (p : option Z) (s : text) : text := match p with Some k => firstn (Z.to_nat k) s | None => s end.
Definition str_gap (d : dir) (s : text) : Z := if has d 35 then 0 else field_width d - len s.
(** no right padding when left justified *)
Definition string_ (d : dir) (s : text) : text :=
  let t := cut_to (field_prec d) (skipped d s) in
  if has d 45 || (negb (has d 35) && left d) then t else spaces (str_gap d t) ++ t.
Definition c_string (d : dir) (s : text) : text :=
  let t := cut_to (field_prec d) s in
  if left d then t ++ spaces (field_width d - len t) else spaces (field_width d - len t) ++ t.
(** an int passed as a char *)
Definition as_char (c : Z) : Z := let b := c mod 256 in if b <? 128 then b else b - 256.
Definition char_ (d : dir) (c : Z) : text :=
  if left d then as_char c :: spaces (field_width d - 1) else spaces (field_width d - 1) ++ [as_char c].

(** split the sign off a floating-point text *)
Definition sign_of (d : dir) (t : text) : text :=
  match t with c :: _ => if (c =? 45) || (c =? 43) then [c] else blank d | [] => blank d end.
Definition body_of (t : text) : text :=
  match t with c :: r => if (c =? 45) || (c =? 43) then r else t | [] => [] end.
Definition float_prec (d : dir) : Z :=
  match field_prec d with None => 6 | Some p => if (code d =? 103) && (p =? 0) then 1 else p end.

Definition render_dir (d : dir) : text :=
  match value_ d with
  | AInt v =>
      if code d =? 100 then number d (field_prec d) (if v <? 0 then [45] else blank d) (numeral 10 (Z.abs v))
      else if code d =? 117 then number d (field_prec d) (blank d) (numeral 10 v)
      else if code d =? 111 then number d (field_prec d) (blank d) (numeral 8 v)
      else if code d =? 120 then number d (field_prec d) (blank d) (numeral 16 v)
      else char_ d v
  | APtr v => number d None (blank d) (numeral 16 v)
  | AStr (Some s) => string_ d s
  | AStr None => []
  | ADbl r => let t := r (code d) (float_prec d) in
              number d (Some (float_prec d)) (sign_of d t) (body_of t)
  end.
Definition render (p : piece) : text :=
  match p with Chr c => [c] | Twice _ d => [d] | Dir d => render_dir d end.

(** The argument fits the conversion letter. *)
Definition value_ok (d : dir) : Prop :=
  match value_ d with
  | AInt v => (code d = 100 /\ -2147483648 < v < 2147483647) \/
              ((code d = 117 \/ code d = 111 \/ code d = 120) /\ 0 <= v < 2 ^ 32) \/
              (code d = 99 /\ -2147483648 <= v <= 2147483647)
  | APtr v => code d = 112 /\ 0 <= v < 2 ^ 64
  | AStr (Some s) => code d = 115 /\ Forall (fun c => 0 < c < 256) s /\ len s < 2147483647
  | AStr None => False
  | ADbl r => (code d = 101 \/ code d = 102 \/ code d = 103) /\ float_prec d <= 99 /\
              let t := r (code d) (float_prec d) in len t < 410 /\ Forall (fun c => 0 < c < 256) t
  end.
Definition piece_ok (p : piece) : Prop :=
  match p with
  | Chr c => 0 < c < 256 /\ ~ is_control c
  | Twice c d => is_control c /\ is_control d
  | Dir d => is_control (lead d) /\
             Forall (fun c => In c [43; 45; 32; 48; 35]) (flags d) /\ len (flags d) <= 255 /\
             size_ok (width d) /\ (forall ds, width d = Lit ds -> hd 0 ds <> 48) /\
             match prec d with Some s => size_ok s | None => True end /\
             value_ok d
  end.

(** Feeding characters one by one to a callback, adding up its results. *)
Fixpoint feed {S} (put : put_f S) (l : text) (n : Z) (cl : S) : outcome (Z * S) :=
  match l with
  | [] => Ok (n, cl)
  | c :: r => ' (k, cl) <- put c cl ;; feed put r ((n + k) mod two64) cl
  end.
