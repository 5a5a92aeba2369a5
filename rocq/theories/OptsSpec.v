(** Specification vocabulary for option parsing (C36) and help layout (C46). *)
From Verif Require Import Prelude OptsModel.
Local Open Scope Z_scope.

(** ** Option tables *)
(** Every entry can be named, is documented, uses a letter or digit, and no two
    entries share a name. *)
Definition valid_table (defs : list def) : Prop :=
  (forall d, In d defs ->
     (sopt d <> None \/ lopt d <> None) /\ help d <> None /\
     (forall c, sopt d = Some c ->
        48 <= c <= 57 \/ 65 <= c <= 90 \/ 97 <= c <= 122)) /\
  (forall i j d1 d2, nth_error defs i = Some d1 -> nth_error defs j = Some d2 -> i <> j ->
     (sopt d1 <> None -> sopt d1 <> sopt d2) /\ (lopt d1 <> None -> lopt d1 <> lopt d2)).

(** Long names that can be written after "--": not empty, no '=', no leading '-'. *)
Definition good_name (l : text) : Prop :=
  exists c r, l = c :: r /\ c <> dash /\ ~ In equal l.
Definition good_names (defs : list def) : Prop :=
  forall d l, In d defs -> lopt d = Some l -> good_name l.

Definition takes_value (d : def) : bool :=
  match cb d with KLong | KBool | KString | KArray => true | _ => false end.
Definition is_flag (d : def) : bool :=
  match cb d with KNull | KFlag => true | _ => false end.

(** ** Values *)
Definition dec_digit (c : Z) : Prop := 48 <= c <= 57.
Definition oct_digit (c : Z) : Prop := 48 <= c <= 55.
Definition hex_digit (c : Z) : Prop := 48 <= c <= 57 \/ 97 <= c <= 102 \/ 65 <= c <= 70.
Definition digit_value (c : Z) : Z :=
  if c <=? 57 then c - 48 else if c <=? 70 then c - 55 else c - 87.
Definition value (base : Z) (ds : text) : Z :=
  fold_left (fun a c => a * base + digit_value c) ds 0.

Inductive unsigned : text -> Z -> Prop :=
| u_dec : forall c ds, dec_digit c -> c <> 48 -> Forall dec_digit ds ->
    unsigned (c :: ds) (value 10 (c :: ds))
| u_oct : forall ds, Forall oct_digit ds -> unsigned (48 :: ds) (value 8 ds)
| u_hex : forall x ds, x = 120 \/ x = 88 -> ds <> [] -> Forall hex_digit ds ->
    unsigned (48 :: x :: ds) (value 16 ds).

(** integer constants as in C, with an optional sign, that fit a long *)
Inductive numeral : text -> Z -> Prop :=
| n_plain : forall t n, unsigned t n -> n < 2 ^ 63 -> numeral t n
| n_plus : forall t n, unsigned t n -> n < 2 ^ 63 -> numeral (43 :: t) n
| n_minus : forall t n, unsigned t n -> n <= 2 ^ 63 -> numeral (45 :: t) (- n).

(** t, y, true, yes in any case: 1; f, n, false, no: 0 *)
Definition lower_case (c : Z) : Z := if (65 <=? c) && (c <=? 90) then c + 32 else c.
Definition truth (t : text) (b : Z) : Prop :=
  let w := map lower_case t in
  (b = 1 /\ (w = [116] \/ w = [121] \/ w = [116; 114; 117; 101] \/ w = [121; 101; 115])) \/
  (b = 0 /\ (w = [102] \/ w = [110] \/ w = [102; 97; 108; 115; 101] \/ w = [110; 111])).

(** the program's variables with one of them changed *)
Definition with_int (k : nat) (v : Z) (e : env) : env :=
  mkenv (fun j => if Nat.eqb j k then v else ints e j) (strs e) (arrs e) (errs e).
Definition with_str (k : nat) (v : text) (e : env) : env :=
  mkenv (ints e) (fun j => if Nat.eqb j k then Some v else strs e j) (arrs e) (errs e).
Definition with_arr (k : nat) (v : list text) (e : env) : env :=
  mkenv (ints e) (strs e) (fun j => if Nat.eqb j k then v else arrs e j) (errs e).

(** What applying option d (once) means for the program's variables. *)
Inductive applies : def -> option text -> env -> env -> Prop :=
| a_null : forall d e, cb d = KNull -> applies d None e e
| a_flag : forall d k e, cb d = KFlag -> slot d = Some k ->
    applies d None e (with_int k (ints e k + 1) e)
| a_long : forall d k v n e, cb d = KLong -> slot d = Some k -> numeral v n ->
    applies d (Some v) e (with_int k n e)
| a_bool : forall d k v b e, cb d = KBool -> slot d = Some k -> truth v b ->
    applies d (Some v) e (with_int k b e)
| a_flag0 : forall d e, cb d = KFlag -> slot d = None -> applies d None e e
| a_long0 : forall d v n e, cb d = KLong -> slot d = None -> numeral v n -> applies d (Some v) e e
| a_bool0 : forall d v b e, cb d = KBool -> slot d = None -> truth v b -> applies d (Some v) e e
| a_string : forall d k v e, cb d = KString -> slot d = Some k ->
    applies d (Some v) e (with_str k v e)
| a_array : forall d k v e, cb d = KArray -> slot d = Some k ->
    applies d (Some v) e (with_arr k (arrs e k ++ [v]) e).

(** ** Command lines *)
Inductive item :=
| Flags (ds : list def)           (* -abc *)
| LongFlag (d : def)              (* --name *)
| LongVal (d : def) (v : text)    (* --name value *)
| LongEq (d : def) (v : text)     (* --name=value *)
| ShortVal (d : def) (v : text)   (* -n value *)
| ShortAttached (d : def) (v : text). (* -nvalue *)

Definition letter (d : def) : Z := match sopt d with Some c => c | None => 0 end.
Definition name (d : def) : text := match lopt d with Some l => l | None => [] end.

Definition render (it : item) : list text :=
  match it with
  | Flags ds => [dash :: map letter ds]
  | LongFlag d => [dash :: dash :: name d]
  | LongVal d v => [dash :: dash :: name d; v]
  | LongEq d v => [dash :: dash :: name d ++ equal :: v]
  | ShortVal d v => [[dash; letter d]; v]
  | ShortAttached d v => [dash :: letter d :: v]
  end.

Definition item_ok (defs : list def) (it : item) : Prop :=
  match it with
  | Flags ds => ds <> [] /\ Forall (fun d => In d defs /\ is_flag d = true /\ sopt d <> None) ds
  | LongFlag d => In d defs /\ is_flag d = true /\ lopt d <> None
  | LongVal d _ | LongEq d _ => In d defs /\ takes_value d = true /\ lopt d <> None
  | ShortVal d _ => In d defs /\ takes_value d = true /\ sopt d <> None /\ lopt d <> None
  | ShortAttached d v => In d defs /\ takes_value d = true /\ sopt d <> None /\ lopt d <> None /\
      ~ In equal v /\ lopt d <> Some (letter d :: v) /\
      exists c r, v = c :: r /\ forall d2, In d2 defs -> sopt d2 <> Some c
  end.

Inductive flags_apply : list def -> env -> env -> Prop :=
| fa_nil : forall e, flags_apply [] e e
| fa_cons : forall d ds e e1 e2, applies d None e e1 -> flags_apply ds e1 e2 ->
    flags_apply (d :: ds) e e2.

Definition item_applies (it : item) (e e' : env) : Prop :=
  match it with
  | Flags ds => flags_apply ds e e'
  | LongFlag d => applies d None e e'
  | LongVal d v | LongEq d v | ShortVal d v | ShortAttached d v => applies d (Some v) e e'
  end.

(** every item once, from left to right *)
Inductive all_apply : list item -> env -> env -> Prop :=
| aa_nil : forall e, all_apply [] e e
| aa_cons : forall it r e e1 e2, item_applies it e e1 -> all_apply r e1 e2 ->
    all_apply (it :: r) e e2.

Definition starts_with_dash (a : text) : Prop := exists r, a = dash :: r.

(** Values that make no sense for the option. *)
Definition bad_value (d : def) (v : text) : Prop :=
  (cb d = KLong /\ v <> [] /\ (forall c r, v = c :: r -> 32 < c) /\ ~ exists n, numeral v n) \/
  (cb d = KBool /\ ~ exists b, truth v b).

(** Arguments that must be refused: "-", an unknown letter or name ("--" included), a
    missing value, a value that makes no sense. The second index is what follows. *)
Inductive rejected (defs : list def) : text -> list text -> Prop :=
| r_dash : forall rest, rejected defs [dash] rest
| r_letter : forall c r rest, c <> dash -> (forall d, In d defs -> sopt d <> Some c) ->
    rejected defs (dash :: c :: r) rest
| r_name : forall l q rest, ~ In equal l -> (q = [] \/ exists v, q = equal :: v) ->
    (forall d, In d defs -> lopt d <> Some l) -> rejected defs (dash :: dash :: l ++ q) rest
| r_missing_long : forall d l, In d defs -> lopt d = Some l -> takes_value d = true ->
    rejected defs (dash :: dash :: l) []
| r_missing_short : forall d c l, In d defs -> sopt d = Some c -> lopt d = Some l -> takes_value d = true ->
    rejected defs [dash; c] []
| r_bad_long : forall d l v rest, In d defs -> lopt d = Some l -> bad_value d v ->
    rejected defs (dash :: dash :: l) (v :: rest)
| r_bad_equal : forall d l v rest, In d defs -> lopt d = Some l -> bad_value d v ->
    rejected defs (dash :: dash :: l ++ equal :: v) rest
| r_bad_short : forall d c l v rest, In d defs -> sopt d = Some c -> lopt d = Some l -> bad_value d v ->
    rejected defs [dash; c] (v :: rest).

(** number texts that do not fit a long, and the nearest long *)
Inductive overflows : text -> Z -> Prop :=
| o_plain : forall t n, unsigned t n -> 2 ^ 63 <= n -> overflows t (2 ^ 63 - 1)
| o_plus : forall t n, unsigned t n -> 2 ^ 63 <= n -> overflows (43 :: t) (2 ^ 63 - 1)
| o_minus : forall t n, unsigned t n -> 2 ^ 63 < n -> overflows (45 :: t) (- 2 ^ 63).

(** Faults a returning error handler is told about: the argument, the code (EINVAL is 22, ERANGE 34) and what happens to the variables. *)
Inductive reported (defs : list def) : text -> Z -> (env -> env) -> Prop :=
| p_letter : forall c r, c <> dash -> (forall d, In d defs -> sopt d <> Some c) -> reported defs (dash :: c :: r) 22 (fun e => e)
| p_name : forall l q, ~ In equal l -> (q = [] \/ exists v, q = equal :: v) ->
    (forall d, In d defs -> lopt d <> Some l) -> reported defs (dash :: dash :: l ++ q) 22 (fun e => e)
| p_bool : forall d l v, In d defs -> lopt d = Some l -> cb d = KBool -> (~ exists b, truth v b) ->
    reported defs (dash :: dash :: l ++ equal :: v) 22 (fun e => e)
| p_range : forall d l v k n, In d defs -> lopt d = Some l -> cb d = KLong -> slot d = Some k -> overflows v n ->
    reported defs (dash :: dash :: l ++ equal :: v) 34 (with_int k n).
Definition told (code : Z) (e : env) : env := mkenv (ints e) (strs e) (arrs e) (code :: errs e).

(** value options have a long name (see C36_needs_long_name_refuted), string options a
    variable *)
Definition usable (defs : list def) : Prop := forall d, In d defs ->
  (takes_value d = true -> lopt d <> None) /\ (cb d = KString \/ cb d = KArray -> slot d <> None).

(** ** Help text *)
(** the words of a text *)
Fixpoint words_acc (w : text) (h : text) : list text :=
  match h with
  | [] => match w with [] => [] | _ => [w] end
  | c :: r => if c =? 32 then match w with [] => words_acc [] r | _ => w :: words_acc [] r end
              else words_acc (w ++ [c]) r
  end.
Definition words (h : text) : list text := words_acc [] h.
