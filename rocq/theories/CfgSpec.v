(** Specification vocabulary for configurations (C35). *)
From Verif Require Import Prelude OptsModel OptsSpec CfgModel.
Local Open Scope Z_scope.

(** One assignment: block, variable, value text. *)
Definition assignment := (text * text * text)%type.
Definition key (a : assignment) : text * text := (fst (fst a), snd (fst a)).
Definition keys (l : list assignment) : list (text * text) := map key l.

Definition run (isfloat : text -> bool) (l : list assignment) : store :=
  fold_left (fun st a => insert isfloat st (fst (fst a)) (snd (fst a)) (snd a)) l [].

(** the number by which the API names a type, and whether a value is of that type *)
Definition number (t : ty) : Z := match t with TBool => 0 | TInt => 1 | TFloat => 2 | TString => 3 | TRef => 4 end.
Definition is_of (e : entry) (t : ty) : bool :=
  match e, t with EBool _, TBool | EInt _, TInt | EFloat _, TFloat | EString _, TString | ERef _ _, TRef => true | _, _ => false end.

(** ** What a value text stands for *)
Definition word (t : text) (w1 w2 : text) : Prop := map lower_case t = w1 \/ map lower_case t = w2.
Definition yes : text := [121; 101; 115].
Definition no : text := [110; 111].
Definition true_ : text := [116; 114; 117; 101].
Definition false_ : text := [102; 97; 108; 115; 101].


(** texts that are neither numbers, booleans nor quoted *)
Definition plain (isfloat : text -> bool) (t : text) : Prop :=
  isfloat t = false /\ ~ word t yes true_ /\ ~ word t no false_ /\
  (forall c r, t = c :: r ->
     32 < c /\ c <> 43 /\ c <> 45 /\ ~ (48 <= c <= 57) /\ c <> 34 /\ c <> 39).

(** "block.variable": the part before the first dot, and the part after it *)
Definition dotted (s b v : text) : Prop := s = b ++ 46 :: v /\ ~ In 46 b.

(** [known b v]: variable v of block b exists *)
Definition refers (known : text -> text -> Prop) (s : text) (e : entry) : Prop :=
  (exists b v, dotted s b v /\ known b v /\ e = ERef b v) \/
  ((forall b v, dotted s b v -> ~ known b v) /\ e = EString s).

Inductive means (isfloat : text -> bool) (known : text -> text -> Prop) : text -> entry -> Prop :=
| m_int : forall t n, numeral t n -> means isfloat known t (EInt n)
| m_float : forall t c r, t = c :: r -> (forall n rest, strtol0 t = (n, rest, false) -> rest <> []) ->
    (forall n rest, strtol0 t = (n, rest, true) -> rest <> []) ->
    isfloat t = true -> means isfloat known t (EFloat t)
| m_true : forall t, isfloat t = false -> word t yes true_ -> means isfloat known t (EBool 1)
| m_false : forall t, isfloat t = false -> word t no false_ -> means isfloat known t (EBool 0)
| m_quoted : forall q s e, q = 34 \/ q = 39 -> isfloat (q :: s ++ [q]) = false ->
    refers known s e -> means isfloat known (q :: s ++ [q]) e
| m_plain : forall t e, plain isfloat t -> refers known t e -> means isfloat known t e.

(** ** INI files *)
Definition blanks (s : text) : Prop := Forall (fun c => c = 32 \/ c = 9) s.
Definition comment_mark (c : Z) : Prop := c = 59 \/ c = 35.

(** letters, digits and the underscore *)
Definition name_letter (c : Z) : Prop := 97 <= c <= 122 \/ 65 <= c <= 90 \/ 48 <= c <= 57 \/ c = 95.

Inductive line :=
| LEmpty
| LComment (mark : Z) (t : text)
| LHeader (name junk : text)
| LAssign (name ws1 ws2 value ws3 tail : text).

Record iline := mkline { indent : text; what : line }.

Definition render_line (l : line) : text :=
  match l with
  | LEmpty => [10]
  | LComment m t => m :: t ++ [10]
  | LHeader n j => 91 :: n ++ 93 :: j ++ [10]
  | LAssign n a b v c t => n ++ a ++ 61 :: b ++ v ++ c ++ t ++ [10]
  end.
Definition render_iline (l : iline) : text := indent l ++ render_line (what l).
Definition file (ls : list iline) : text := flat_map render_iline ls.

(** the value: not empty, no comment mark or newline, no blank at either end *)
Definition value_ok (v : text) : Prop :=
  (forall c, In c v -> c <> 59 /\ c <> 35 /\ c <> 10 /\ c <> 0) /\
  (exists c r, v = c :: r /\ c <> 32 /\ c <> 9) /\
  (exists r c, v = r ++ [c] /\ c <> 32 /\ c <> 9).

Definition line_ok (l : line) : Prop :=
  match l with
  | LEmpty => True
  | LComment m t => comment_mark m /\ ~ In 10 t
  | LHeader n j => ~ In 93 n /\ ~ In 0 n /\ Z.of_nat (length n) < 1024 /\ ~ In 10 j
  | LAssign n a b v c t =>
      n <> [] /\ Forall name_letter n /\ blanks a /\ blanks b /\ blanks c /\
      value_ok v /\
      (t = [] \/ exists m r, t = m :: r /\ comment_mark m /\ ~ In 10 r /\ ~ In 0 r) /\
      Z.of_nat (length (render_line l)) < 1024
  end.

(** the assignments a file makes *)
Fixpoint assignments (blk : text) (ls : list iline) : list assignment :=
  match ls with
  | [] => []
  | l :: r => match what l with
              | LHeader n _ => assignments n r
              | LAssign n _ _ v _ _ => (blk, n, v) :: assignments blk r
              | _ => assignments blk r
              end
  end.

(** the block in force after some lines *)
Fixpoint current (blk : text) (ls : list iline) : text :=
  match ls with
  | [] => blk
  | l :: r => match what l with LHeader n _ => current n r | _ => current blk r end
  end.
