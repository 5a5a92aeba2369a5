(** What a splay tree is for its user: the elements in it, in the order of the comparison function, no two of them equal. *)
From Coq Require Import Sorted.
From Verif Require Import Prelude SplayModel.
Local Open Scope nat_scope.

Notation elem := (nat * Z)%type. (* address and key *)
(* the comparison is a total preorder, given by signs *)
Definition order (cmp : Z -> Z -> Z) : Prop :=
  (forall a b, (cmp a b < 0 <-> cmp b a > 0)%Z) /\ (forall a b c, (cmp a b < 0 -> cmp b c < 0 -> cmp a c < 0)%Z) /\ (forall a b c, (cmp a b = 0 -> (cmp a c < 0 <-> cmp b c < 0))%Z).
Section S.
Variable cmp : Z -> Z -> Z.
Definition sorted (S : list elem) : Prop := StronglySorted (fun a b => (cmp (snd a) (snd b) < 0)%Z) S.
Definition below (k : Z) (S : list elem) : list elem := filter (fun x => (cmp k (snd x) >? 0)%Z) S.
Definition equal (k : Z) (S : list elem) : list elem := filter (fun x => (cmp k (snd x) =? 0)%Z) S.
Definition above (k : Z) (S : list elem) : list elem := filter (fun x => (cmp k (snd x) <? 0)%Z) S.
Definition first_of (l : list elem) : nat := hd 0 (map fst l). (* its address, or NULL *)
(* the key of one of the program's elements *)
Fixpoint key_of (E : list elem) (e : nat) : Z := match E with [] => 0%Z | (x, k) :: E => if x =? e then k else key_of E e end.
Variable E : list elem. (* the program's elements *)
(* answer and new set *)
Definition spec (S : list elem) (c : call) : list nat * list elem :=
  match c with
  | Insert e => let k := key_of E e in match equal k S with [] => ([0], below k S ++ (e, k) :: above k S) | x :: _ => ([fst x], S) end
  | Remove e => let k := key_of E e in match equal k S with [] => ([0], S) | _ => ([e], below k S ++ above k S) end
  | Find e => ([first_of (equal (key_of E e) S)], S)
  | Next e => ([first_of (above (key_of E e) S)], S)
  | Min => ([first_of S], S)
  | Max => ([first_of (rev S)], S)
  | Foreach => (map fst S, S)
  end.
(* elements exist; what is inserted is not in the tree; NEXT is for elements in the tree *)
Definition allowed (S : list elem) (c : call) : Prop :=
  match c with
  | Insert e => In e (map fst E) /\ ~ In e (map fst S) | Remove e | Find e => In e (map fst E) | Next e => In e (map fst S) | _ => True
  end.
Fixpoint history (S : list elem) (l : list call) : Prop := match l with [] => True | c :: r => allowed S c /\ history (snd (spec S c)) r end.
Fixpoint answers (S : list elem) (l : list call) : list (list nat) * list elem := match l with [] => ([], S) | c :: r => let (a, S) := spec S c in let (o, S) := answers S r in (a :: o, S) end.
End S.
