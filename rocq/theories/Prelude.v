(** Common definitions: outcomes of C functions, small list and arithmetic helpers. *)
From Coq Require Export List ZArith Lia Bool Arith.
From Coq Require Export ZifyBool ZifyNat.
Export ListNotations.
Ltac Zify.zify_post_hook ::= Z.div_mod_to_equations.

(** Result of running a piece of C code.
    [Ok v]  : returned / finished normally with [v];
    [Abort] : a zt_assert / abort() fired (zt_assert.h, zt_malloc.c);
    [UB]    : the code would execute undefined behaviour here;
    [Loop]  : the fuel given to a model loop ran out. *)
Inductive outcome (A : Type) : Type :=
| Ok (a : A)
| Abort
| UB
| Loop.
Arguments Ok {A} a.
Arguments Abort {A}.
Arguments UB {A}.
Arguments Loop {A}.

Definition obind {A B} (x : outcome A) (f : A -> outcome B) : outcome B :=
  match x with
  | Ok a => f a
  | Abort => Abort
  | UB => UB
  | Loop => Loop
  end.

Notation "x <- e ;; f" := (obind e (fun x => f))
  (at level 61, e at next level, right associativity).
Notation "' p <- e ;; f" := (obind e (fun x => match x with p => f end))
  (at level 61, p pattern, e at next level, right associativity).

(** zt_assert(b); *)
Definition guard (b : bool) : outcome unit := if b then Ok tt else Abort.
(** An access that is undefined behaviour unless [b]. *)
Definition safe (b : bool) : outcome unit := if b then Ok tt else UB.

Lemma obind_ok {A B} (x : outcome A) (f : A -> outcome B) b :
  obind x f = Ok b <-> exists a, x = Ok a /\ f a = Ok b.
Proof.
  split.
  - destruct x; simpl; intros H; try discriminate; eauto.
  - intros (a & -> & H); exact H.
Qed.

Lemma guard_ok b u : guard b = Ok u <-> b = true.
Proof. destruct b, u; simpl; split; intros; congruence. Qed.
Lemma safe_ok b u : safe b = Ok u <-> b = true.
Proof. destruct b, u; simpl; split; intros; congruence. Qed.

(** List update at a position; [None] when out of range. *)
Fixpoint upd {A} (l : list A) (i : nat) (v : A) : list A :=
  match l, i with
  | [], _ => []
  | _ :: r, O => v :: r
  | x :: r, S i' => x :: upd r i' v
  end.

Lemma upd_length {A} (l : list A) i v : length (upd l i v) = length l.
Proof. revert i; induction l as [|x r IH]; intros [|i]; simpl; auto. Qed.

Lemma upd_nth_error {A} (l : list A) i v j :
  nth_error (upd l i v) j =
  if Nat.eqb j i then (if Nat.ltb i (length l) then Some v else None) else nth_error l j.
Proof.
  revert i j; induction l as [|x r IH]; intros [|i] [|j]; simpl; try reflexivity.
  - destruct (Nat.eqb j i); reflexivity.
  - rewrite IH. destruct (Nat.eqb j i); reflexivity.
Qed.

Lemma upd_app_r {A} (l1 l2 : list A) i v :
  length l1 <= i -> upd (l1 ++ l2) i v = l1 ++ upd l2 (i - length l1) v.
Proof.
  revert i; induction l1 as [|x r IH]; intros i H; simpl in *.
  - now rewrite Nat.sub_0_r.
  - destruct i as [|i]; [lia|]. simpl. rewrite IH by lia. reflexivity.
Qed.

Lemma upd_app_l {A} (l1 l2 : list A) i v :
  i < length l1 -> upd (l1 ++ l2) i v = upd l1 i v ++ l2.
Proof.
  revert i; induction l1 as [|x r IH]; intros i H; simpl in *; [lia|].
  destruct i as [|i]; simpl; [reflexivity|]. rewrite IH by lia. reflexivity.
Qed.

Lemma nth_error_ext {A} (l1 l2 : list A) :
  (forall i, nth_error l1 i = nth_error l2 i) -> l1 = l2.
Proof.
  revert l2; induction l1 as [|x r IH]; intros [|y s] H.
  - reflexivity.
  - specialize (H O); discriminate.
  - specialize (H O); discriminate.
  - pose proof (H O) as H0; simpl in H0; injection H0 as <-.
    f_equal. apply IH. intros i. apply (H (S i)).
Qed.

Lemma skipn_skipn {A} (a b : nat) (l : list A) : skipn a (skipn b l) = skipn (b + a) l.
Proof.
  revert l. induction b as [|b IH]; intros l; [reflexivity|].
  destruct l as [|x l]; cbn [skipn Nat.add]; [destruct a; reflexivity|apply IH].
Qed.

(** A byte value. *)
Definition isbyte (b : Z) : bool := ((0 <=? b) && (b <? 256))%Z.
Definition bytes (l : list Z) : Prop := Forall (fun b => (0 <= b < 256)%Z) l.
