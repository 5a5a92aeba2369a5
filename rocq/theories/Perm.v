(** Deciding permutations of lists built with ++ and ::, by reflection. *)
From Coq Require Import List Permutation Arith Lia.
Import ListNotations.

Inductive pexp := PNil | PAtom (n : nat) | PApp (a b : pexp).
Section P.
Context {A : Type}.
Fixpoint den (env : list (list A)) (e : pexp) : list A :=
  match e with PNil => [] | PAtom n => nth n env [] | PApp a b => den env a ++ den env b end.
Fixpoint flat (e : pexp) : list nat := match e with PNil => [] | PAtom n => [n] | PApp a b => flat a ++ flat b end.
Fixpoint ins (n : nat) (l : list nat) : list nat := match l with [] => [n] | m :: r => if n <=? m then n :: l else m :: ins n r end.
Definition norm (l : list nat) : list nat := fold_right ins [] l.
Lemma ins_perm n l : Permutation (ins n l) (n :: l).
Proof. induction l as [|m l IH]; cbn [ins]; [reflexivity|]. destruct (n <=? m); [reflexivity|]. rewrite IH. apply perm_swap. Qed.
Lemma norm_perm l : Permutation (norm l) l.
Proof. induction l as [|n l IH]; cbn [norm fold_right]; [reflexivity|]. rewrite ins_perm. now constructor. Qed.
Lemma den_flat env e : den env e = flat_map (fun n => nth n env []) (flat e).
Proof. induction e as [|n|a IHa b IHb]; cbn [den flat]; [reflexivity|cbn [flat_map]; now rewrite app_nil_r|]. now rewrite flat_map_app, IHa, IHb. Qed.
Lemma perm_ok env a b : norm (flat a) = norm (flat b) -> Permutation (den env a) (den env b).
Proof. intros E. rewrite !den_flat. apply Permutation_flat_map. rewrite <- (norm_perm (flat a)), E. apply norm_perm. Qed.
End P.

Ltac p_find x env :=
  lazymatch env with
  | x :: _ => constr:(O)
  | _ :: ?e => let n := p_find x e in constr:(S n)
  end.
Ltac p_add x env :=
  match env with
  | _ => let n := p_find x env in constr:(env)
  | _ => constr:(x :: env)
  end.
Ltac p_env T l env :=
  lazymatch l with
  | ?a ++ ?b => let e := p_env T a env in p_env T b e
  | @nil _ => constr:(env)
  | @cons _ ?x (@nil _) => p_add (@cons T x (@nil T)) env
  | @cons _ ?x ?r => let e := p_add (@cons T x (@nil T)) env in p_env T r e
  | _ => p_add l env
  end.
Ltac p_reify T l env :=
  lazymatch l with
  | ?a ++ ?b => let x := p_reify T a env in let y := p_reify T b env in constr:(PApp x y)
  | @nil _ => constr:(PNil)
  | @cons _ ?x (@nil _) => let n := p_find (@cons T x (@nil T)) env in constr:(PAtom n)
  | @cons _ ?x ?r => let n := p_find (@cons T x (@nil T)) env in let y := p_reify T r env in constr:(PApp (PAtom n) y)
  | _ => let n := p_find l env in constr:(PAtom n)
  end.
Ltac perm :=
  lazymatch goal with
  | |- @Permutation ?T ?l ?r =>
      let env := p_env T l (@nil (list T)) in
      let env := p_env T r env in
      let x := p_reify T l env in let y := p_reify T r env in
      change (Permutation (den env x) (den env y)); apply perm_ok; vm_compute; reflexivity
  end.

Example perm_ex (A : Type) (x y z : A) l r : Permutation (x :: y :: l ++ z :: r) (r ++ (z :: l) ++ [y] ++ [x]).
Proof. perm. Qed.
