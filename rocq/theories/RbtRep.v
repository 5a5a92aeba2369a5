(** zt_tree.c: which cells a tree occupies.  [holds h L]: L lists distinct non-NULL addresses with the contents of their cells. *)
From Verif Require Import Prelude Heap RbtModel.
From Coq Require Import Permutation.

Inductive tree := E | N (c : col) (l : tree) (a : nat) (r : tree).
Definition root (t : tree) : nat := match t with E => 0 | N _ _ a _ => a end.
Fixpoint inorder (t : tree) : list nat := match t with E => [] | N _ l a r => inorder l ++ a :: inorder r end.

Definition cellsof := list (nat * node).
(** the cells of t when its root's parent pointer is p *)
Fixpoint nodes (t : tree) (p : nat) : cellsof := match t with E => [] | N c l a r => (a, mknode c (root l) (root r) p) :: nodes l a ++ nodes r a end.
Definition holds (h : nheap) (L : cellsof) : Prop := NoDup (map fst L) /\ Forall (fun e => fst e <> 0 /\ cells h (fst e) = Some (snd e)) L.

(** contexts: the way from a subtree up to the root *)
Inductive dir := Lf | Rt.
Notation frame := (dir * col * nat * tree)%type.
Definition fill (f : frame) (t : tree) : tree := match f with (Lf, c, a, s) => N c t a s | (Rt, c, a, s) => N c s a t end.
Fixpoint plug (z : list frame) (t : tree) : tree := match z with [] => t | f :: z => plug z (fill f t) end.
Definition zroot (z : list frame) : nat := match z with [] => 0 | (_, _, a, _) :: _ => a end.
Fixpoint znodes (z : list frame) (r : nat) : cellsof :=
  match z with
  | [] => []
  | (Lf, c, a, s) :: z => (a, mknode c r (root s) (zroot z)) :: nodes s a ++ znodes z a
  | (Rt, c, a, s) :: z => (a, mknode c (root s) r (zroot z)) :: nodes s a ++ znodes z a
  end.
Fixpoint top (z : list frame) (r : nat) : nat := match z with [] => r | (_, _, a, _) :: z => top z a end.

(** permutations of lists made of atoms *)
Lemma perm_move {A} (x : A) l r1 r2 : Permutation l (r1 ++ r2) -> Permutation (x :: l) (r1 ++ x :: r2).
Proof. apply Permutation_cons_app. Qed.
Lemma perm_concat {A} (a b : list (list A)) : Permutation a b -> Permutation (concat a) (concat b).
Proof.
  induction 1 as [|x a b _ IH|x y a|a b c _ I1 _ I2]; cbn [concat]; [reflexivity|now apply Permutation_app_head|rewrite !app_assoc; apply Permutation_app_tail, Permutation_app_comm|now transitivity (concat b)].
Qed.
Lemma perm_eq {A} (a b : list A) : a = b -> Permutation a b.
Proof. now intros ->. Qed.
Ltac atoms l := (* list of atoms of a list expression *)
  lazymatch l with
  | ?a ++ ?b => let x := atoms a in let y := atoms b in lazymatch type of l with list ?T => constr:(@app (list T) x y) end
  | ?a :: ?b => lazymatch type of a with ?T => let y := atoms b in constr:(@cons (list T) [a] y) end
  | @nil ?T => constr:(@nil (list T))
  | ?a => lazymatch type of a with ?T => constr:(@cons T a (@nil T)) end
  end.
Ltac split_at x r acc :=
  lazymatch r with
  | ?y :: ?t => tryif constr_eq x y then (let a := eval cbn [rev app] in (rev acc) in change r with (a ++ x :: t)) else
                (lazymatch type of y with ?T => split_at x t constr:(@cons T y acc) end)
  end.
Ltac find_at x r acc k :=
  lazymatch r with
  | ?y :: ?t => tryif constr_eq x y then k acc t else (lazymatch type of y with ?T => find_at x t constr:(@cons T y acc) k end)
  end.
Ltac perm_atoms :=
  lazymatch goal with
  | |- Permutation [] [] => apply perm_nil
  | |- Permutation (?x :: ?l) ?r =>
      lazymatch type of x with ?T =>
        find_at x r (@nil T) ltac:(fun acc t => let a := eval cbn [rev app] in (rev acc) in apply (perm_move x l a t); cbn [app]; perm_atoms) end
  end.
Ltac perm :=
  cbn [nodes znodes app root zroot];
  lazymatch goal with
  | |- Permutation ?a ?b =>
      let x := atoms a in let y := atoms b in
      let x := eval cbn [app] in x in let y := eval cbn [app] in y in
      transitivity (concat x); [apply perm_eq; rewrite ?concat_cons, ?concat_nil; repeat (progress (cbn [app]; rewrite <- ?app_assoc, ?app_nil_r)); reflexivity|];
      transitivity (concat y); [apply perm_concat; perm_atoms|apply perm_eq; rewrite ?concat_cons, ?concat_nil; repeat (progress (cbn [app]; rewrite <- ?app_assoc, ?app_nil_r)); reflexivity]
  end.
Example perm_test (a b : list nat) x y : Permutation (x :: a ++ (y :: b) ++ []) ((b ++ [y]) ++ x :: a).
Proof. perm. Qed.

Lemma holds_perm h L L' : Permutation L L' -> holds h L -> holds h L'.
Proof.
  intros P [D F]. split.
  - eapply Permutation_NoDup; [apply Permutation_map, P|exact D].
  - eapply Permutation_Forall; eassumption.
Qed.
Lemma holds_head h a n L : holds h ((a, n) :: L) -> a <> 0 /\ load h a = Ok n.
Proof. intros [_ F]. inversion F as [|? ? [A B] _]; subst. split; [exact A|]. now apply load_ok. Qed.
Lemma holds_tail h a n L : holds h ((a, n) :: L) -> holds h L.
Proof. intros [D F]. cbn [map] in D. inversion D; inversion F; subst. now split. Qed.
Lemma holds_app h L M : holds h (L ++ M) -> holds h L /\ holds h M.
Proof.
  intros [D F]. rewrite map_app in D. apply Forall_app in F. split; (split; [|apply F]).
  - clear F. induction L as [|[x n] L IH]; cbn [map app] in *; [constructor|]. inversion D as [|? ? D1 D2]; subst. constructor; [|now apply IH]. intros I. apply D1, in_or_app. now left.
  - clear F. induction L as [|[x n] L IH]; cbn [map app] in *; [exact D|]. inversion D; subst. now apply IH.
Qed.
Lemma holds_in h L a n : holds h L -> In (a, n) L -> a <> 0 /\ load h a = Ok n.
Proof. intros [_ F] I. rewrite Forall_forall in F. destruct (F _ I) as [A B]. split; [exact A|]. now apply load_ok. Qed.
Lemma holds_notin h a n L : holds h ((a, n) :: L) -> ~ In a (map fst L).
Proof. intros [D _]. cbn [map fst] in D. now inversion D. Qed.
Lemma holds_neq h a n b m L : holds h ((a, n) :: (b, m) :: L) -> a <> b.
Proof. intros H ->. apply holds_notin in H. apply H. now left. Qed.
Lemma root_in t p : t <> E -> In (root t) (map fst (nodes t p)).
Proof. destruct t; [congruence|]. intros _. now left. Qed.
Lemma holds_root h a n t p L : holds h ((a, n) :: nodes t p ++ L) -> root t <> a.
Proof.
  intros H R. destruct t as [|c l x r]; [apply holds_head in H; cbn [root] in R; destruct H; congruence|]. apply holds_notin in H. apply H. rewrite map_app. apply in_or_app. left. rewrite <- R. now apply root_in.
Qed.
Lemma holds_upd h a n n' L : holds h ((a, n) :: L) -> holds (hupd h a n') ((a, n') :: L).
Proof.
  intros H. pose proof (holds_notin _ _ _ _ H) as NI. destruct H as [D F]. inversion F as [|? ? [A B] F']; subst. split; [exact D|]. constructor; [split; [exact A|apply hupd_same]|].
  rewrite Forall_forall in *. intros [b m] I. destruct (F' _ I) as [X Y]. cbn [fst snd] in *. split; [exact X|]. rewrite hupd_other; [exact Y|]. intros ->. apply NI. apply in_map_iff. exists (a, m). now split.
Qed.
Lemma setc_ok h a c l r p L v : holds h ((a, mknode c l r p) :: L) -> exists h', setc h a v = Ok h' /\ holds h' ((a, mknode v l r p) :: L).
Proof. intros H. pose proof (holds_head _ _ _ _ H) as [A B]. unfold setc. rewrite B. cbn [obind left right parent]. exists (hupd h a (mknode v l r p)). split; [|eapply holds_upd, H]. unfold load in B. destruct (cells h a) eqn:Ec; [|discriminate]. now apply store_ok with (c' := n). Qed.
Lemma setl_ok h a c l r p L v : holds h ((a, mknode c l r p) :: L) -> exists h', setl h a v = Ok h' /\ holds h' ((a, mknode c v r p) :: L).
Proof. intros H. pose proof (holds_head _ _ _ _ H) as [A B]. unfold setl. rewrite B. cbn [obind colour left right parent]. exists (hupd h a (mknode c v r p)). split; [|eapply holds_upd, H]. unfold load in B. destruct (cells h a) eqn:Ec; [|discriminate]. now apply store_ok with (c' := n). Qed.
Lemma setr_ok h a c l r p L v : holds h ((a, mknode c l r p) :: L) -> exists h', setr h a v = Ok h' /\ holds h' ((a, mknode c l v p) :: L).
Proof. intros H. pose proof (holds_head _ _ _ _ H) as [A B]. unfold setr. rewrite B. cbn [obind colour left right parent]. exists (hupd h a (mknode c l v p)). split; [|eapply holds_upd, H]. unfold load in B. destruct (cells h a) eqn:Ec; [|discriminate]. now apply store_ok with (c' := n). Qed.
Lemma setp_ok h a c l r p L v : holds h ((a, mknode c l r p) :: L) -> exists h', setp h a v = Ok h' /\ holds h' ((a, mknode c l r v) :: L).
Proof. intros H. pose proof (holds_head _ _ _ _ H) as [A B]. unfold setp. rewrite B. cbn [obind colour left right parent]. exists (hupd h a (mknode c l r v)). split; [|eapply holds_upd, H]. unfold load in B. destruct (cells h a) eqn:Ec; [|discriminate]. now apply store_ok with (c' := n). Qed.

(** symbolic execution.  [bring a]: move the cell of a to the front of the assertion *)
Ltac flat H := cbn [nodes znodes app root zroot] in H; repeat (progress (cbn [app] in H; rewrite <- ?app_assoc in H)).
Ltac cell_of a L k := (* k n: contents of a in L *)
  lazymatch L with
  | (?b, ?n) :: ?t => tryif constr_eq a b then k n else cell_of a t k
  | _ ++ ?t => cell_of a t k
  end.
Ltac remove_cell a L :=
  lazymatch L with
  | (?b, ?n) :: ?t => tryif constr_eq a b then constr:(t) else (let t' := remove_cell a t in constr:((b, n) :: t'))
  | ?x ++ ?t => let t' := remove_cell a t in constr:(x ++ t')
  end.
Ltac without a L :=
  lazymatch L with
  | (?b, ?n) :: ?t => lazymatch b with a => constr:(t) | _ => let t' := without a t in constr:((b, n) :: t') end
  | ?x ++ ?t => let t' := without a t in constr:(x ++ t')
  end.
Ltac bring a H :=
  flat H;
  lazymatch type of H with
  | holds ?h ?L => cell_of a L ltac:(fun n => let L' := without a L in
      let P := fresh in assert (P : holds h ((a, n) :: L')) by (revert H; apply holds_perm; perm); clear H; rename P into H)
  end.
Ltac ld H :=
  lazymatch goal with
  | |- context [load ?h ?a] => bring a H; rewrite (proj2 (holds_head _ _ _ _ H)); cbn [obind colour left right parent is_red negb andb]
  end.
Ltac st H :=
  lazymatch goal with
  | |- context [setc ?h ?a ?v] => bring a H; let h' := fresh "h" in let EQ := fresh in destruct (setc_ok _ _ _ _ _ _ _ v H) as (h' & EQ & ?H'); rewrite EQ; clear EQ H; rename H' into H; cbn [obind colour left right parent is_red negb andb]
  | |- context [setl ?h ?a ?v] => bring a H; let h' := fresh "h" in let EQ := fresh in destruct (setl_ok _ _ _ _ _ _ _ v H) as (h' & EQ & ?H'); rewrite EQ; clear EQ H; rename H' into H; cbn [obind colour left right parent is_red negb andb]
  | |- context [setr ?h ?a ?v] => bring a H; let h' := fresh "h" in let EQ := fresh in destruct (setr_ok _ _ _ _ _ _ _ v H) as (h' & EQ & ?H'); rewrite EQ; clear EQ H; rename H' into H; cbn [obind colour left right parent is_red negb andb]
  | |- context [setp ?h ?a ?v] => bring a H; let h' := fresh "h" in let EQ := fresh in destruct (setp_ok _ _ _ _ _ _ _ v H) as (h' & EQ & ?H'); rewrite EQ; clear EQ H; rename H' into H; cbn [obind colour left right parent is_red negb andb]
  end.
(** a <> 0 for an address of the assertion *)
Ltac nz a H := bring a H; let A := fresh in pose proof (proj1 (holds_head _ _ _ _ H)) as A; replace (a =? 0) with false by (symmetry; apply Nat.eqb_neq; exact A).

Ltac drop_atom A L :=
  lazymatch L with
  | ?x ++ ?t => tryif constr_eq x A then constr:(t) else (let t' := drop_atom A t in constr:(x ++ t'))
  | ?e :: ?t => let t' := drop_atom A t in constr:(e :: t')
  end.
Ltac drop A L :=
  lazymatch L with
  | A ++ ?t => constr:(t)
  | ?x ++ ?t => let t' := drop A t in constr:(x ++ t')
  | ?e :: ?t => let t' := drop A t in constr:(e :: t')
  end.
(** the root of the subtree s (below p) is not x *)
Ltac neroot x s p H NE :=
  bring x H;
  lazymatch type of H with
  | holds ?h ((x, ?n) :: ?L) => let L' := drop (nodes s p) L in
      assert (NE : root s <> x) by (apply (holds_root h x n s p L'); revert H; apply holds_perm; perm)
  end.
Ltac neaddr a b H NE :=
  bring b H; bring a H;
  assert (NE : a <> b) by (eapply holds_neq; exact H).
Ltac fin H := eexists; split; [reflexivity|]; revert H; apply holds_perm; perm.

(** rotations *)
Lemma rotate_left_ok h z cx a x cy b y d F : holds h (znodes z x ++ nodes (N cx a x (N cy b y d)) (zroot z) ++ F) ->
  exists h', rotate_left h (top z x) x = Ok (h', top z y) /\ holds h' (znodes z y ++ nodes (N cy (N cx a x b) y d) (zroot z) ++ F).
Proof.
  intros H. unfold rotate_left. flat H. ld H. ld H. st H.
  assert (STEP : exists h', (if root b =? 0 then Ok h0 else setp h0 (root b) x) = Ok h' /\
    holds h' ((x, mknode cx (root a) (root b) (zroot z)) :: (y, mknode cy (root b) (root d) x) :: znodes z x ++ nodes a x ++ nodes b x ++ nodes d y ++ F)).
  { destruct b as [|cb b1 rb b2]; cbn [root Nat.eqb]; [fin H|]. nz rb H. st H. fin H. }
  destruct STEP as (h1 & E1 & H1). rewrite E1. clear E1 H. cbn [obind]. rename H1 into H. clear h0.
  ld H. st H. destruct z as [|[[[[|] cp] p] s] z]; cbn [zroot top].
  - cbn [Nat.eqb obind]. st H. st H. fin H.
  - nz p H. ld H. rewrite Nat.eqb_refl. st H. st H. st H. fin H.
  - nz p H. ld H. neroot x s p H NE. replace (x =? root s) with false by (symmetry; apply Nat.eqb_neq; congruence). st H. st H. st H. fin H.
Qed.
Lemma rotate_right_ok h z cx a x cy b y d F : holds h (znodes z y ++ nodes (N cy (N cx a x b) y d) (zroot z) ++ F) ->
  exists h', rotate_right h (top z y) y = Ok (h', top z x) /\ holds h' (znodes z x ++ nodes (N cx a x (N cy b y d)) (zroot z) ++ F).
Proof.
  intros H. unfold rotate_right. flat H. ld H. ld H. st H.
  assert (STEP : exists h', (if root b =? 0 then Ok h0 else setp h0 (root b) y) = Ok h' /\
    holds h' ((y, mknode cy (root b) (root d) (zroot z)) :: (x, mknode cx (root a) (root b) y) :: znodes z y ++ nodes a x ++ nodes b y ++ nodes d y ++ F)).
  { destruct b as [|cb b1 rb b2]; cbn [root Nat.eqb]; [fin H|]. nz rb H. st H. fin H. }
  destruct STEP as (h1 & E1 & H1). rewrite E1. clear E1 H. cbn [obind]. rename H1 into H. clear h0.
  ld H. st H. destruct z as [|[[[[|] cp] p] s] z]; cbn [zroot top].
  - cbn [Nat.eqb obind]. st H. st H. fin H.
  - nz p H. ld H. rewrite Nat.eqb_refl. st H. st H. st H. fin H.
  - nz p H. ld H. neroot y s p H NE. replace (y =? root s) with false by (symmetry; apply Nat.eqb_neq; congruence). st H. st H. st H. fin H.
Qed.

(** moving between contexts and trees *)
Lemma nodes_plug z : forall t, Permutation (nodes (plug z t) 0) (znodes z (root t) ++ nodes t (zroot z)).
Proof.
  induction z as [|[[[[|] c] a] s] z IH]; intros t; cbn [plug fill]; [reflexivity| |]; rewrite IH; perm.
Qed.
Lemma root_plug z : forall t, root (plug z t) = top z (root t).
Proof. induction z as [|[[[[|] c] a] s] z IH]; intros t; cbn [plug fill top]; [reflexivity| |]; rewrite IH; reflexivity. Qed.
Fixpoint zleft (z : list frame) : list nat := match z with [] => [] | (Lf, _, _, _) :: z => zleft z | (Rt, _, a, s) :: z => zleft z ++ inorder s ++ [a] end.
Fixpoint zright (z : list frame) : list nat := match z with [] => [] | (Rt, _, _, _) :: z => zright z | (Lf, _, a, s) :: z => a :: inorder s ++ zright z end.
Lemma inorder_plug z : forall t, inorder (plug z t) = zleft z ++ inorder t ++ zright z.
Proof.
  induction z as [|[[[[|] c] a] s] z IH]; intros t; cbn [plug fill zleft zright]; [cbn [app]; now rewrite app_nil_r| |]; rewrite IH; cbn [inorder]; repeat rewrite <- app_assoc; reflexivity.
Qed.
Lemma rep_plug h z t F : holds h (nodes (plug z t) 0 ++ F) <-> holds h (znodes z (root t) ++ nodes t (zroot z) ++ F).
Proof.
  assert (P : Permutation (nodes (plug z t) 0 ++ F) (znodes z (root t) ++ nodes t (zroot z) ++ F)) by (rewrite (nodes_plug z t), <- app_assoc; reflexivity).
  split; apply holds_perm; [exact P|now symmetry].
Qed.
Lemma plug_E z t : plug z t = E -> z = [] /\ t = E.
Proof. revert t. induction z as [|[[[[|] c] a] s] z IH]; intros t H; cbn [plug fill] in H; [auto| |]; apply IH in H; destruct H as [_ H]; discriminate. Qed.
