(** Ownership of heap cells: [holds h L]: L lists distinct non-NULL addresses with the contents of their cells.  (The generic version of the assertion of RbtRep.v.) *)
From Verif Require Import Prelude Heap.
From Coq Require Import Permutation.

Section Sep.
Context {C : Type}.
Definition holds (h : heap C) (L : list (nat * C)) : Prop := NoDup (map fst L) /\ Forall (fun e => fst e <> 0 /\ cells h (fst e) = Some (snd e)) L.
Lemma holds_perm h L L' : Permutation L L' -> holds h L -> holds h L'.
Proof. intros P [D F]. split; [eapply Permutation_NoDup; [apply Permutation_map, P|exact D]|eapply Permutation_Forall; eassumption]. Qed.
Lemma holds_head h a n L : holds h ((a, n) :: L) -> a <> 0 /\ load h a = Ok n.
Proof. intros [_ F]. inversion F as [|? ? [A B] _]; subst. split; [exact A|]. now apply load_ok. Qed.
Lemma holds_tail h e L : holds h (e :: L) -> holds h L.
Proof. intros [D F]. cbn [map] in D. inversion D; inversion F; subst. now split. Qed.
Lemma holds_app_r h L M : holds h (L ++ M) -> holds h M.
Proof. induction L as [|e L IH]; [auto|]. intros H. apply IH. eapply holds_tail, H. Qed.
Lemma holds_app_l h L M : holds h (L ++ M) -> holds h L.
Proof. intros H. apply (holds_app_r h M L). revert H. apply holds_perm, Permutation_app_comm. Qed.
Lemma holds_in h L a n : holds h L -> In (a, n) L -> a <> 0 /\ load h a = Ok n.
Proof. intros [_ F] I. rewrite Forall_forall in F. destruct (F _ I) as [A B]. split; [exact A|]. now apply load_ok. Qed.
Lemma holds_notin h a n L : holds h ((a, n) :: L) -> ~ In a (map fst L).
Proof. intros [D _]. cbn [map fst] in D. now inversion D. Qed.
Lemma holds_upd h a n n' L : holds h ((a, n) :: L) -> holds (hupd h a n') ((a, n') :: L).
Proof.
  intros H. pose proof (holds_notin _ _ _ _ H) as NI. destruct H as [D F]. inversion F as [|? ? [A B] F']; subst. split; [exact D|]. constructor; [split; [exact A|apply hupd_same]|].
  rewrite Forall_forall in *. intros [b m] I. destruct (F' _ I) as [X Y]. cbn [fst snd] in *. split; [exact X|]. rewrite hupd_other; [exact Y|]. intros ->. apply NI. apply in_map_iff. exists (a, m). now split.
Qed.
Lemma holds_store h a n n' L : holds h ((a, n) :: L) -> exists h', store h a n' = Ok h' /\ holds h' ((a, n') :: L) /\ (forall b, b <> a -> cells h' b = cells h b) /\ fresh h' = fresh h.
Proof.
  intros H. exists (hupd h a n'). destruct (holds_head _ _ _ _ H) as [A B]. unfold load in B. destruct (cells h a) eqn:E; [|discriminate]. split; [now apply store_ok with (c' := c)|]. split; [eapply holds_upd, H|]. split; [intros b NE; now apply hupd_other|reflexivity].
Qed.
Lemma holds_release h a n L : holds h ((a, n) :: L) -> exists h', release h a = Ok h' /\ holds h' L /\ cells h' a = None /\ (forall b, b <> a -> cells h' b = cells h b) /\ fresh h' = fresh h.
Proof.
  intros H. pose proof (holds_notin _ _ _ _ H) as NI. destruct (holds_head _ _ _ _ H) as [A B]. unfold load in B. unfold release. destruct (cells h a) eqn:E; [|discriminate]. eexists. split; [reflexivity|]. cbn [cells fresh]. rewrite Nat.eqb_refl.
  split; [|split; [reflexivity|split; [intros b NE; now rewrite (proj2 (Nat.eqb_neq _ _) NE)|reflexivity]]].
  apply holds_tail in H. destruct H as [D F]. split; [exact D|]. rewrite Forall_forall in *. intros [b m] I. destruct (F _ I) as [X Y]. cbn [fst snd cells] in *. split; [exact X|]. destruct (Nat.eqb_spec b a) as [->|]; [|exact Y]. exfalso. apply NI. apply in_map_iff. exists (a, m). now split.
Qed.
Lemma holds_alloc h c L : wf h -> holds h L -> exists h', alloc h c = (fresh h, h') /\ holds h' ((fresh h, c) :: L) /\ wf h' /\ (forall b, b <> fresh h -> cells h' b = cells h b).
Proof.
  intros W [D F]. unfold alloc. eexists. split; [reflexivity|]. pose proof W as (W0 & W1 & W2).
  assert (NI : ~ In (fresh h) (map fst L)). { intros I. apply in_map_iff in I. destruct I as ([b m] & E & I). cbn [fst] in E. subst b. rewrite Forall_forall in F. destruct (F _ I) as [_ Y]. cbn [fst snd] in Y. rewrite W2 in Y; [discriminate|lia]. }
  split; [|split].
  - split; [constructor; assumption|]. constructor; [cbn [fst snd cells]; rewrite Nat.eqb_refl; split; [lia|reflexivity]|]. rewrite Forall_forall in *. intros [b m] I. destruct (F _ I) as [X Y]. cbn [fst snd cells] in *. split; [exact X|].
    destruct (Nat.eqb_spec b (fresh h)) as [->|]; [|exact Y]. exfalso. apply NI. apply in_map_iff. exists (fresh h, m). now split.
  - split; [|split]; cbn [cells fresh]; [destruct (Nat.eqb_spec 0 (fresh h)); [lia|exact W0]|lia|]. intros b LE. destruct (Nat.eqb_spec b (fresh h)); [lia|]. apply W2. lia.
  - intros b NE. cbn [cells]. now rewrite (proj2 (Nat.eqb_neq _ _) NE).
Qed.
End Sep.

(** permutations of lists made of atoms *)
Lemma perm_move {A} (x : A) l r1 r2 : Permutation l (r1 ++ r2) -> Permutation (x :: l) (r1 ++ x :: r2).
Proof. apply Permutation_cons_app. Qed.
Lemma perm_concat {A} (a b : list (list A)) : Permutation a b -> Permutation (concat a) (concat b).
Proof.
  induction 1 as [|x a b _ IH|x y a|a b c _ I1 _ I2]; cbn [concat]; [reflexivity|now apply Permutation_app_head|rewrite !app_assoc; apply Permutation_app_tail, Permutation_app_comm|now transitivity (concat b)].
Qed.
Lemma perm_eq {A} (a b : list A) : a = b -> Permutation a b.
Proof. now intros ->. Qed.
Ltac atoms l :=
  lazymatch l with
  | ?a ++ ?b => let x := atoms a in let y := atoms b in lazymatch type of l with list ?T => constr:(@app (list T) x y) end
  | ?a :: ?b => lazymatch type of a with ?T => let y := atoms b in constr:(@cons (list T) [a] y) end
  | @nil ?T => constr:(@nil (list T))
  | ?a => lazymatch type of a with ?T => constr:(@cons T a (@nil T)) end
  end.
Ltac find_at x r acc k :=
  lazymatch r with
  | ?y :: ?t => tryif constr_eq x y then k acc t else (lazymatch type of y with ?T => find_at x t constr:(@cons T y acc) k end)
  end.
Ltac perm_atoms :=
  lazymatch goal with
  | |- Permutation [] [] => apply perm_nil
  | |- Permutation (?x :: ?l) ?r =>
      lazymatch type of x with ?T =>
        find_at x r (@nil T) ltac:(fun acc t => let a := eval cbn [rev app] in (rev acc) in apply (perm_move x l a t); cbn [app]; perm_atoms) end
  end.
Ltac permutes :=
  lazymatch goal with
  | |- Permutation ?a ?b =>
      let x := atoms a in let y := atoms b in
      let x := eval cbn [app] in x in let y := eval cbn [app] in y in
      transitivity (concat x); [apply perm_eq; rewrite ?concat_cons, ?concat_nil; repeat (progress (cbn [app]; rewrite <- ?app_assoc, ?app_nil_r)); reflexivity|];
      transitivity (concat y); [apply perm_concat; perm_atoms|apply perm_eq; rewrite ?concat_cons, ?concat_nil; repeat (progress (cbn [app]; rewrite <- ?app_assoc, ?app_nil_r)); reflexivity]
  end.
Example permutes_test (a b : list nat) x y : Permutation (x :: a ++ (y :: b) ++ []) ((b ++ [y]) ++ x :: a).
Proof. permutes. Qed.
