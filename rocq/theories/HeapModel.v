(** A heap of blocks of any kind, for the models of what is allocated and freed: zt_calloc and zt_malloc (zt_malloc.c) place a block at an address that is not in use and not NULL, free takes it away; using or freeing what is not there is undefined. *)
From Coq Require Import Permutation.
From Verif Require Import Prelude AmemModel AmemProofs Perm.
Local Open Scope Z_scope.

Record hp (A : Type) := mkhp { blocks : list (nat * A); calls : nat }.
Arguments mkhp {A}. Arguments blocks {A}. Arguments calls {A}.
Definition hget {A} (m : hp A) (p : nat) : outcome A := match aget (blocks m) p with Some c => Ok c | None => UB end.
Definition hput {A} (m : hp A) (p : nat) (c : A) : hp A := mkhp (aput (blocks m) p c) (calls m).
(* free; the address is one that malloc returned *)
Definition hfree {A} (m : hp A) (p : nat) : outcome (hp A) := match aget (blocks m) p with Some _ => Ok (mkhp (adel (blocks m) p) (calls m)) | None => UB end.
(* zt_malloc.c:18-39 zt_calloc_p, zt_malloc_p: pick is given the number of earlier calls and the addresses in use *)
Definition hnew {A} (pick : nat -> list nat -> nat) (m : hp A) (c : A) : nat * hp A := let x := pick (calls m) (map fst (blocks m)) in (x, mkhp ((x, c) :: blocks m) (S (calls m))).
Definition good (pick : nat -> list nat -> nat) : Prop := forall k l, ~ In (pick k l) l /\ pick k l <> 0%nat.

Section H.
Context {A : Type}.
Definition owns (m : hp A) (L : list (nat * A)) : Prop := Permutation (blocks m) L /\ NoDup (map fst (blocks m)) /\ ~ In 0%nat (map fst (blocks m)).
Lemma owns_perm m L L' : owns m L -> Permutation L L' -> owns m L'.
Proof. intros [H N] P. split; [now rewrite H|exact N]. Qed.
Lemma owns_get m x c L : owns m ((x, c) :: L) -> hget m x = Ok c.
Proof. intros (H & N & _). unfold hget. now rewrite (aget_perm _ _ c L). Qed.
Lemma owns_in m L x c : owns m L -> In (x, c) L -> hget m x = Ok c.
Proof. intros (H & N & _) I. unfold hget. rewrite (aget_in _ _ c N); [reflexivity|]. now apply (Permutation_in _ (Permutation_sym H)). Qed.
Lemma owns_size m L : owns m L -> length (blocks m) = length L.
Proof. intros [H _]. apply (Permutation_length H). Qed.
Lemma owns_put m x c c' L : owns m ((x, c) :: L) -> owns (hput m x c') ((x, c') :: L).
Proof. intros (H & N & Z). split; cbn [hput blocks]; [now apply (aput_perm _ _ c)|]. now rewrite aput_keys. Qed.
Lemma owns_free m x c L : owns m ((x, c) :: L) -> exists m', hfree m x = Ok m' /\ owns m' L.
Proof.
  intros H. pose proof (owns_get _ _ _ _ H) as G. unfold hget in G. unfold hfree. destruct (aget (blocks m) x); [|discriminate]. destruct H as (H & N & Z). eexists. split; [reflexivity|]. assert (P : Permutation (adel (blocks m) x) L) by now apply (adel_perm _ _ c). split; [exact P|]. cbn [blocks]. pose proof (Permutation_map fst P) as P1. pose proof (Permutation_map fst H) as P2. cbn [map fst] in P2. split.
  - apply (Permutation_NoDup (Permutation_sym P1)). apply (Permutation_NoDup P2) in N. now inversion N.
  - intros I. apply Z. apply (Permutation_in _ (Permutation_sym P2)). right. now apply (Permutation_in _ P1).
Qed.
Lemma owns_nodup m L : owns m L -> NoDup (map fst L).
Proof. intros (H & N & _). now apply (Permutation_NoDup (Permutation_map fst H)). Qed.
Lemma owns_nonnull m L x c : owns m L -> In (x, c) L -> x <> 0%nat.
Proof. intros (H & _ & Z) I -> . apply Z. apply (in_map fst) in I. apply (Permutation_in _ (Permutation_sym (Permutation_map fst H))). exact I. Qed.
Lemma owns_gone m L x : owns m L -> ~ In x (map fst L) -> hfree m x = UB /\ hget m x = UB.
Proof. intros (H & N & _) I. assert (X : aget (blocks m) x = None). { apply aget_none. intros J. apply I. now apply (Permutation_in _ (Permutation_map fst H)). } unfold hfree, hget. now rewrite X. Qed.
Lemma owns_new pick m c L : good pick -> owns m L -> exists x m', hnew pick m c = (x, m') /\ owns m' ((x, c) :: L).
Proof.
  intros F (H & N & Z). unfold hnew. eexists _, _. split; [reflexivity|]. split; cbn [blocks]; [now apply perm_skip|]. cbn [map fst]. split; [constructor; [apply F|exact N]|]. intros [E|I]; [now apply F in E|contradiction].
Qed.
Lemma owns_nil : owns (mkhp [] 0) [].
Proof. repeat split; constructor || (intros []). Qed.
Lemma hfree_cases (m : hp A) x : hfree m x = UB \/ exists m', hfree m x = Ok m'.
Proof. unfold hfree. destruct (aget (blocks m) x); eauto. Qed.
End H.
(** an allocator that meets the condition *)
Definition next (c : nat) (l : list nat) : nat := S (fold_right Nat.max 0%nat l).
Lemma next_good : good next.
Proof. intros c l. split; [|discriminate]. intros H. assert (B : forall y l, In y l -> (y <= fold_right Nat.max 0 l)%nat). { clear. intros y. induction l as [|z l IH]; [intros []|]. intros [->|I]; cbn [fold_right]; [lia|]. apply IH in I. lia. } apply B in H. unfold next in H. lia. Qed.
