(** A small heap: addresses are naturals, NULL is 0, every address holds at most one cell.
    [fresh] is the allocator's next address: zt_calloc (src/libzt/zt_malloc.c) either returns a new
    block or aborts; simplification: a freed address is never handed out again. *)
From Verif Require Import Prelude.

Record heap (C : Type) := mkheap { cells : nat -> option C; fresh : nat }.
Arguments mkheap {C}. Arguments cells {C}. Arguments fresh {C}.

Definition wf {C} (h : heap C) : Prop :=
  cells h 0 = None /\ 0 < fresh h /\ forall a, fresh h <= a -> cells h a = None.

(** dereference: UB for NULL, dangling and wild pointers *)
Definition load {C} (h : heap C) (a : nat) : outcome C :=
  match cells h a with Some c => Ok c | None => UB end.
(** store through a pointer to a live cell *)
Definition store {C} (h : heap C) (a : nat) (c : C) : outcome (heap C) :=
  match cells h a with
  | Some _ => Ok (mkheap (fun b => if Nat.eqb b a then Some c else cells h b) (fresh h))
  | None => UB
  end.
(** calloc of one cell with initial contents *)
Definition alloc {C} (h : heap C) (c : C) : nat * heap C :=
  (fresh h, mkheap (fun b => if Nat.eqb b (fresh h) then Some c else cells h b) (S (fresh h))).
(** free: UB unless the cell is live *)
Definition release {C} (h : heap C) (a : nat) : outcome (heap C) :=
  match cells h a with
  | Some _ => Ok (mkheap (fun b => if Nat.eqb b a then None else cells h b) (fresh h))
  | None => UB
  end.

Definition hupd {C} (h : heap C) a c := mkheap (fun b => if Nat.eqb b a then Some c else cells h b) (fresh h).

Lemma wf_fresh {C} (h : heap C) : wf h -> cells h (fresh h) = None.
Proof. intros (_ & _ & H). now apply H. Qed.

Lemma wf_live {C} (h : heap C) a c : wf h -> cells h a = Some c -> a <> 0 /\ a < fresh h.
Proof.
  intros (H0 & H1 & H2) H. split.
  - intros ->. congruence.
  - destruct (Nat.lt_ge_cases a (fresh h)) as [|L]; [assumption|]. apply H2 in L. congruence.
Qed.

Lemma load_ok {C} (h : heap C) a c : cells h a = Some c -> load h a = Ok c.
Proof. unfold load. now intros ->. Qed.

Lemma store_ok {C} (h : heap C) a c c' : cells h a = Some c' -> store h a c = Ok (hupd h a c).
Proof. unfold store. now intros ->. Qed.

Lemma hupd_same {C} (h : heap C) a c : cells (hupd h a c) a = Some c.
Proof. cbn. now rewrite Nat.eqb_refl. Qed.
Lemma hupd_other {C} (h : heap C) a b c : b <> a -> cells (hupd h a c) b = cells h b.
Proof. cbn. intros H. apply Nat.eqb_neq in H. now rewrite H. Qed.

Lemma wf_upd {C} (h : heap C) a c c' : wf h -> cells h a = Some c' -> wf (hupd h a c).
Proof.
  intros W H. pose proof (wf_live _ _ _ W H) as [A B]. destruct W as (H0 & H1 & H2).
  split; [|split]; cbn.
  - destruct a; [congruence|exact H0].
  - exact H1.
  - intros b Hb. destruct (Nat.eqb_spec b a); [lia|auto].
Qed.

Lemma wf_alloc {C} (h : heap C) c : wf h -> wf (snd (alloc h c)).
Proof.
  intros (H0 & H1 & H2). split; [|split]; cbn.
  - destruct (fresh h); [lia|exact H0].
  - lia.
  - intros b Hb. destruct (Nat.eqb_spec b (fresh h)); [lia|apply H2; lia].
Qed.

Lemma alloc_same {C} (h : heap C) c : cells (snd (alloc h c)) (fresh h) = Some c.
Proof. cbn. now rewrite Nat.eqb_refl. Qed.
Lemma alloc_other {C} (h : heap C) c b : b <> fresh h -> cells (snd (alloc h c)) b = cells h b.
Proof. cbn. intros H. apply Nat.eqb_neq in H. now rewrite H. Qed.

Lemma release_ok {C} (h : heap C) a c : cells h a = Some c ->
  exists h', release h a = Ok h' /\ cells h' a = None /\ (forall b, b <> a -> cells h' b = cells h b) /\ fresh h' = fresh h.
Proof.
  unfold release. intros ->. eexists. split; [reflexivity|]. split; [|split].
  - cbn. now rewrite Nat.eqb_refl.
  - intros b Hb. cbn. apply Nat.eqb_neq in Hb. now rewrite Hb.
  - reflexivity.
Qed.
Lemma wf_release {C} (h h' : heap C) a : wf h -> release h a = Ok h' -> wf h'.
Proof.
  unfold release. destruct (cells h a); [|discriminate]. intros (H0 & H1 & H2) E.
  assert (h' = mkheap (fun b => if Nat.eqb b a then None else cells h b) (fresh h)) by congruence. subst h'.
  split; [|split]; cbn.
  - destruct a; [reflexivity|exact H0].
  - exact H1.
  - intros b Hb. destruct (Nat.eqb b a); auto.
Qed.
