(** The queues of a pool on the tail queues. *)
From Coq Require Import Permutation.
From Verif Require Import Prelude AmemModel AmemProofs HeapModel Perm TailqModel TailqSpec TailqProofs TailqMany.
Local Open Scope nat_scope.

Definition pool (m : mem) (Q : nat -> list Z) : Prop := exists L, all 2 m L [] /\ forall q, q < 2 -> map snd (L q) = Q q.
Definition setz (Q : nat -> list Z) (q : nat) (l : list Z) : nat -> list Z := fun p => if p =? q then l else Q p.
Lemma pool_init : pool pool_start (fun _ => []).
Proof. exists (fun _ => []). split; [split|reflexivity]. - apply owns_nil. - intros q B. destruct q as [|[|q]]; [reflexivity|reflexivity|lia]. Qed.
Lemma setz_ok L q l : forall p, map snd (setl L q l p) = setz (fun p => map snd (L p)) q (map snd l) p.
Proof. intros p. unfold setl, setz. now destruct (p =? q). Qed.
Lemma insert_pool pick m Q q d : good pick -> pool m Q -> q < 2 -> exists m', insert pick m q d = Ok m' /\ pool m' (setz Q q (Q q ++ [d])).
Proof.
  intros G (L & [O H] & M) B. unfold insert. destruct (owns_new pick (heap m) (mkentry 0 (First 0) d) _ G O) as (e & h & E & O1). rewrite E.
  assert (A : all 2 (mkmem h (heads m)) L [(e, mkentry 0 (First 0) d)]). { split; [|exact H]. apply (owns_perm _ _ _ O1). perm. }
  pose proof (focus 2 _ _ _ q B A) as F. assert (F' : rep (mkmem h (heads m)) q (L q) ((e, mkentry 0 (First 0) d) :: flat_map (bl L) (oth 2 q) ++ [])) by (apply at_perm with (1 := F); perm).
  destruct (insert_tail_ok _ _ _ _ _ _ F') as (m' & E1 & A1 & S1). exists m'. split; [exact E1|]. exists (setl L q (L q ++ [(e, d)])). split; [now apply (unfocus 2 _ _ _ _ _ _ _ B A S1)|].
  intros p Bp. rewrite setz_ok. unfold setz. destruct (p =? q); [|now apply M]. rewrite map_app, M by exact B. reflexivity.
Qed.
Lemma take_pool m Q q : pool m Q -> q < 2 -> exists m', take m q = Ok (hd_error (Q q), m') /\ pool m' (setz Q q (tl (Q q))).
Proof.
  intros (L & A & M) B. pose proof (focus 2 _ _ _ q B A) as F. unfold take. rewrite (empty_ok _ _ _ _ F). rewrite <- (M q B). destruct (L q) as [|[e v] l] eqn:EL; cbn [map snd hd_error tl].
  - exists m. split; [reflexivity|]. exists L. split; [exact A|]. intros p Bp. unfold setz. destruct (p =? q) eqn:D; [|now apply M]. apply Nat.eqb_eq in D. subst p. now rewrite EL.
  - rewrite (first_ok _ _ _ _ F). cbn [map fst hd]. destruct (remove_ok m q [] e v l _ F) as (m1 & c & E1 & A1 & Ed & S1). rewrite E1. cbn [obind]. pose proof A1 as [O1 H1].
    assert (O2 : owns (heap m1) ((e, c) :: qb (First q) l 0 ++ flat_map (bl L) (oth 2 q) ++ [])) by (apply (owns_perm _ _ _ O1); cbn [app]; perm).
    unfold get. rewrite (owns_get _ _ _ _ O2). cbn [obind]. destruct (owns_free _ _ _ _ O2) as (h & E3 & O3). rewrite E3. cbn [obind]. rewrite Ed. eexists. split; [reflexivity|]. exists (setl L q l). split.
    + apply (unfocus 2 m _ _ _ _ _ _ B A); [exact S1|]. split; [exact O3|exact H1].
    + intros p Bp. rewrite setz_ok. unfold setz. destruct (p =? q); [reflexivity|now apply M].
Qed.
Lemma pool_ext m Q Q' : pool m Q -> (forall q, q < 2 -> Q q = Q' q) -> pool m Q'.
Proof. intros (L & A & M) X. exists L. split; [exact A|]. intros q B. rewrite M by exact B. now apply X. Qed.
Definition pair (a b : list Z) : nat -> list Z := fun q => match q with O => a | _ => b end.
Lemma pool_size m Q : pool m Q -> length (blocks (heap m)) = length (Q 0) + length (Q 1).
Proof. intros (L & [O _] & M). rewrite (owns_size _ _ O), <- !M, !map_length by lia. cbn [seq flat_map]. rewrite !app_nil_r, app_length. unfold bl. rewrite <- (map_length fst), qb_fst, map_length. rewrite <- (map_length fst (qb _ _ _)), qb_fst, map_length. reflexivity. Qed.
Lemma calls_ok pick : good pick -> forall l m a b, Forall two l -> pool m (pair a b) -> exists m', calls pick m l = Ok (fst (fifo a b l), m') /\ pool m' (pair (fst (snd (fifo a b l))) (snd (snd (fifo a b l)))).
Proof.
  intros G. induction l as [|c l IH]; intros m a b T P; [now exists m|]. inversion T as [|? ? T1 T2]; subst. destruct c as [q d|q]; cbn [two] in T1; cbn [calls].
  - destruct (insert_pool pick _ _ q d G P T1) as (m1 & E1 & P1). rewrite E1. cbn [obind]. destruct q as [|[|q]]; [| |lia]; cbn [fifo pair] in *; (apply IH; [exact T2|]; apply (pool_ext _ _ _ P1); intros q B; destruct q as [|[|q]]; [reflexivity|reflexivity|lia]).
  - destruct (take_pool _ _ q P T1) as (m1 & E1 & P1). rewrite E1. cbn [obind].
    assert (X : forall a' b' x, pool m1 (pair a' b') -> hd_error (pair a b q) = x -> exists m', ('(xs, m0) <- calls pick m1 l ;; Ok (hd_error (pair a b q) :: xs, m0)) = Ok (x :: fst (fifo a' b' l), m') /\ pool m' (pair (fst (snd (fifo a' b' l))) (snd (snd (fifo a' b' l))))).
    { intros a' b' x P' Ex. destruct (IH _ _ _ T2 P') as (m2 & E2 & P2). exists m2. rewrite E2. cbn [obind]. now rewrite Ex. }
    destruct q as [|[|q]]; [| |lia]; cbn [fifo pair] in *.
    + destruct a as [|x a].
      * destruct (X [] b None) as (m2 & E2 & P2); [apply (pool_ext _ _ _ P1); intros q B; destruct q as [|[|q]]; [reflexivity|reflexivity|lia]|reflexivity|]. exists m2. destruct (fifo [] b l). cbn [fst snd] in *. auto.
      * destruct (X a b (Some x)) as (m2 & E2 & P2); [apply (pool_ext _ _ _ P1); intros q B; destruct q as [|[|q]]; [reflexivity|reflexivity|lia]|reflexivity|]. exists m2. destruct (fifo a b l). cbn [fst snd] in *. auto.
    + destruct b as [|x b].
      * destruct (X a [] None) as (m2 & E2 & P2); [apply (pool_ext _ _ _ P1); intros q B; destruct q as [|[|q]]; [reflexivity|reflexivity|lia]|reflexivity|]. exists m2. destruct (fifo a [] l). cbn [fst snd] in *. auto.
      * destruct (X a b (Some x)) as (m2 & E2 & P2); [apply (pool_ext _ _ _ P1); intros q B; destruct q as [|[|q]]; [reflexivity|reflexivity|lia]|reflexivity|]. exists m2. destruct (fifo a b l). cbn [fst snd] in *. auto.
Qed.
