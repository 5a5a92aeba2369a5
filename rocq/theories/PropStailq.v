(** C80: the singly-linked lists of compat/sys/queue.h (SLIST, STAILQ, SIMPLEQ). *)
From Verif Require Import Prelude HeapModel AmemModel AmemProofs StailqModel StailqSpec StailqProofs.
Local Open Scope nat_scope.

(** Any number of lists over the program's elements E and any allowed history: every access is to an element that exists, every macro answers as the lists of the specification do, only the links of elements and the heads of lists that were initialised are written *)
Theorem C80_lists : forall tail fuel E m0 l,
  (forall e, In e E -> e <> 0 /\ aget (blocks (heap m0)) e <> None) -> length E < fuel ->
  history tail E (fun _ => None) l ->
  exists m, calls tail fuel m0 l = Ok (fst (answers (fun _ => None) l), m) /\
    (forall x, ~ In x E -> aget (blocks (heap m)) x = aget (blocks (heap m0)) x) /\
    (forall x c, aget (blocks (heap m0)) x = Some c -> exists c', aget (blocks (heap m)) x = Some c' /\ data c' = data c) /\
    (forall q, snd (answers (fun _ => None) l) q = None -> heads m q = heads m0 q).
Proof.
  intros tail fuel E m0 l B F H. destruct (calls_ok tail fuel E m0 B F l m0 _ (inv0 tail E m0) H) as (m & G & (K & _ & _ & N)). exists m. split; [exact G|]. split; [|split; [|exact N]].
  - intros x NI. specialize (K x). unfold look in K. destruct (aget (blocks (heap m0)) x), (aget (blocks (heap m)) x); try contradiction; [|reflexivity]. destruct K as [_ [K| ->]]; [contradiction|reflexivity].
  - intros x c G0. specialize (K x). unfold look in K. rewrite G0 in K. destruct (aget (blocks (heap m)) x) as [c'|]; [|contradiction]. exists c'. now split.
Qed.
(** in every allowed history the lists are without repetitions, no element is in two of them *)
Theorem C80_disjoint : forall tail E l, history tail E (fun _ => None) l -> (forall e, In e E -> e <> 0) ->
  let Q := snd (answers (fun _ => None) l) in
  (forall q L, Q q = Some L -> NoDup L /\ incl L E) /\ (forall p q e, In e (of Q p) -> In e (of Q q) -> p = q).
Proof.
  intros tail E l H NZ Q. set (m0 := mkmem (mkhp (map (fun e => (e, mknode 0 0)) E) 0) (fun _ => (0, First 0))).
  assert (B : forall e, In e E -> e <> 0 /\ look (heap m0) e <> None). { intros e I. split; [now apply NZ|]. unfold look, m0. cbn [heap blocks]. clear - I. induction E as [|x E0 IH]; [contradiction|]. cbn [map aget]. destruct (Nat.eqb_spec x e); [discriminate|]. destruct I; [contradiction|]. now apply IH. }
  destruct (calls_ok tail (S (length E)) E m0 B (Nat.lt_succ_diag_r _) l m0 _ (inv0 tail E m0) H) as (m & _ & (_ & Fi & D & _)). fold Q in Fi, D. split; [|exact D]. intros q L G. destruct (Fi q L G) as (_ & _ & _ & X). exact X.
Qed.
(** where SLIST can be used, STAILQ and SIMPLEQ answer the same *)
Theorem C80_same : forall fuel E m0 l,
  (forall e, In e E -> e <> 0 /\ aget (blocks (heap m0)) e <> None) -> length E < fuel -> history false E (fun _ => None) l ->
  exists a m m', calls false fuel m0 l = Ok (a, m) /\ calls true fuel m0 l = Ok (a, m').
Proof.
  intros fuel E m0 l B F H. assert (H' : history true E (fun _ => None) l). { clear - H. revert H. generalize (fun _ : nat => @None (list nat)). induction l as [|c l IH]; intros Q; cbn [history]; [tauto|]. intros [A R]. split; [|now apply IH]. destruct c; cbn [allowed] in *; try exact A; destruct A; discriminate. }
  destruct (C80_lists false fuel E m0 l B F H) as (m & G & _). destruct (C80_lists true fuel E m0 l B F H') as (m' & G' & _). exists (fst (answers (fun _ => None) l)), m, m'. now split.
Qed.
Lemma calls_then tail fuel : forall l m o m1 c, calls tail fuel m l = Ok (o, m1) -> do_call tail fuel m1 c = UB -> calls tail fuel m (l ++ [c]) = UB.
Proof.
  induction l as [|d l IH]; intros m o m1 c; cbn [calls app]; [intros X U; assert (m1 = m) by congruence; subst; now rewrite U|].
  intros X U. apply obind_ok in X. destruct X as ([a m2] & -> & X). cbn [obind]. apply obind_ok in X. destruct X as ([b m3] & X & Y). assert (m3 = m1) by congruence. subst. now rewrite (IH _ _ _ _ X U).
Qed.
(** Removing what is not in the list runs past its end, whatever the history; so does removing the first element of an empty list *)
Theorem C80_remove_absent : forall tail fuel E m0 l q e,
  (forall e, In e E -> e <> 0 /\ aget (blocks (heap m0)) e <> None) -> aget (blocks (heap m0)) 0 = None -> length E < fuel ->
  history tail E (fun _ => None) l -> ready (snd (answers (fun _ => None) l)) q -> e <> 0 -> ~ In e (of (snd (answers (fun _ => None) l)) q) ->
  calls tail fuel m0 (l ++ [Remove q e]) = UB.
Proof.
  intros tail fuel E m0 l q e B N0 F H R NZ NI. destruct (calls_ok tail fuel E m0 B F l m0 _ (inv0 tail E m0) H) as (m & G & V). apply (calls_then _ _ _ _ _ _ _ G). cbn [do_call]. now rewrite (remove_absent tail fuel E m0 B F m _ q e NZ N0 V R NI).
Qed.
Theorem C80_remove_empty : forall tail fuel E m0 l q,
  (forall e, In e E -> e <> 0 /\ aget (blocks (heap m0)) e <> None) -> aget (blocks (heap m0)) 0 = None -> length E < fuel ->
  history tail E (fun _ => None) l -> snd (answers (fun _ => None) l) q = Some [] ->
  calls tail fuel m0 (l ++ [RemoveHead q]) = UB.
Proof.
  intros tail fuel E m0 l q B N0 F H R. destruct (calls_ok tail fuel E m0 B F l m0 _ (inv0 tail E m0) H) as (m & G & (K & Fi & _)). apply (calls_then _ _ _ _ _ _ _ G). cbn [do_call]. unfold q_remove_head, next_of, hget. destruct (Fi q [] R) as (-> & _). cbn [hd]. specialize (K 0). unfold look in K. rewrite N0 in K. destruct (aget (blocks (heap m)) 0); [contradiction|reflexivity].
Qed.
(** An element inserted a second time: the walk does not end, whatever the bound *)
Definition ex_mem : mem := mkmem (mkhp (map (fun e => (e, mknode 7 (Z.of_nat e))) [1; 2; 3; 4; 5]) 0) (fun _ => (9, First 9)).
Definition twice (q : nat) : list call := [Init q; InsertHead q 1; InsertHead q 1].
Theorem C80_twice_refuted : forall tail fuel, calls tail fuel ex_mem (twice 0 ++ [Foreach 0]) = Loop.
Proof.
  intros tail fuel. assert (Y : forall f (m : mem), next_of m 1 = Ok 1 -> walk f m 1 = Loop).
  { induction f as [|f IH]; intros m N; [reflexivity|]. cbn [walk Nat.eqb]. rewrite N. cbn [obind]. now rewrite IH. }
  destruct tail; unfold twice; cbn [calls app do_call quiet obind].
  all: match goal with |- context [quiet (q_insert_head ?t ?m 0 1)] => let r := eval lazy in (quiet (q_insert_head t m 0 1)) in change (quiet (q_insert_head t m 0 1)) with r end.
  all: cbn [obind]; match goal with |- context [quiet (q_insert_head ?t ?m 0 1)] => let r := eval lazy in (quiet (q_insert_head t m 0 1)) in change (quiet (q_insert_head t m 0 1)) with r end.
  all: cbn [obind heads Nat.eqb fst]; now rewrite Y.
Qed.

(** Non-vacuity: two lists over five elements, all macros *)
Definition prog : list call :=
  [Init 0; Init 1; InsertHead 0 2; InsertHead 0 1; InsertAfter 0 2 3; InsertHead 1 5; InsertAfter 1 5 4; Foreach 0; Foreach 1; Remove 0 2; NextOf 0 1; Remove 0 3; InsertAfter 0 1 2; RemoveHead 0; Empty 0; FirstOf 0; RemoveHead 0; Empty 0; Foreach 0].
Definition prog_tail : list call := [Init 0; Init 1; InsertTail 0 1; InsertTail 0 2; InsertTail 1 3; Concat 0 1; InsertTail 0 4; Remove 0 4; InsertTail 0 5; InsertTail 1 4; Foreach 0; Foreach 1].
Example C80_ex : history false [1; 2; 3; 4; 5] (fun _ => None) prog /\ history true [1; 2; 3; 4; 5] (fun _ => None) prog_tail.
Proof.
  assert (D : forall e Q, (forall q, ~ In e (of Q q)) -> In e [1; 2; 3; 4; 5] -> free [1; 2; 3; 4; 5] Q e) by (intros e Q A B; now split).
  assert (U : forall (P : nat -> Prop), P 0 -> P 1 -> (forall q, P (S (S q))) -> forall q, P q) by (intros P A B C [|[|q]]; auto).
  split; cbn [history prog prog_tail allowed]; unfold ready; repeat split; try discriminate; try (cbn; tauto); apply U; cbn; intuition discriminate.
Qed.
Example C80_ex_run : match calls false 6 ex_mem prog with Ok (a, _) => a = [[]; []; []; []; []; []; []; [1; 2; 3]; [5; 4]; []; [3]; []; []; []; [0]; [2]; []; [1]; []] | _ => False end.
Proof. vm_compute. reflexivity. Qed.
Example C80_ex_tail : match calls true 6 ex_mem prog_tail with Ok (a, _) => a = [[]; []; []; []; []; []; []; []; []; []; [1; 2; 3; 5]; [4]] | _ => False end.
Proof. vm_compute. reflexivity. Qed.
Example C80_ex_blocks : (forall e, In e [1; 2; 3; 4; 5] -> e <> 0 /\ aget (blocks (heap ex_mem)) e <> None) /\ aget (blocks (heap ex_mem)) 0 = None.
Proof. split; [|reflexivity]. intros e [<-|[<-|[<-|[<-|[<-|[]]]]]]; split; discriminate. Qed.
Print Assumptions C80_lists. Print Assumptions C80_disjoint. Print Assumptions C80_same. Print Assumptions C80_remove_absent. Print Assumptions C80_remove_empty. Print Assumptions C80_twice_refuted.
