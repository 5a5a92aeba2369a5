(** C81: the LIST macros of compat/sys/queue.h. *)
From Verif Require Import Prelude HeapModel AmemModel AmemProofs BlistModel BlistSpec BlistProofs.
Local Open Scope nat_scope.

(** Any number of lists over the program's elements E and any allowed history: every access is to an element that exists, every macro answers as the lists of the specification do, only the links of elements and the heads of lists that were initialised are written *)
Theorem C81_lists : forall fuel E m0 l,
  (forall e, In e E -> e <> 0 /\ aget (blocks (heap m0)) e <> None) -> length E < fuel ->
  history E (fun _ => None) l ->
  exists m, calls fuel m0 l = Ok (fst (answers (fun _ => None) l), m) /\
    (forall x, ~ In x E -> aget (blocks (heap m)) x = aget (blocks (heap m0)) x) /\
    (forall x c, aget (blocks (heap m0)) x = Some c -> exists c', aget (blocks (heap m)) x = Some c' /\ data c' = data c) /\
    (forall q, snd (answers (fun _ => None) l) q = None -> heads m q = heads m0 q).
Proof.
  intros fuel E m0 l B F H. destruct (calls_ok fuel E m0 B F l m0 _ (inv0 E m0) H) as (m & G & (K & _ & _ & N)). exists m. split; [exact G|]. split; [|split; [|exact N]].
  - intros x NI. specialize (K x). unfold look in K. destruct (aget (blocks (heap m0)) x), (aget (blocks (heap m)) x); try contradiction; [|reflexivity]. destruct K as [_ [K| ->]]; [contradiction|reflexivity].
  - intros x c G0. specialize (K x). unfold look in K. rewrite G0 in K. destruct (aget (blocks (heap m)) x) as [c'|]; [|contradiction]. exists c'. now split.
Qed.
(** in every allowed history the lists are without repetitions, no element is in two of them *)
Theorem C81_disjoint : forall E l, history E (fun _ => None) l -> (forall e, In e E -> e <> 0) ->
  let Q := snd (answers (fun _ => None) l) in
  (forall q L, Q q = Some L -> NoDup L /\ incl L E) /\ (forall p q e, In e (of Q p) -> In e (of Q q) -> p = q).
Proof.
  intros E l H NZ Q. set (m0 := mkmem (mkhp (map (fun e => (e, mknode 0 (First 0) 0)) E) 0) (fun _ => 0)).
  assert (B : forall e, In e E -> e <> 0 /\ look (heap m0) e <> None). { intros e I. split; [now apply NZ|]. unfold look, m0. cbn [heap blocks]. clear - I. induction E as [|x E0 IH]; [contradiction|]. cbn [map aget]. destruct (Nat.eqb_spec x e); [discriminate|]. destruct I; [contradiction|]. now apply IH. }
  destruct (calls_ok (S (length E)) E m0 B (Nat.lt_succ_diag_r _) l m0 _ (inv0 E m0) H) as (m & _ & (_ & Fi & D & _)). fold Q in Fi, D. split; [|exact D]. intros q L G. destruct (Fi q L G) as (_ & _ & _ & X). exact X.
Qed.
Definition ex_mem : mem := mkmem (mkhp (map (fun e => (e, mknode 7 (Next 9) (Z.of_nat e))) [1; 2; 3; 4; 5]) 0) (fun _ => 9).
(** An element inserted a second time: the walk does not end, whatever the bound *)
Theorem C81_twice_refuted : forall fuel, calls fuel ex_mem [Init 0; InsertHead 0 1; InsertHead 0 1; Foreach 0] = Loop.
Proof.
  intros fuel. assert (Y : forall f (m : mem), next_of m 1 = Ok 1 -> walk f m 1 = Loop).
  { induction f as [|f IH]; intros m N; [reflexivity|]. cbn [walk Nat.eqb]. rewrite N. cbn [obind]. now rewrite IH. }
  cbn [calls do_call obind].
  do 2 (match goal with |- context [quiet (l_insert_head ?m 0 1)] => let r := eval lazy in (quiet (l_insert_head m 0 1)) in change (quiet (l_insert_head m 0 1)) with r end; cbn [obind]).
  cbn [heads Nat.eqb]. now rewrite Y.
Qed.
(** An element removed a second time writes through its old links: here 3 can no longer be removed *)
Theorem C81_remove_twice_refuted : match calls 9 ex_mem [Init 0; InsertHead 0 3; InsertHead 0 2; InsertHead 0 1; Remove 0 2; Remove 0 1; Foreach 0; Remove 0 2; Remove 0 3; Foreach 0] with
  | Ok (a, _) => a = [[]; []; []; []; []; []; [3]; []; []; [3]] | _ => False end.
Proof. vm_compute. reflexivity. Qed.

(** Non-vacuity: two lists over five elements, all macros *)
Definition prog : list call :=
  [Init 0; Init 1; InsertHead 0 2; InsertBefore 0 2 1; InsertAfter 0 2 3; InsertHead 1 5; InsertBefore 1 5 4; Foreach 0; Foreach 1; Remove 0 2; NextOf 0 1; Remove 0 1; InsertBefore 0 3 2; InsertAfter 0 2 1; Foreach 0; Remove 0 3; Empty 0; FirstOf 0; Remove 0 2; Remove 0 1; Empty 0; InsertHead 1 3; Foreach 1].
Example C81_ex : history [1; 2; 3; 4; 5] (fun _ => None) prog.
Proof.
  assert (U : forall (P : nat -> Prop), P 0 -> P 1 -> (forall q, P (S (S q))) -> forall q, P q) by (intros P A B C [|[|q]]; auto).
  cbn [history prog allowed]; unfold ready; repeat split; try discriminate; try (cbn; tauto); apply U; cbn; intuition discriminate.
Qed.
Example C81_ex_run : match calls 6 ex_mem prog with Ok (a, _) => a = [[]; []; []; []; []; []; []; [1; 2; 3]; [4; 5]; []; [3]; []; []; []; [2; 1; 3]; []; [0]; [2]; []; []; [1]; []; [3; 4; 5]] | _ => False end.
Proof. vm_compute. reflexivity. Qed.
Example C81_ex_blocks : forall e, In e [1; 2; 3; 4; 5] -> e <> 0 /\ aget (blocks (heap ex_mem)) e <> None.
Proof. intros e [<-|[<-|[<-|[<-|[<-|[]]]]]]; split; discriminate. Qed.
Print Assumptions C81_lists. Print Assumptions C81_disjoint. Print Assumptions C81_twice_refuted. Print Assumptions C81_remove_twice_refuted.
