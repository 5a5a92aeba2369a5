(** C82: the circular queues of compat/sys/queue.h. *)
From Verif Require Import Prelude HeapModel AmemModel AmemProofs CircleqModel CircleqSpec CircleqProofs.
Local Open Scope nat_scope.

(** Any number of queues over the program's elements E and any allowed history: every access is to an element that exists, every macro answers as the queues of the specification do, forwards, backwards and around, only the links of elements and the heads of queues that were initialised are written *)
Theorem C82_queues : forall fuel E m0 l,
  (forall e, In e E -> aget (blocks (heap m0)) e <> None) -> length E < fuel ->
  history E (fun _ => None) l ->
  exists m, calls fuel m0 l = Ok (fst (answers (fun _ => None) l), m) /\
    (forall x, ~ In x E -> aget (blocks (heap m)) x = aget (blocks (heap m0)) x) /\
    (forall x c, aget (blocks (heap m0)) x = Some c -> exists c', aget (blocks (heap m)) x = Some c' /\ data c' = data c) /\
    (forall q, snd (answers (fun _ => None) l) q = None -> heads m q = heads m0 q).
Proof.
  intros fuel E m0 l B F H. destruct (calls_ok fuel E m0 B F l m0 _ (inv0 E m0) H) as (m & G & (K & _ & _ & N)). exists m. split; [exact G|]. split; [|split; [|exact N]].
  - intros x NI. specialize (K x). unfold look in K. destruct (aget (blocks (heap m0)) x), (aget (blocks (heap m)) x); try contradiction; [|reflexivity]. destruct K as [_ [K| ->]]; [contradiction|reflexivity].
  - intros x c G0. specialize (K x). unfold look in K. rewrite G0 in K. destruct (aget (blocks (heap m)) x) as [c'|]; [|contradiction]. exists c'. now split.
Qed.
(** in every allowed history the queues are without repetitions, no element is in two of them *)
Theorem C82_disjoint : forall E l, history E (fun _ => None) l ->
  let Q := snd (answers (fun _ => None) l) in
  (forall q L, Q q = Some L -> NoDup L /\ incl L E) /\ (forall p q e, In e (of Q p) -> In e (of Q q) -> p = q).
Proof.
  intros E l H Q. set (m0 := mkmem (mkhp (map (fun e => (e, mknode (Hd 0) (Hd 0) 0)) E) 0) (fun _ => (Hd 0, Hd 0))).
  assert (B : forall e, In e E -> look (heap m0) e <> None). { intros e I. unfold look, m0. cbn [heap blocks]. clear - I. induction E as [|x E0 IH]; [contradiction|]. cbn [map aget]. destruct (Nat.eqb_spec x e); [discriminate|]. destruct I; [contradiction|]. now apply IH. }
  destruct (calls_ok (S (length E)) E m0 B (Nat.lt_succ_diag_r _) l m0 _ (inv0 E m0) H) as (m & _ & (_ & Fi & D & _)). fold Q in Fi, D. split; [|exact D]. intros q L G. destruct (Fi q L G) as (_ & _ & _ & X). exact X.
Qed.
(** both walks of a queue visit the same elements, in opposite orders *)
Theorem C82_both_ways : forall fuel E m0 l q,
  (forall e, In e E -> aget (blocks (heap m0)) e <> None) -> length E < fuel ->
  history E (fun _ => None) l -> ready (snd (answers (fun _ => None) l)) q ->
  exists o L m, calls fuel m0 (l ++ [Foreach q; ForeachReverse q]) = Ok (o ++ [Seen (map Elm L); Seen (map Elm (rev L))], m).
Proof.
  intros fuel E m0 l q B F H R. exists (fst (answers (fun _ => None) l)), (of (snd (answers (fun _ => None) l)) q).
  assert (HA : forall l Q, answers Q (l ++ [Foreach q; ForeachReverse q]) = (fst (answers Q l) ++ [Seen (map Elm (of (snd (answers Q l)) q)); Seen (map Elm (rev (of (snd (answers Q l)) q)))], snd (answers Q l))).
  { clear. induction l as [|c l IH]; intros Q; cbn [app answers]; [reflexivity|]. destruct (spec Q c) as [a Q1]. rewrite IH. now destruct (answers Q1 l). }
  assert (HH : forall l Q, history E Q l -> ready (snd (answers Q l)) q -> history E Q (l ++ [Foreach q; ForeachReverse q])).
  { clear. induction l as [|c l IH]; intros Q; cbn [app answers history]; [intros _ R; cbn; now split|]. intros [A X] R. split; [exact A|]. apply IH; [exact X|]. destruct (spec Q c) as [a Q1]. cbn [snd] in *. now destruct (answers Q1 l). }
  destruct (C82_queues fuel E m0 (l ++ [Foreach q; ForeachReverse q]) B F (HH _ _ H R)) as (m & G & _). exists m. rewrite G, HA. reflexivity.
Qed.
Definition ex_mem : mem := mkmem (mkhp (map (fun e => (e, mknode (Hd 7) (Elm 9) (Z.of_nat e))) [1; 2; 3; 4; 5]) 0) (fun _ => (Elm 9, Hd 9)).
(** An element inserted a second time: the walk does not end, whatever the bound *)
Theorem C82_twice_refuted : forall fuel, calls fuel ex_mem [Init 0; InsertHead 0 1; InsertHead 0 1; Foreach 0] = Loop.
Proof.
  intros fuel. assert (Y : forall f (m : mem), next_of m (Elm 1) = Ok (Elm 1) -> walk next_of f m 0 (Elm 1) = Loop).
  { induction f as [|f IH]; intros m N; [reflexivity|]. cbn [walk is_hd]. rewrite N. cbn [obind]. now rewrite IH. }
  cbn [calls do_call obind].
  do 2 (match goal with |- context [quiet (c_insert_head ?m 0 1)] => let r := eval lazy in (quiet (c_insert_head m 0 1)) in change (quiet (c_insert_head m 0 1)) with r end; cbn [obind]).
  cbn [heads Nat.eqb fst]. now rewrite Y.
Qed.
(** The first or the last element of a queue, removed with the head of another one: the head of its queue is used as an element, whatever the history *)
Lemma calls_then fuel : forall l m o m1 c, calls fuel m l = Ok (o, m1) -> do_call fuel m1 c = UB -> calls fuel m (l ++ [c]) = UB.
Proof.
  induction l as [|d l IH]; intros m o m1 c; cbn [calls app]; [intros X U; assert (m1 = m) by congruence; subst; now rewrite U|].
  intros X U. apply obind_ok in X. destruct X as ([a m2] & -> & X). cbn [obind]. apply obind_ok in X. destruct X as ([b m3] & X & Y). assert (m3 = m1) by congruence. subst. now rewrite (IH _ _ _ _ X U).
Qed.
Theorem C82_wrong_queue : forall fuel E m0 l q r e,
  (forall e, In e E -> aget (blocks (heap m0)) e <> None) -> length E < fuel ->
  history E (fun _ => None) l -> q <> r -> In e (of (snd (answers (fun _ => None) l)) r) ->
  start (Hd r) (of (snd (answers (fun _ => None) l)) r) = Elm e \/ start (Hd r) (rev (of (snd (answers (fun _ => None) l)) r)) = Elm e ->
  calls fuel m0 (l ++ [Remove q e]) = UB.
Proof.
  intros fuel E m0 l q r e B F H N I P. destruct (calls_ok fuel E m0 B F l m0 _ (inv0 E m0) H) as (m & G & V). apply (calls_then _ _ _ _ _ _ G). cbn [do_call]. revert I P. generalize dependent (snd (answers (fun _ => None) l)). intros Q V I P. assert (X : c_remove m q e = UB); [|unfold quiet; now rewrite X].
  destruct (in_fine E m0 m Q r e V I) as (L & _ & OQ & (A & BN & BP & D & GE)). rewrite OQ in *. assert (IE : In e E) by now apply GE. unfold c_remove. rewrite (next_ok E m0 B m e (proj1 V) IE), (prev_ok E m0 B m e (proj1 V) IE). cbn [obind].
  rewrite (at_elm _ _ _ _ D I BN), (at_elm _ _ _ _ (NoDup_rev D) (proj1 (in_rev _ _) I) BP). apply in_split in I. destruct I as (U & W & ->). pose proof (nd_mid _ _ _ D) as (NU & NW & _). rewrite next_in_split by exact NU. rewrite rev_app_distr in *. cbn [rev] in *. rewrite <- app_assoc in *. cbn [app] in *. rewrite next_in_split by (intros J; apply in_rev in J; contradiction).
  destruct W as [|y W].
  - cbn [start is_hd]. destruct (Nat.eqb_spec r q); [congruence|]. reflexivity.
  - cbn [start is_hd]. assert (EU : U = []). { destruct P as [P|P]; [destruct U as [|z U]; [reflexivity|]; cbn [app start] in P; exfalso; apply NU; left; congruence|]. exfalso. apply NW. apply in_rev. cbn [rev] in *. destruct (rev W) as [|z W']; cbn [app start] in P; left; congruence. }
    subst U. cbn [rev app start] in *. assert (IY : In y E) by (apply GE; right; now left). destruct (set_pv_ok E m0 B m y (Hd r) (proj1 V) IY) as (m3 & -> & H3 & K3 & P3 & N3). cbn [obind]. rewrite (prev_ok E m0 B m3 e K3 IE), (next_ok E m0 B m3 e K3 IE), P3. destruct (Nat.eqb_spec e y) as [->|_]; [exfalso; apply NW; now left|]. cbn [obind].
    apply lk_app in BP. cbn [lk start] in BP. destruct BP as (_ & -> & _). cbn [is_hd]. destruct (Nat.eqb_spec r q); [congruence|]. reflexivity.
Qed.

(** Non-vacuity: two queues over five elements, all macros *)
Definition prog : list call :=
  [Init 0; Init 1; InsertHead 0 2; InsertBefore 0 2 1; InsertAfter 0 2 3; InsertTail 1 4; InsertBefore 1 4 5; Foreach 0; ForeachReverse 0; Foreach 1; LoopNext 0 3; LoopPrev 0 1; NextOf 0 3; PrevOf 0 1; LastOf 1; Remove 0 2; NextOf 0 1; PrevOf 0 3; Remove 0 1; InsertBefore 0 3 2; InsertAfter 0 2 1; ForeachReverse 0; Remove 0 3; Empty 0; FirstOf 0; Remove 0 2; LoopNext 0 1; Remove 0 1; Empty 0; InsertHead 1 3; Foreach 1].
Example C82_ex : history [1; 2; 3; 4; 5] (fun _ => None) prog.
Proof.
  assert (U : forall (P : nat -> Prop), P 0 -> P 1 -> (forall q, P (S (S q))) -> forall q, P q) by (intros P A B C [|[|q]]; auto).
  cbn [history prog allowed]; unfold ready; repeat split; try discriminate; try (cbn; tauto); apply U; cbn; intuition discriminate.
Qed.
Example C82_ex_run : match calls 6 ex_mem prog with Ok (a, _) => a = fst (answers (fun _ => None) prog) /\ nth 8 a Done = Seen [Elm 3; Elm 2; Elm 1] /\ nth 10 a Done = Ptr (Elm 1) /\ nth 12 a Done = Ptr (Hd 0) /\ nth 21 a Done = Seen [Elm 3; Elm 1; Elm 2] /\ nth 30 a Done = Seen [Elm 3; Elm 5; Elm 4] | _ => False end.
Proof. vm_compute. repeat split. Qed.
Example C82_ex_blocks : forall e, In e [1; 2; 3; 4; 5] -> aget (blocks (heap ex_mem)) e <> None.
Proof. intros e [<-|[<-|[<-|[<-|[<-|[]]]]]]; discriminate. Qed.
Example C82_ex_wrong : In 4 (of (snd (answers (fun _ => None) prog)) 1) /\ start (Hd 1) (rev (of (snd (answers (fun _ => None) prog)) 1)) = Elm 4.
Proof. split; [cbn; tauto|reflexivity]. Qed.
Print Assumptions C82_queues. Print Assumptions C82_disjoint. Print Assumptions C82_both_ways. Print Assumptions C82_twice_refuted. Print Assumptions C82_wrong_queue.
