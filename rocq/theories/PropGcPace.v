(** C41, continued: when collections run, and how much one incremental step does. *)
From Verif Require Import Prelude GcModel GcProofs GcSpec GcHistory PropGc.
From Coq Require Import Permutation.
Local Open Scope Z_scope.

(** the fields a scan leaves alone *)
Definition keeps (g g' : gc) : Prop := mps g' = mps g /\ before g' = before g /\ allocs g' = allocs g /\ enabled g' = enabled g /\ log g' = log g.
Lemma keeps_trans a b c : keeps a b -> keeps b c -> keeps a c.
Proof. unfold keeps. intuition congruence. Qed.
Lemma mark_keeps g x g' : gc_mark g x = Ok g' -> keeps g g' /\ scan g' = scan g.
Proof. unfold gc_mark. destruct (guard _) as [[]| | |]; cbn [obind]; try discriminate. destruct (_ && _); intros H; assert (E : Ok g' <> UB) by discriminate; injection H as <-; repeat split. Qed.
Lemma mark_all_keeps : forall l g g', mark_all g l = Ok g' -> keeps g g' /\ scan g' = scan g.
Proof.
  induction l as [|x l IH]; intros g g' H; cbn [mark_all] in H; [injection H as <-; repeat split|].
  destruct (gc_mark g x) as [g1| | |] eqn:E; cbn [obind] in H; try discriminate. apply mark_keeps in E. apply IH in H. destruct E, H. split; [eapply keeps_trans; eassumption|congruence].
Qed.
(** one turn of the loop *)
Definition turn (kids : nat -> list nat) (g : gc) : outcome gc :=
  let elt := scan g in
  g1 <- mark_all (clear_white g elt) (kids elt) ;;
  nx <- next_of (grey g1) elt ;;
  let g2 := if pb g1 elt then g1 else let g := unlink g1 elt in set_lists g (elt :: black g) (grey g) (white g) in
  Ok (set_scan g2 nx).
Lemma loop_turn fuel kids full marks g : collect_loop (S fuel) kids full marks g =
  if (scan g =? 0)%nat then Ok (g, true) else
  g' <- turn kids g ;; if negb full && (mps g' <=? marks + 1) && negb (scan g' =? 0)%nat then Ok (g', false) else collect_loop fuel kids full (marks + 1) g'.
Proof.
  cbn [collect_loop]. destruct (scan g =? 0)%nat; [reflexivity|]. unfold turn. cbv zeta. destruct (mark_all _ _) as [g1| | |]; cbn [obind]; try reflexivity. destruct (next_of _ _) as [nx| | |]; cbn [obind]; try reflexivity.
Qed.
Lemma turn_keeps kids g g' : turn kids g = Ok g' -> keeps g g'.
Proof.
  unfold turn. cbv zeta. destruct (mark_all _ _) as [g1| | |] eqn:E; cbn [obind]; try discriminate. destruct (next_of _ _) as [nx| | |]; cbn [obind]; try discriminate. intros H. apply mark_all_keeps in E. destruct E as [E _].
  assert (K : keeps (clear_white g (scan g)) g') by (eapply keeps_trans; [exact E|]; destruct (pb g1 (scan g)); injection H as <-; repeat split). exact K.
Qed.
Lemma loop_keeps kids full : forall fuel marks g g' b, collect_loop fuel kids full marks g = Ok (g', b) -> keeps g g'.
Proof.
  induction fuel as [|fuel IH]; intros marks g g' b H; [discriminate|]. rewrite loop_turn in H. destruct (scan g =? 0)%nat; [assert (g = g') by congruence; subst; repeat split|].
  destruct (turn kids g) as [g1| | |] eqn:T; cbn [obind] in H; try discriminate. apply turn_keeps in T. destruct (_ && _); [assert (g1 = g') by congruence; now subst|]. eapply keeps_trans; [exact T|]. exact (IH _ _ _ _ H).
Qed.
Lemma loop_bound kids : forall fuel marks g r, collect_loop fuel kids false marks g = Ok r -> forall n, mps g - marks <= Z.of_nat n -> (1 <= n)%nat -> collect_loop (S n) kids false marks g = Ok r.
Proof.
  induction fuel as [|fuel IH]; intros marks g r H n N1 N2; [discriminate|]. rewrite loop_turn in *. destruct (scan g =? 0)%nat; [exact H|].
  destruct (turn kids g) as [g1| | |] eqn:T; cbn [obind] in *; try discriminate. apply turn_keeps in T. destruct T as (T & _). destruct (_ && _) eqn:C; [exact H|]. cbn [negb andb] in C.
  destruct n as [|n]; [lia|]. destruct fuel as [|fuel']; [discriminate|]. destruct (scan g1 =? 0)%nat eqn:S0; [rewrite loop_turn in *; rewrite S0 in *; exact H|]. cbn [negb] in C. rewrite andb_true_r in C. apply Z.leb_gt in C. apply (IH _ _ _ H); lia.
Qed.
Lemma loop_exact kids : forall fuel marks g g', collect_loop fuel kids false marks g = Ok (g', false) -> scan g' <> 0%nat /\ forall n, Z.of_nat n < Z.max 1 (mps g - marks) -> collect_loop n kids false marks g = Loop.
Proof.
  induction fuel as [|fuel IH]; intros marks g g' H; [discriminate|]. rewrite loop_turn in H. destruct (scan g =? 0)%nat eqn:S0; [discriminate|].
  destruct (turn kids g) as [g1| | |] eqn:T; cbn [obind] in *; try discriminate. pose proof (turn_keeps _ _ _ T) as (K & _). destruct (_ && _) eqn:C.
  - assert (g1 = g') by congruence. subst g'. cbn [negb andb] in C. apply andb_prop in C as [C1 C2]. apply Z.leb_le in C1. split; [intros E; rewrite E in C2; discriminate|]. intros n N. destruct n; [reflexivity|lia].
  - destruct (IH _ _ _ H) as [A B]. split; [exact A|]. intros n N. destruct n as [|n]; [reflexivity|]. rewrite loop_turn, S0, T. cbn [obind]. rewrite C. destruct n as [|n]; [reflexivity|]. apply B. lia.
Qed.
Lemma loop_done kids full : forall fuel marks g g', collect_loop fuel kids full marks g = Ok (g', true) -> scan g' = 0%nat.
Proof.
  induction fuel as [|fuel IH]; intros marks g g' H; [discriminate|]. rewrite loop_turn in H. destruct (scan g =? 0)%nat eqn:S0; [assert (g = g') by congruence; subst; now apply Nat.eqb_eq|].
  destruct (turn kids g) as [g1| | |] eqn:T; cbn [obind] in *; try discriminate. destruct (_ && _); [discriminate|]. exact (IH _ _ _ H).
Qed.

(** a collection that is not prevented or postponed *)
Definition runs_now (g : gc) (full : bool) : bool := (0 <=? enabled g) && (full || (before g <=? allocs g)).
Lemma collect_pace fuel kids g full g' : gc_collect fuel kids g full = Ok g' ->
  mps g' = mps g /\ before g' = before g /\ enabled g' = enabled g /\ allocs g' = (if runs_now g full then 0 else allocs g) /\ (runs_now g full = false -> log g' = log g /\ scan g' = scan g) /\
  (full = false -> gc_collect (S (Z.to_nat (Z.max 1 (mps g)))) kids g false = Ok g' /\ (runs_now g full = true -> scan g' <> 0%nat -> gc_collect (Z.to_nat (Z.max 1 (mps g)) - 1) kids g false = Loop)).
Proof.
  unfold gc_collect, runs_now. assert (D : (enabled g <? 0) || negb full && (allocs g <? before g) = negb ((0 <=? enabled g) && (full || (before g <=? allocs g)))).
  { destruct (Z.ltb_spec (enabled g) 0), (Z.leb_spec 0 (enabled g)), full, (Z.ltb_spec (allocs g) (before g)), (Z.leb_spec (before g) (allocs g)); cbn; try reflexivity; lia. }
  rewrite D. destruct ((0 <=? enabled g) && (full || (before g <=? allocs g))) eqn:R; cbn [negb]; cbv zeta; destruct full; cbn [negb orb] in D, R.
  3:{ intros H. assert (g = g') by congruence. subst. repeat split; try discriminate. }
  3:{ intros H. assert (g = g') by congruence. subst. rewrite D. cbn [negb orb]. repeat split; try discriminate. }
  all: set (g1 := set_en g _ 0); set (g2 := if (scan g1 =? 0)%nat then _ else g1);
    assert (K2 : mps g2 = mps g /\ before g2 = before g /\ enabled g2 = enabled g - 1 /\ allocs g2 = 0 /\ log g2 = log g) by (unfold g2; destruct (scan g1 =? 0)%nat; repeat split).
  all: destruct (collect_loop fuel kids _ 0 g2) as [[g3 fin]| | |] eqn:E; cbn [obind]; try discriminate; intros H; pose proof (loop_keeps _ _ _ _ _ _ _ E) as K3; unfold keeps in K3.
  - assert (X : g' = if fin then gc_switch (set_en g3 (enabled g3 + 1) (allocs g3)) else set_en g3 (enabled g3 + 1) (allocs g3)) by congruence. subst g'. destruct fin; cbn [gc_switch free_white set_en mps before enabled allocs log]; repeat split; try discriminate; intuition lia.
  - assert (X : g' = if fin then gc_switch (set_en g3 (enabled g3 + 1) (allocs g3)) else set_en g3 (enabled g3 + 1) (allocs g3)) by congruence.
    split; [subst g'; destruct fin; cbn [gc_switch free_white set_en mps]; intuition lia|]. split; [subst g'; destruct fin; cbn [gc_switch free_white set_en before]; intuition lia|].
    split; [subst g'; destruct fin; cbn [gc_switch free_white set_en enabled]; intuition lia|]. split; [subst g'; destruct fin; cbn [gc_switch free_white set_en allocs]; intuition lia|].
    split; [discriminate|]. intros _. rewrite D. cbn [negb]. split.
    + rewrite (loop_bound _ _ _ _ _ E (Z.to_nat (Z.max 1 (mps g)))) by (try lia; rewrite (proj1 K2); lia). cbn [obind]. now rewrite X.
    + intros _ SN. destruct fin.
      * exfalso. apply SN. rewrite X. cbn [gc_switch free_white set_en scan]. exact (loop_done _ _ _ _ _ _ E).
      * rewrite (proj2 (loop_exact _ _ _ _ _ E)); [reflexivity|]. rewrite (proj1 K2). lia.
Qed.

(** Does call [o] run a collection, in a collector created with [a] allocations between scans? *)
Definition starts (a : Z) (w : world) (o : op) : bool :=
  match o with
  | Register _ => (enabled (wg w) =? 0) && (a <=? allocs (wg w) + 1)
  | Enable => (enabled (wg w) =? -1) && (a <=? allocs (wg w))
  | Collect full => (enabled (wg w) =? 0) && (full || (a <=? allocs (wg w)))
  | _ => false
  end.
(** how a call counts *)
Definition counts (o : op) : Z := match o with Register _ | Unregister _ => 1 | _ => 0 end.

Lemma pace m a k w : history m a k w -> mps (wg w) = m /\ before (wg w) = a.
Proof.
  induction 1 as [|w o w' H IH AL D]; [split; reflexivity|]. destruct IH as [<- <-]. destruct D as [N D]. specialize (D N (le_n _)).
  destruct o; cbn [step] in D.
  - unfold gc_register in D. cbv zeta in D. destruct (_ <=? _).
    + destruct (gc_collect _ _ _ _) as [g| | |] eqn:E; cbn [obind] in D; try discriminate. apply collect_pace in E. assert (X : w' = mkw g (kids w) (unp w) (prot w)) by congruence. subst w'. cbn [wg]. destruct E as (E1 & E2 & _). split; assumption.
    + cbn [obind] in D. injection D as <-. split; reflexivity.
  - unfold gc_unregister in D. cbv zeta in D. destruct (_ <? _).
    + destruct (gc_collect _ _ _ _) as [g| | |] eqn:E; cbn [obind] in D; try discriminate. apply collect_pace in E. assert (X : w' = mkw g (kids w) (unp w) (del x (prot w))) by congruence. subst w'. cbn [wg]. destruct E as (E1 & E2 & _). split; assumption.
    + cbn [obind] in D. injection D as <-. split; reflexivity.
  - injection D as <-. split; reflexivity.
  - unfold gc_unprotect in D. destruct (guard _) as [[]| | |]; cbn [obind] in D; try discriminate. injection D as <-. split; reflexivity.
  - destruct (mark_all (wg w) ks) as [g| | |] eqn:E; cbn [obind] in D; try discriminate. apply mark_all_keeps in E. assert (X : w' = mkw g (setk (kids w) x ks) (unp w) (prot w)) by congruence. subst w'. cbn [wg]. destruct E as ((E1 & E2 & _) & _). split; assumption.
  - injection D as <-. split; reflexivity.
  - destruct (gc_collect _ _ _ _) as [g| | |] eqn:E; cbn [obind] in D; try discriminate. apply collect_pace in E. assert (X : w' = mkw g (kids w) (unp w) (prot w)) by congruence. subst w'. cbn [wg]. destruct E as (E1 & E2 & _). split; assumption.
  - unfold gc_enable in D. cbv zeta in D. destruct (guard _) as [[]| | |]; cbn [obind] in D; try discriminate. destruct (_ && _).
    + destruct (gc_collect _ _ _ _) as [g| | |] eqn:E; cbn [obind] in D; try discriminate. apply collect_pace in E. assert (X : w' = mkw g (kids w) (unp w) (prot w)) by congruence. subst w'. cbn [wg]. destruct E as (E1 & E2 & _). split; assumption.
    + cbn [obind] in D. injection D as <-. split; reflexivity.
  - injection D as <-. split; reflexivity.
Qed.

(** When collections run: in a collector created with [m] marks per scan and [a] allocations between scans, a call runs a
    collection exactly when the collector is enabled and a full collection is asked for or [a] registrations have been counted
    since the last one (a registration, an explicit collection, or the enabling that matches the outermost disabling);
    the count then starts again.  Any other call releases nothing and does not advance the scan;
    Disable and Enable nest. *)
Theorem C41_pace : forall m a k w o w', history m a k w -> allowed w o -> does w o w' ->
  allocs (wg w') = (if starts a w o then 0 else allocs (wg w) + counts o) /\
  (starts a w o = false -> log (wg w') = log (wg w) /\ scan (wg w') = scan (wg w)) /\
  enabled (wg w') = enabled (wg w) + match o with Disable => -1 | Enable => 1 | _ => 0 end /\ enabled (wg w') <= 0.
Proof.
  intros m a k w o w' H AL D. pose proof (pace _ _ _ _ H) as [_ PB]. pose proof (w_en _ (history_inv _ _ _ _ H)) as EN. pose proof (w_en _ (history_inv _ _ _ _ (Call _ _ _ _ _ _ H AL D))) as EN'.
  cut (allocs (wg w') = (if starts a w o then 0 else allocs (wg w) + counts o) /\
  (starts a w o = false -> log (wg w') = log (wg w) /\ scan (wg w') = scan (wg w)) /\
  enabled (wg w') = enabled (wg w) + match o with Disable => -1 | Enable => 1 | _ => 0 end); [tauto|].
  destruct D as [N D]. specialize (D N (le_n _)).
  destruct o; cbn [step starts counts] in *.
  - unfold gc_register in D. cbv zeta in D. cbn [set_en set_lists allocs before] in D. change (before (clear_white (wg w) x)) with (before (wg w)) in D. change (allocs (clear_white (wg w) x)) with (allocs (wg w)) in D. rewrite PB in D. destruct (Z.leb_spec a (allocs (wg w) + 1)) as [L|L].
    + destruct (gc_collect _ _ _ _) as [g| | |] eqn:E; cbn [obind] in D; try discriminate. apply collect_pace in E. unfold runs_now in E. cbn [set_en set_lists allocs before enabled scan log clear_white set_wb orb] in E. rewrite PB in E. destruct (Z.leb_spec a (allocs (wg w) + 1)); [|lia]. rewrite !andb_true_r in *.
      assert (X : w' = mkw g (kids w) (unp w) (prot w)) by congruence. subst w'. cbn [wg]. destruct E as (_ & _ & E3 & E4 & E5 & _). rewrite E4.
      destruct (Z.leb_spec 0 (enabled (wg w))), (Z.eqb_spec (enabled (wg w)) 0); try lia; (split; [reflexivity|]; split; [exact E5|lia]).
    + cbn [obind] in D. injection D as <-. rewrite andb_false_r. cbn [wg set_en set_lists allocs enabled log scan clear_white set_wb]. repeat split; lia.
  - unfold gc_unregister in D. cbv zeta in D. cbn [set_en set_lists unlink allocs before enabled] in D. destruct (Z.ltb_spec (allocs (wg w) + 1) (before (wg w))) as [L|L].
    + destruct (gc_collect _ _ _ _) as [g| | |] eqn:E; cbn [obind] in D; try discriminate. apply collect_pace in E. unfold runs_now in E. cbn [set_en set_lists unlink allocs before enabled scan log orb] in E. destruct (Z.leb_spec (before (wg w)) (allocs (wg w) + 1)); [lia|]. rewrite andb_false_r in E.
      assert (X : w' = mkw g (kids w) (unp w) (del x (prot w))) by congruence. subst w'. cbn [wg]. destruct E as (_ & _ & E3 & E4 & E5 & _). specialize (E5 eq_refl). repeat split; try (intros _; tauto); try tauto; lia.
    + cbn [obind] in D. injection D as <-. cbn [wg set_en set_lists unlink allocs enabled log scan]. repeat split; lia.
  - injection D as <-. cbn [wg gc_protect set_pb set_lists unlink clear_white set_wb allocs enabled log scan]. repeat split; lia.
  - unfold gc_unprotect in D. destruct (guard _) as [[]| | |]; cbn [obind] in D; try discriminate. injection D as <-. cbn [wg set_pb allocs enabled log scan]. repeat split; lia.
  - destruct (mark_all (wg w) ks) as [g| | |] eqn:E; cbn [obind] in D; try discriminate. apply mark_all_keeps in E. assert (X : w' = mkw g (setk (kids w) x ks) (unp w) (prot w)) by congruence. subst w'. cbn [wg]. destruct E as ((E1 & E2 & E3 & E4 & E5) & E6). repeat split; try assumption; lia.
  - injection D as <-. cbn [wg]. repeat split; lia.
  - destruct (gc_collect _ _ _ _) as [g| | |] eqn:E; cbn [obind] in D; try discriminate. apply collect_pace in E. unfold runs_now in E. rewrite PB in E. assert (X : w' = mkw g (kids w) (unp w) (prot w)) by congruence. subst w'. cbn [wg]. destruct E as (_ & _ & E3 & E4 & E5 & _). rewrite E4.
    destruct (Z.leb_spec 0 (enabled (wg w))), (Z.eqb_spec (enabled (wg w)) 0); try lia; (split; [destruct (_ && _); lia|]; split; [exact E5|lia]).
  - unfold gc_enable in D. cbv zeta in D. cbn [set_en allocs before enabled] in D. rewrite PB in D. destruct (guard _) as [[]| | |]; cbn [obind] in D; try discriminate.
    replace (enabled (wg w) =? -1) with (enabled (wg w) + 1 =? 0) by lia. destruct (_ && _) eqn:C.
    + destruct (gc_collect _ _ _ _) as [g| | |] eqn:E; cbn [obind] in D; try discriminate. apply collect_pace in E. unfold runs_now in E. cbn [set_en allocs before enabled scan log orb] in E. rewrite PB in E. assert (X : w' = mkw g (kids w) (unp w) (prot w)) by congruence. subst w'. cbn [wg]. destruct E as (_ & _ & E3 & E4 & E5 & _).
      apply andb_prop in C as [C1 C2]. rewrite C2 in E4. replace (0 <=? enabled (wg w) + 1) with true in E4 by lia. cbn [andb] in E4. repeat split; [exact E4| | |lia]; discriminate.
    + cbn [obind] in D. injection D as <-. cbn [wg set_en allocs enabled log scan]. repeat split; lia.
  - injection D as <-. cbn [wg gc_disable set_en allocs enabled log scan]. repeat split; lia.
Qed.
Print Assumptions C41_pace.

(** The work of one call is bounded: apart from an explicit full collection, no call scans more than max(1, m) objects
    (fuel is one more than the number of objects scanned); and an incremental collection that stops half-way has scanned exactly that many. *)
Theorem C41_bounded_pause : forall m a k w o w', history m a k w -> allowed w o -> does w o w' -> o <> Collect true ->
  step (S (Z.to_nat (Z.max 1 m))) w o = Ok w' /\
  (starts a w o = true -> ~ idle w' -> step (Z.to_nat (Z.max 1 m) - 1) w o = Loop).
Proof.
  intros m a k w o w' H AL D NC. pose proof (pace _ _ _ _ H) as [PM PB]. pose proof (w_en _ (history_inv _ _ _ _ H)) as EN.
  destruct D as [N D]. specialize (D N (le_n _)). unfold idle.
  destruct o; cbn [step starts] in *; try (split; [exact D|discriminate]).
  - unfold gc_register in *. cbv zeta in *. cbn [set_en set_lists allocs before] in *. change (before (clear_white (wg w) x)) with (before (wg w)) in *. change (allocs (clear_white (wg w) x)) with (allocs (wg w)) in *. rewrite PB in *. destruct (Z.leb_spec a (allocs (wg w) + 1)) as [L|L].
    + destruct (gc_collect _ _ _ _) as [g| | |] eqn:E; cbn [obind] in D; try discriminate. apply collect_pace in E. unfold runs_now in E. cbn [set_en set_lists allocs before enabled mps scan log clear_white set_wb orb] in E. rewrite PB, PM in E. destruct (Z.leb_spec a (allocs (wg w) + 1)); [|lia]. rewrite !andb_true_r in *.
      assert (X : w' = mkw g (kids w) (unp w) (prot w)) by congruence. subst w'. cbn [wg]. destruct E as (_ & _ & _ & _ & _ & E6). destruct (E6 eq_refl) as [E7 E8]. change (gc_collect (S (Z.to_nat (Z.max 1 m))) (kids w) (set_en (set_lists (clear_white (wg w) x) (black (clear_white (wg w) x)) (grey (clear_white (wg w) x) ++ [x]) (white (clear_white (wg w) x))) (enabled (wg w)) (allocs (wg w) + 1)) false = Ok g) in E7.
      split; [match goal with |- obind ?z _ = _ => replace z with (Ok g : outcome gc) by (symmetry; exact E7) end; reflexivity|]. intros S NI. apply Z.eqb_eq in S. assert (S' : (0 <=? enabled (wg w)) = true) by lia. specialize (E8 S' NI). match goal with |- obind ?z _ = _ => replace z with (Loop : outcome gc) by (symmetry; exact E8) end. reflexivity.
    + cbn [obind] in *. split; [exact D|]. rewrite andb_false_r. discriminate.
  - unfold gc_unregister in *. cbv zeta in *. split; [|discriminate]. destruct (_ <? _) eqn:L; [|exact D]. apply Z.ltb_lt in L.
    unfold gc_collect in *. rewrite (proj2 (Z.ltb_lt _ _) L) in *. cbn [negb andb] in *. rewrite orb_true_r in *. exact D.
  - destruct full; [congruence|]. destruct (gc_collect _ _ _ _) as [g| | |] eqn:E; cbn [obind] in D; try discriminate. apply collect_pace in E. unfold runs_now in E. rewrite PB, PM in E. assert (X : w' = mkw g (kids w) (unp w) (prot w)) by congruence. subst w'. cbn [wg]. destruct E as (_ & _ & _ & _ & _ & E6). destruct (E6 eq_refl) as [E7 E8].
    split; [now rewrite E7|]. intros S NI. rewrite E8; [reflexivity| |exact NI]. apply andb_prop in S as [S1 S2]. rewrite S2. cbn [orb] in S2. rewrite andb_true_r. lia.
  - unfold gc_enable in *. cbv zeta in *. cbn [set_en allocs before enabled] in *. rewrite PB in *. destruct (guard _) as [[]| | |]; cbn [obind] in *; try discriminate.
    replace (enabled (wg w) =? -1) with (enabled (wg w) + 1 =? 0) by lia. destruct (_ && _) eqn:C.
    + destruct (gc_collect _ _ _ _) as [g| | |] eqn:E; cbn [obind] in D; try discriminate. apply collect_pace in E. unfold runs_now in E. cbn [set_en allocs before enabled mps scan log orb] in E. rewrite PB, PM in E. assert (X : w' = mkw g (kids w) (unp w) (prot w)) by congruence. subst w'. cbn [wg]. destruct E as (_ & _ & _ & _ & _ & E6). destruct (E6 eq_refl) as [E7 E8].
      split; [now rewrite E7|]. intros _ NI. rewrite E8; [reflexivity| |exact NI]. apply andb_prop in C as [C1 C2]. rewrite C2. rewrite andb_true_r. lia.
    + cbn [obind] in *. split; [exact D|discriminate].
Qed.
Print Assumptions C41_bounded_pause.

(** with two allocations between scans and two marks per scan, registering 8 does not start a collection, registering 9 then does, and it stops half-way *)
Example pace_case : exists w, history 2 2 graph w /\ starts 2 w (Register 9) = true /\ allowed w (Register 9) /\ exists w', step 20 w (Register 9) = Ok w' /\ ~ idle w'.
Proof.
  destruct (prog (w0 2 2) (case ++ [Collect true; Register 8])) as [w|] eqn:E; [|vm_compute in E; discriminate E].
  exists w. split; [apply (prog_ok _ _ _ _ _ _ (Start 2 2 graph) E)|].
  assert (A : match prog (w0 2 2) (case ++ [Collect true; Register 8]) with Some w => starts 2 w (Register 9) && allowedb w (Register 9) && match step 20 w (Register 9) with Ok w' => negb (scan (wg w') =? 0)%nat | _ => false end | None => false end = true) by (vm_compute; reflexivity).
  rewrite E in A. apply andb_prop in A as [A C]. apply andb_prop in A as [A B]. split; [exact A|]. split; [now apply allowedb_ok|].
  destruct (step 20 w (Register 9)) as [w'| | |]; try discriminate C. exists w'. split; [reflexivity|]. unfold idle. intros Z. rewrite Z in C. discriminate C.
Qed.

(** Nothing is counted in a new collector: as long as fewer than [a] objects have been registered in it, all of them wait to be scanned, in the order
    of their registration, and none has been released. *)
Theorem C41_first_registrations : forall fuel k m a l, Z.of_nat (length l) < a ->
  exists g, fold_left (fun r x => g <- r ;; gc_register fuel k g x) l (Ok (gc_init m a)) = Ok g /\ gc_for_each g = map (fun x => (x, 1)) l /\ allocs g = Z.of_nat (length l) /\ log g = [].
Proof.
  intros fuel k m a l L.
  cut (exists g, fold_left (fun r x => g <- r ;; gc_register fuel k g x) l (Ok (gc_init m a)) = Ok g /\ before g = a /\ black g = [] /\ white g = [] /\ grey g = l /\ allocs g = Z.of_nat (length l) /\ log g = []).
  { intros (g & E & _ & B & W & G & A & Lg). exists g. split; [exact E|]. split; [|now split]. unfold gc_for_each. now rewrite B, W, G, app_nil_r. }
  revert L. induction l as [|x l IH] using rev_ind; intros L; [eexists; split; [reflexivity|]; repeat split|]. rewrite app_length in L. cbn [length] in L.
  destruct IH as (g & E & P & B & W & G & A & Lg); [lia|]. rewrite fold_left_app, E. cbn [fold_left obind]. unfold gc_register. cbv zeta.
  cbn [clear_white set_wb set_en set_lists allocs before enabled black white grey log]. rewrite P, A. replace (a <=? Z.of_nat (length l) + 1) with false by lia.
  eexists. split; [reflexivity|]. cbn [clear_white set_wb set_en set_lists allocs before enabled black white grey log]. rewrite app_length. cbn [length]. rewrite G. repeat split; try assumption. lia.
Qed.
Print Assumptions C41_first_registrations.
Example C41_first_registrations_example : match fold_left (fun r x => g <- r ;; gc_register 9 (fun _ => []) g x) [4%nat; 7%nat] (Ok (gc_init 1 3)) with Ok g => gc_for_each g = [(4%nat, 1); (7%nat, 1)] | _ => False end.
Proof. vm_compute. reflexivity. Qed.
