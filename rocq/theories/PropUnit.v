(** C43: the unit test runner's accounting. *)
From Verif Require Import Prelude CstrModel CstrSpec CstrProofs UnitModel UnitSpec UnitProofs.
Local Open Scope Z_scope.

(** Running a suite runs each of its tests once, in order, between the suite's set-up and tear-down (also when the test fails), marks a test as failed exactly if one of
    its own assertions failed, and counts accordingly. *)
Theorem C43_suite : forall u s, run_suite u s = (counted u 1 (s_tests s) (u_suites u), suite_after s, flat_map (events_of s) (s_tests s)).
Proof. exact run_suite_ok. Qed.
Print Assumptions C43_suite.
Theorem C43_run : forall u, unit_run u =
  (counted u (zlen (u_suites u)) (all_tests u) (map suite_after (u_suites u)), flat_map (fun s => flat_map (events_of s) (s_tests s)) (u_suites u), 0).
Proof. intros u. unfold unit_run. rewrite run_suites_ok. reflexivity. Qed.
Print Assumptions C43_run.

(** Each test counted is either a success or a failure; the successes are the tests without a failing assertion. *)
Theorem C43_balance : forall u u' ev r, unit_run u = (u', ev, r) ->
  (u_successes u' - u_successes u) + (u_failures u' - u_failures u) = u_tests u' - u_tests u /\
  u_tests u' - u_tests u = zlen (all_tests u) /\ u_successes u' - u_successes u = zlen (filter passes (all_tests u)).
Proof.
  intros u u' ev r H. rewrite C43_run in H. assert (E : counted u (zlen (u_suites u)) (all_tests u) (map suite_after (u_suites u)) = u') by congruence. subst u'.
  unfold counted. cbn [u_tests u_successes u_failures]. pose proof (count_failing (all_tests u)). unfold count in *. lia.
Qed.
Print Assumptions C43_balance.

(** The exit status of a full run is 0 iff no test failed. *)
Theorem C43_status : forall u, u_failures u = 0 -> exists u' ev r, unit_main u [] = Ok (u', ev, r) /\
  (r = 0 <-> forall t, In t (all_tests u) -> passes t = true) /\ (r = 0 \/ r = -1).
Proof.
  intros u H0. unfold unit_main. cbn [existsb]. rewrite C43_run. cbn [obind]. eexists _, _, _. split; [reflexivity|].
  unfold counted. cbn [u_failures Z.eqb andb]. rewrite H0. pose proof (count_nonneg failing (all_tests u)) as N. pose proof (count_zero failing (all_tests u)) as Z.
  destruct (0 <? 0 + count failing (all_tests u)) eqn:E.
  - split; [|now right]. split; [discriminate|]. intros H. assert (count failing (all_tests u) = 0); [|lia]. apply Z. intros t Ht. unfold failing. now rewrite H.
  - split; [|now left]. split; [intros _|reflexivity]. assert (C : count failing (all_tests u) = 0) by lia. intros t Ht. pose proof (proj1 Z C t Ht) as F.
    unfold failing in F. now destruct (passes t).
Qed.
Print Assumptions C43_status.

(** Choosing what to run by name. *)
Definition nodot (n : text) : Prop := n <> [] /\ ~ In 46 n.
Lemma dots_none n : ~ In 46 n -> dots n = 0.
Proof. induction n as [|c n IH]; intros H; [reflexivity|]. cbn [dots]. replace (c =? 46) with false by (assert (c <> 46) by (intros ->; apply H; now left); lia). rewrite IH; [reflexivity|]. intros H1. apply H. now right. Qed.
Lemma dots_app a b : dots (a ++ b) = dots a + dots b.
Proof. induction a as [|c a IH]; [reflexivity|]. cbn [app dots]. lia. Qed.
Lemma dots_nonneg n : 0 <= dots n.
Proof. induction n as [|c n IH]; [reflexivity|]. cbn [dots]. destruct (c =? 46); lia. Qed.
Lemma fields_none n : ~ In 46 n -> fields [46] n = [n].
Proof.
  induction n as [|c n IH]; intros H; [reflexivity|]. cbn [fields existsb]. replace (c =? 46) with false by (assert (c <> 46) by (intros ->; apply H; now left); lia).
  cbn [orb]. rewrite IH; [reflexivity|]. intros H1. apply H. now right.
Qed.
Lemma fields_dot a b : ~ In 46 a -> fields [46] (a ++ 46 :: b) = a :: fields [46] b.
Proof.
  induction a as [|c a IH]; intros H; [reflexivity|]. cbn [app fields existsb]. replace (c =? 46) with false by (assert (c <> 46) by (intros ->; apply H; now left); lia).
  cbn [orb]. rewrite IH; [reflexivity|]. intros H1. apply H. now right.
Qed.
Lemma split_one n : nodot n -> str_split n = (1, [Some n; None]).
Proof. intros [H1 H2]. unfold str_split. rewrite dots_none, fields_none by exact H2. destruct n; [congruence|]. reflexivity. Qed.
Lemma split_two a b : nodot a -> nodot b -> str_split (a ++ 46 :: b) = (2, [Some a; Some b; None]).
Proof.
  intros [A1 A2] [B1 B2]. unfold str_split. rewrite dots_app. change (dots (46 :: b)) with (1 + dots b). rewrite !dots_none by assumption.
  rewrite fields_dot, fields_none by assumption. destruct a; [congruence|]. destruct b; [congruence|]. reflexivity.
Qed.
Lemma name_eq_spec a b : name_eq a b = true <-> a = b.
Proof. unfold name_eq. destruct (list_eq_dec Z.eq_dec a b); split; congruence. Qed.
Lemma find_name_some {A} (nm : A -> text) n : forall l a x b, find_name nm n l = Some (a, x, b) -> l = a ++ x :: b /\ nm x = n /\ (forall y, In y a -> nm y <> n).
Proof.
  induction l as [|y l IH]; intros a x b H; [discriminate|]. cbn [find_name] in H. destruct (name_eq (nm y) n) eqn:E.
  - assert (a = [] /\ x = y /\ b = l) as (-> & -> & ->) by (repeat split; congruence). split; [reflexivity|]. split; [now apply name_eq_spec|]. intros z [].
  - destruct (find_name nm n l) as [[[a' x'] b']|]; [|discriminate]. assert (a = y :: a' /\ x = x' /\ b = b') as (-> & -> & ->) by (repeat split; congruence).
    destruct (IH a' x' b' eq_refl) as (E1 & E2 & E3). subst l. split; [reflexivity|]. split; [exact E2|]. intros z [<-|Hz]; [|now apply E3].
    intros H1. apply name_eq_spec in H1. congruence.
Qed.
Lemma find_name_none {A} (nm : A -> text) n : forall l, find_name nm n l = None -> forall y, In y l -> nm y <> n.
Proof.
  induction l as [|y l IH]; intros H z Hz; [destruct Hz|]. cbn [find_name] in H. destruct (name_eq (nm y) n) eqn:E; [discriminate|].
  destruct (find_name nm n l) as [[[a' x'] b']|]; [discriminate|]. destruct Hz as [<-|Hz]; [intros H1; apply name_eq_spec in H1; congruence|now apply IH].
Qed.

(** the first suite, or test, of a name *)
Definition is_first {A} (nm : A -> text) (n : text) (l : list A) (x : A) : Prop := exists a b, l = a ++ x :: b /\ nm x = n /\ forall y, In y a -> nm y <> n.
Definition absent {A} (nm : A -> text) (n : text) (l : list A) : Prop := forall y, In y l -> nm y <> n.

(** Naming a suite runs exactly that suite. *)
Theorem C43_by_name_suite : forall u n, nodot n ->
  (absent s_name n (u_suites u) /\ run_by_name u n = Ok (u, [], -1)) \/
  exists a s b, u_suites u = a ++ s :: b /\ s_name s = n /\ absent s_name n a /\
    run_by_name u n = Ok (counted u 1 (s_tests s) (a ++ suite_after s :: b), flat_map (events_of s) (s_tests s), 0).
Proof.
  intros u n H. unfold run_by_name. rewrite split_one by exact H. cbn [Z.leb Z.ltb orb Z.compare nth Pos.compare Pos.compare_cont Z.eqb Pos.eqb].
  destruct (find_name s_name n (u_suites u)) as [[[a s] b]|] eqn:E.
  - right. destruct (find_name_some _ _ _ _ _ _ E) as (E1 & E2 & E3). exists a, s, b. split; [exact E1|]. split; [exact E2|]. split; [exact E3|]. rewrite run_suite_ok. reflexivity.
  - left. split; [exact (find_name_none _ _ _ E)|reflexivity].
Qed.
Print Assumptions C43_by_name_suite.
(** Naming a test runs exactly that test; its outcome is counted as a success or failure, though (see below) the test itself is not counted. *)
Theorem C43_by_name_test : forall u n1 n2, nodot n1 -> nodot n2 ->
  ((absent s_name n1 (u_suites u) \/ exists s, is_first s_name n1 (u_suites u) s /\ absent t_name n2 (s_tests s)) /\ run_by_name u (n1 ++ 46 :: n2) = Ok (u, [], -1)) \/
  exists a s b ta t tb, u_suites u = a ++ s :: b /\ s_name s = n1 /\ absent s_name n1 a /\ s_tests s = ta ++ t :: tb /\ t_name t = n2 /\ absent t_name n2 ta /\
    run_by_name u (n1 ++ 46 :: n2) = Ok (mkunit (a ++ set_tests s (ta ++ after_run t :: tb) :: b) (u_suite_count u) (u_tests u)
      (u_successes u + if passes t then 1 else 0) (u_failures u + if passes t then 0 else 1) (u_assertions u) (u_exceptions u) (u_empty u), events_of s t, 0).
Proof.
  intros u n1 n2 H1 H2. unfold run_by_name. rewrite split_two by assumption. cbn [Z.leb Z.ltb orb Z.compare nth Pos.compare Pos.compare_cont Z.eqb Pos.eqb].
  destruct (find_name s_name n1 (u_suites u)) as [[[a s] b]|] eqn:E.
  - destruct (find_name_some _ _ _ _ _ _ E) as (E1 & E2 & E3).
    destruct (find_name t_name n2 (s_tests s)) as [[[ta t] tb]|] eqn:E'.
    + right. destruct (find_name_some _ _ _ _ _ _ E') as (E1' & E2' & E3'). exists a, s, b, ta, t, tb. rewrite run_test_ok. repeat (split; [assumption|]). now destruct (passes t).
    + left. split; [right|reflexivity]. exists s. split; [exists a, b; auto|]. exact (find_name_none _ _ _ E').
  - left. split; [left; exact (find_name_none _ _ _ E)|reflexivity].
Qed.
Print Assumptions C43_by_name_test.
(** A name with two or more dots names nothing. *)
Theorem C43_by_name_dots : forall u n, 2 <= dots n -> run_by_name u n = Ok (u, [], -1).
Proof. intros u n H. unfold run_by_name, str_split. replace ((1 + dots n <=? 0) || (2 <? 1 + dots n)) with true by lia. reflexivity. Qed.
Print Assumptions C43_by_name_dots.
(** But the empty name, a lone dot, and a dot after the name of a suite make the runner take the length of a NULL string. *)
Theorem C43_by_name_refuted : forall u, run_by_name u [] = UB /\ run_by_name u [46] = UB /\
  forall n s, nodot n -> is_first s_name n (u_suites u) s -> run_by_name u (n ++ [46]) = UB /\ run_by_name u (46 :: n) = UB.
Proof.
  intros u. split; [reflexivity|]. split; [reflexivity|]. intros n s [N1 N2] (a & b & E1 & E2 & E3).
  assert (F : exists x, find_name s_name n (u_suites u) = Some x).
  { destruct (find_name s_name n (u_suites u)) as [x|] eqn:E; [eauto|]. exfalso. apply (find_name_none _ _ _ E s); [rewrite E1; apply in_elt|exact E2]. }
  destruct F as [[[a' s'] b'] F].
  assert (S1 : str_split (n ++ [46]) = (2, [Some n; None; None])).
  { unfold str_split. rewrite dots_app, (dots_none n N2). rewrite fields_dot by exact N2. destruct n; [congruence|]. reflexivity. }
  assert (S2 : str_split (46 :: n) = (2, [Some n; None; None])).
  { unfold str_split. change (dots (46 :: n)) with (1 + dots n). rewrite (dots_none n N2). change (fields [46] (46 :: n)) with ([] :: fields [46] n). rewrite fields_none by exact N2.
    destruct n; [congruence|]. reflexivity. }
  unfold run_by_name. rewrite S1, S2. cbn [Z.leb Z.ltb orb Z.compare nth Pos.compare Pos.compare_cont Z.eqb Pos.eqb]. rewrite F. auto.
Qed.
Print Assumptions C43_by_name_refuted.

(** The exit status of a run by names is 0 iff everything named exists and none of the named tests fails, whatever ran before. *)
Definition shape (u : unit) : list (text * list (text * list check)) := map (fun s => (s_name s, map (fun t => (t_name t, t_body t)) (s_tests s))) (u_suites u).
Definition okbody (l : list check) : bool := forallb (fun c => match c with Assert b => b | Exception => true end) l.
(** what a name selects: None if nothing, else the bodies of the tests *)
Definition first_named {B} (n : text) (l : list (text * B)) : option B := match find (fun x => name_eq (fst x) n) l with Some x => Some (snd x) | None => None end.
Inductive target := Suite (n : text) | Test (n1 n2 : text).
Definition spelled (t : target) : text := match t with Suite n => n | Test n1 n2 => n1 ++ 46 :: n2 end.
Definition proper (t : target) : Prop := match t with Suite n => nodot n | Test n1 n2 => nodot n1 /\ nodot n2 end.
Definition selects (sh : list (text * list (text * list check))) (t : target) : option (list (list check)) :=
  match t with
  | Suite n => option_map (map snd) (first_named n sh)
  | Test n1 n2 => match first_named n1 sh with None => None | Some ts => option_map (fun b => [b]) (first_named n2 ts) end
  end.
Definition good (sh : list (text * list (text * list check))) (t : target) : Prop := match selects sh t with None => False | Some bs => forall b, In b bs -> okbody b = true end.

Lemma first_named_some {A B} (nm : A -> text) (g : A -> B) n a x b : nm x = n -> (forall y, In y a -> nm y <> n) ->
  first_named n (map (fun y => (nm y, g y)) (a ++ x :: b)) = Some (g x).
Proof.
  intros E N. unfold first_named. induction a as [|y a IH]; cbn [app map find fst].
  - replace (name_eq (nm x) n) with true by (symmetry; now apply name_eq_spec). reflexivity.
  - replace (name_eq (nm y) n) with false; [apply IH; intros z Hz; apply N; now right|]. symmetry. destruct (name_eq (nm y) n) eqn:E1; [|reflexivity].
    apply name_eq_spec in E1. elim (N y); [now left|exact E1].
Qed.
Lemma first_named_none {A B} (nm : A -> text) (g : A -> B) n l : absent nm n l -> first_named n (map (fun y => (nm y, g y)) l) = None.
Proof.
  intros N. unfold first_named. induction l as [|y l IH]; [reflexivity|]. cbn [map find fst]. destruct (name_eq (nm y) n) eqn:E1.
  - apply name_eq_spec in E1. elim (N y); [now left|exact E1].
  - apply IH. intros z Hz. apply N. now right.
Qed.
Lemma shape_suite u a s b : u_suites u = a ++ s :: b -> forall u', u_suites u' = a ++ suite_after s :: b -> shape u' = shape u.
Proof.
  intros E u' E'. unfold shape. rewrite E, E', !map_app. cbn [map]. do 2 f_equal. unfold suite_after. cbn [s_name s_tests]. f_equal. rewrite map_map. apply map_ext. reflexivity.
Qed.
Lemma by_target u t : proper t -> exists u' ev r, run_by_name u (spelled t) = Ok (u', ev, r) /\ shape u' = shape u /\
  u_failures u <= u_failures u' /\ (r = 0 \/ r = -1) /\ ((r = 0 /\ u_failures u' = u_failures u) <-> good (shape u) t).
Proof.
  intros P. destruct t as [n|n1 n2]; cbn [spelled proper] in *.
  - destruct (C43_by_name_suite u n P) as [[H1 H2]|(a & s & b & E1 & E2 & E3 & E4)].
    + eexists _, _, _. split; [exact H2|]. split; [reflexivity|]. split; [lia|]. split; [now right|]. unfold good, selects.
      unfold shape. rewrite first_named_none by exact H1. cbn [option_map]. split; [lia|tauto].
    + eexists _, _, _. split; [exact E4|]. split; [eapply shape_suite; [exact E1|reflexivity]|]. cbn [counted u_failures]. pose proof (count_nonneg failing (s_tests s)).
      split; [lia|]. split; [now left|]. unfold good, selects, shape. rewrite E1, first_named_some by assumption. cbn [option_map].
      pose proof (count_zero failing (s_tests s)) as Z. split.
      * intros [_ H1]. assert (C : count failing (s_tests s) = 0) by lia. intros bd Hb. rewrite map_map in Hb. cbn [snd] in Hb. apply in_map_iff in Hb. destruct Hb as (t & <- & Ht).
        pose proof (proj1 Z C t Ht) as F. unfold failing, passes in F. unfold okbody. now destruct (forallb _ (t_body t)).
      * intros H1. split; [reflexivity|]. assert (C : count failing (s_tests s) = 0); [|lia]. apply Z. intros t Ht. unfold failing, passes.
        specialize (H1 (t_body t)). unfold okbody in H1. rewrite H1; [reflexivity|]. rewrite map_map. apply in_map_iff. exists t. auto.
  - destruct P as [P1 P2]. destruct (C43_by_name_test u n1 n2 P1 P2) as [[H1 H2]|(a & s & b & ta & t & tb & E1 & E2 & E3 & E4 & E5 & E6 & E7)].
    + eexists _, _, _. split; [exact H2|]. split; [reflexivity|]. split; [lia|]. split; [now right|]. unfold good, selects.
      destruct H1 as [H1|(s & (a & b & E1 & E2 & E3) & H1)].
      * unfold shape. rewrite first_named_none by exact H1. split; [lia|tauto].
      * unfold shape. rewrite E1, first_named_some by assumption. rewrite first_named_none by exact H1. cbn [option_map]. split; [lia|tauto].
    + eexists _, _, _. split; [exact E7|]. split.
      { unfold shape. cbn [u_suites]. rewrite E1, !map_app. cbn [map]. do 2 f_equal. cbn [set_tests s_name s_tests]. f_equal. rewrite E4, !map_app. cbn [map]. reflexivity. }
      cbn [u_failures]. split; [destruct (passes t); lia|]. split; [now left|]. unfold good, selects, shape. rewrite E1, first_named_some by assumption. rewrite E4, first_named_some by assumption.
      cbn [option_map]. unfold passes. fold (okbody (t_body t)). split.
      * intros [_ H] bd [<-|[]]. destruct (okbody (t_body t)); [reflexivity|lia].
      * intros H. rewrite (H (t_body t)) by now left. split; [reflexivity|lia].
Qed.
Theorem C43_status_by_names : forall u ts, u_failures u = 0 -> ts <> [] -> (forall t, In t ts -> proper t) -> (forall t, In t ts -> ~ In (spelled t) info_opts) ->
  exists u' ev r, unit_main u (map spelled ts) = Ok (u', ev, r) /\ (r = 0 \/ r = -1) /\ (r = 0 <-> forall t, In t ts -> good (shape u) t).
Proof.
  intros u ts H0 Hne Hp Hi. unfold unit_main.
  replace (existsb (fun a => existsb (name_eq a) info_opts) (map spelled ts)) with false.
  2: { symmetry. apply not_true_is_false. intros H. apply existsb_exists in H. destruct H as (x & Hx & H). apply existsb_exists in H. destruct H as (y & Hy & H).
       apply name_eq_spec in H. subst y. apply in_map_iff in Hx. destruct Hx as (t & <- & Ht). now apply (Hi t Ht). }
  assert (G : forall ts u r0, (forall t, In t ts -> proper t) -> (r0 = 0 \/ r0 = -1) -> exists u' ev r, run_names u (map spelled ts) r0 = Ok (u', ev, r) /\
    u_failures u <= u_failures u' /\ (r = 0 \/ r = -1) /\ ((r = 0 /\ u_failures u' = u_failures u) <-> r0 = 0 /\ forall t, In t ts -> good (shape u) t)).
  { clear. induction ts as [|t ts IH]; intros u r0 Hp Hr.
    - exists u, [], r0. split; [reflexivity|]. split; [lia|]. split; [exact Hr|]. split; [intros [H _]; split; [exact H|intros t []]|intros [H _]; split; [exact H|reflexivity]].
    - cbn [map run_names]. destruct (by_target u t (Hp t (or_introl eq_refl))) as (u1 & ev1 & r1 & E1 & S1 & L1 & R1 & B1). rewrite E1. cbn [obind].
      destruct (IH u1 (if r1 <? 0 then -1 else r0)) as (u2 & ev2 & r2 & E2 & L2 & R2 & B2); [intros x Hx; apply Hp; now right|destruct R1; subst; cbn; tauto|].
      rewrite E2. cbn [obind]. exists u2, (ev1 ++ ev2), r2. split; [reflexivity|]. split; [lia|]. split; [exact R2|]. rewrite S1 in B2. split.
      + intros [H1 H2]. destruct (proj1 B2) as [H3 H4]; [split; [exact H1|lia]|]. destruct R1 as [R1|R1]; subst r1; [|cbn in H3; lia]. cbn in H3.
        split; [exact H3|]. intros x [<-|Hx]; [apply B1; split; [reflexivity|lia]|now apply H4].
      + intros [-> H]. destruct (proj2 B1 (H t (or_introl eq_refl))) as [-> F1]. destruct (proj2 B2) as [-> F2]; [split; [reflexivity|intros x Hx; apply H; now right]|].
        split; [reflexivity|lia]. }
  destruct ts as [|t0 ts0]; [congruence|]. set (ts := t0 :: ts0) in *.
  destruct (G ts u 0 Hp ltac:(now left)) as (u' & ev & r & E & L & R & B).
  assert (EM : match map spelled ts with [] => let '(u0, ev0, result) := unit_run u in Ok (u0, ev0, result) | _ :: _ => run_names u (map spelled ts) 0 end = Ok (u', ev, r)) by exact E.
  rewrite EM. cbn [obind]. eexists _, _, _. split; [reflexivity|]. rewrite H0 in *. destruct R as [-> | -> ]; cbn [Z.eqb andb].
  - destruct (0 <? u_failures u') eqn:F.
    + split; [now right|]. split; [discriminate|]. intros H. destruct (proj2 B) as [_ H1]; [split; [reflexivity|exact H]|]. lia.
    + split; [now left|]. split; [intros _|reflexivity]. apply B. split; [reflexivity|lia].
  - split; [now right|]. split; [discriminate|]. intros H. destruct (proj2 B) as [H1 _]; [split; [reflexivity|exact H]|]. lia.
Qed.
Print Assumptions C43_status_by_names.

(** A test run by name is a success or a failure of a unit whose number of tests does not grow: the balance holds for suites only. *)
Definition t1 := mktest [116] [Assert true; Assert true] (-1) 0 0 false.
Definition t2 := mktest [117] [Assert true; Assert false; Assert true] (-1) 0 0 false.
Definition u0 := mkunit [mksuite [115] true true [t1; t2] 0 0 0 0 0] 0 0 0 0 0 0 0.
Theorem C43_by_name_balance_refuted : exists u n u' ev, run_by_name u n = Ok (u', ev, 0) /\ u_tests u' <> u_successes u' + u_failures u' /\
  u_tests u = u_successes u + u_failures u.
Proof. exists u0, [115; 46; 116]. eexists _, _. split; [vm_compute; reflexivity|]. split; [vm_compute; discriminate|reflexivity]. Qed.
Print Assumptions C43_by_name_balance_refuted.
(** Assertions of earlier runs of a test are counted again when it is run again. *)
Theorem C43_rerun_assertions_refuted : exists u u1 ev1 u2 ev2, run_by_name u [115] = Ok (u1, ev1, 0) /\ run_by_name u1 [115] = Ok (u2, ev2, 0) /\
  u_assertions u1 - u_assertions u = 3 /\ u_assertions u2 - u_assertions u1 = 6.
Proof. exists u0. eexists _, _, _, _. split; [vm_compute; reflexivity|]. split; [vm_compute; reflexivity|]. split; reflexivity. Qed.
Print Assumptions C43_rerun_assertions_refuted.

(** a run with a passing and a failing test *)
Example C43_example : unit_run u0 = (counted u0 1 [t1; t2] [suite_after (mksuite [115] true true [t1; t2] 0 0 0 0 0)],
  [Setup [115]; Run [115] [116]; Teardown [115]; Result [116] 2 true; Setup [115]; Run [115] [117]; Teardown [115]; Result [117] 1 false], 0) /\
  (match unit_main u0 [] with Ok (u, _, r) => (u_tests u, u_successes u, u_failures u, u_assertions u, r) | _ => (0, 0, 0, 0, 0) end) = (2, 1, 1, 3, -1).
Proof. split; vm_compute; reflexivity. Qed.
Example C43_example_names : nodot [115] /\ nodot [116] /\ is_first s_name [115] (u_suites u0) (mksuite [115] true true [t1; t2] 0 0 0 0 0) /\
  (match unit_main u0 [[115; 46; 116]] with Ok (u, _, r) => (u_tests u, u_successes u, u_failures u, r) | _ => (0, 0, 0, 0) end) = (0, 1, 0, 0).
Proof.
  split; [split; [discriminate|intros [H|[]]; discriminate]|]. split; [split; [discriminate|intros [H|[]]; discriminate]|].
  split; [exists [], []; split; [reflexivity|split; [reflexivity|intros y []]]|]. vm_compute. reflexivity.
Qed.
