(** Proofs about zt_unit.c. *)
From Verif Require Import Prelude CstrModel CstrSpec CstrProofs UnitModel UnitSpec.
Local Open Scope Z_scope.

Lemma zlen_cons {A} (x : A) l : zlen (x :: l) = 1 + zlen l.
Proof. unfold zlen. cbn [length]. lia. Qed.

Lemma test_fn_ok : forall l t, test_fn t l =
  (mktest (t_name t) (t_body t) (t_success t) (t_assertions t + zlen (filter (fun c => match c with Assert _ => true | Exception => false end) (made l)))
     (t_exceptions t + zlen (filter (fun c => match c with Assert _ => false | Exception => true end) (made l)))
     (t_error t || negb (forallb (fun c => match c with Assert b => b | Exception => true end) l)),
   forallb (fun c => match c with Assert b => b | Exception => true end) l).
Proof.
  induction l as [|[[|]|] l IH]; intros t.
  - cbn [test_fn made filter forallb negb]. change (@zlen check []) with 0. rewrite !Z.add_0_r, orb_false_r. now destruct t.
  - cbn [test_fn made filter forallb andb]. rewrite IH. cbn [t_name t_body t_success t_assertions t_exceptions t_error]. rewrite zlen_cons. now rewrite Z.add_assoc.
  - cbn [test_fn made filter forallb andb negb]. change (@zlen check []) with 0. now rewrite !Z.add_0_r, orb_true_r.
  - cbn [test_fn made filter forallb andb]. rewrite IH. cbn [t_name t_body t_success t_assertions t_exceptions t_error]. rewrite zlen_cons. now rewrite Z.add_assoc.
Qed.

Lemma run_test_ok s t : run_test s t = (after_run t, events_of s t, if passes t then 1 else 0).
Proof.
  unfold run_test, try_c. cbn [set_success t_body]. rewrite test_fn_ok. cbn [set_success t_name t_body t_success t_assertions t_exceptions t_error].
  unfold after_run, events_of, passes, held, raised. destruct (forallb _ (t_body t)); reflexivity.
Qed.

Lemma run_tests_ok : forall todo u s done,
  run_tests u s done todo =
  (mkunit (u_suites u) (u_suite_count u) (u_tests u + zlen todo) (u_successes u + count passes todo) (u_failures u + count failing todo)
     (u_assertions u + zsum (map (fun t => t_assertions t + held t) todo)) (u_exceptions u + zsum (map (fun t => t_exceptions t + raised t) todo)) (u_empty u + count vacuous todo),
   mksuite (s_name s) (s_setup s) (s_teardown s) (done ++ map after_run todo) (s_succeeded s + count passes todo) (s_failed s + count failing todo)
     (s_assertions s + zsum (map (fun t => t_assertions t + held t) todo)) (s_exceptions s + zsum (map (fun t => t_exceptions t + raised t) todo)) (s_empty s + count vacuous todo),
   flat_map (events_of s) todo).
Proof.
  induction todo as [|t r IH]; intros u s done; cbn [run_tests].
  - unfold count. cbn [filter map zsum fold_right flat_map]. change (@zlen test []) with 0. rewrite !Z.add_0_r, app_nil_r. now destruct u.
  - rewrite run_test_ok. rewrite IH. cbn [u_suites u_suite_count u_tests u_successes u_failures u_assertions u_exceptions u_empty s_name s_setup s_teardown s_tests s_succeeded s_failed
      s_assertions s_exceptions s_empty].
    unfold count. cbn [filter map zsum fold_right flat_map]. fold (zsum (map (fun t => t_assertions t + held t) r)). fold (zsum (map (fun t => t_exceptions t + raised t) r)).
    rewrite zlen_cons. change (t_assertions (after_run t)) with (t_assertions t + held t). change (t_exceptions (after_run t)) with (t_exceptions t + raised t).
    fold (vacuous t). assert (Ef : negb ((if passes t then 1 else 0) =? 1) = failing t) by (unfold failing; now destruct (passes t)). rewrite Ef.
    assert (Ep : passes t = negb (failing t)) by (unfold failing; now rewrite negb_involutive). rewrite Ep.
    rewrite <- app_assoc. cbn [app].
    apply f_equal2; [apply f_equal2|reflexivity].
    + f_equal; try lia; destruct (failing t); cbn [negb]; rewrite ?zlen_cons; try lia; destruct (vacuous t); rewrite ?zlen_cons; lia.
    + f_equal; try lia; destruct (failing t); cbn [negb]; rewrite ?zlen_cons; try lia; destruct (vacuous t); rewrite ?zlen_cons; lia.
Qed.

Lemma run_suite_ok u s : run_suite u s = (counted u 1 (s_tests s) (u_suites u), suite_after s, flat_map (events_of s) (s_tests s)).
Proof. unfold run_suite. rewrite run_tests_ok. reflexivity. Qed.

Lemma count_app {A} (f : A -> bool) a b : count f (a ++ b) = count f a + count f b.
Proof. unfold count. now rewrite filter_app, zlen_app. Qed.
Lemma zsum_app a b : zsum (a ++ b) = zsum a + zsum b.
Proof. unfold zsum. induction a as [|x a IH]; cbn [app fold_right]; lia. Qed.
Lemma run_suites_ok : forall todo u done, run_suites u done todo =
  (counted u (zlen todo) (flat_map s_tests todo) (done ++ map suite_after todo), flat_map (fun s => flat_map (events_of s) (s_tests s)) todo).
Proof.
  induction todo as [|s r IH]; intros u done; cbn [run_suites].
  - unfold counted, set_suites, count. cbn [flat_map filter map zsum fold_right]. change (@zlen test []) with 0. change (@zlen suite []) with 0. now rewrite !Z.add_0_r, app_nil_r.
  - rewrite run_suite_ok, IH. cbn [flat_map map]. rewrite <- app_assoc. cbn [app]. f_equal. unfold counted.
    cbn [u_suites u_suite_count u_tests u_successes u_failures u_assertions u_exceptions u_empty].
    rewrite zlen_cons, !count_app, !map_app, !zsum_app, zlen_app. f_equal; lia.
Qed.

Lemma count_failing l : count passes l + count failing l = zlen l.
Proof.
  unfold count. induction l as [|t l IH]; [reflexivity|]. cbn [filter]. unfold failing at 1. rewrite zlen_cons. destruct (passes t); cbn [negb]; rewrite zlen_cons; lia.
Qed.
Lemma count_zero {A} (f : A -> bool) l : count f l = 0 <-> forall x, In x l -> f x = false.
Proof.
  unfold count. induction l as [|x l IH]; [split; [intros _ y []|reflexivity]|]. cbn [filter]. destruct (f x) eqn:E.
  - rewrite zlen_cons. pose proof (zlen_nonneg (filter f l)). split; [lia|]. intros H1. rewrite H1 in E by now left. discriminate.
  - rewrite IH. split; [intros H y [<-|Hy]; auto|intros H y Hy; apply H; now right].
Qed.
Lemma count_nonneg {A} (f : A -> bool) l : 0 <= count f l.
Proof. apply zlen_nonneg. Qed.
