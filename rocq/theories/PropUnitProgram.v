(** C43, continued: whole test programs, from zt_unit_init through the registrations to zt_unit_main. *)
From Verif Require Import Prelude CstrModel CstrSpec UnitModel UnitSpec UnitProofs PropUnit.
Local Open Scope Z_scope.

(** a test program: suites (name, has a set-up, has a tear-down) of tests (name, what the function does) *)
Definition program := list (text * bool * bool * list (text * list check)).
(** what the main function of such a program does before zt_unit_main: for each suite zt_unit_register_suite, then zt_unit_register_test for each of its tests *)
Definition declare (u : unit) (x : text * bool * bool * list (text * list check)) : unit :=
  let '(n, a, b, ts) := x in
  let u1 := register_suite u n a b in
  match rev (u_suites u1) with
  | s :: r => set_suites u1 (rev r ++ [fold_left (fun s t => register_test s (fst t) (snd t)) ts s])
  | [] => u1
  end.
Definition build (p : program) : unit := fold_left declare p unit_init.

(** the specification is in terms of the bodies alone *)
Definition ok_body (b : list check) : bool := negb (existsb (fun c => match c with Assert false => true | _ => false end) b).
(** checks before the first failing assertion *)
Fixpoint upto (b : list check) : list check := match b with [] => [] | Assert false :: _ => [] | c :: r => c :: upto r end.
Definition asserts (b : list check) : Z := zlen (filter (fun c => match c with Assert _ => true | _ => false end) (upto b)).
Definition excepts (b : list check) : Z := zlen (filter (fun c => match c with Exception => true | _ => false end) (upto b)).
Definition silent (b : list check) : bool := match upto b with [] => true | _ => false end.
Definition bodies (p : program) : list (list check) := flat_map (fun x => map snd (snd x)) p.
Definition number (f : list check -> bool) (l : list (list check)) : Z := zlen (filter f l).
Definition total (f : list check -> Z) (l : list (list check)) : Z := fold_right Z.add 0 (map f l).
Definition played (x : text * bool * bool * list (text * list check)) : list event :=
  let '(n, a, b, ts) := x in
  flat_map (fun t => (if a then [Setup n] else []) ++ [Run n (fst t)] ++ (if b then [Teardown n] else []) ++ [Result (fst t) (asserts (snd t)) (ok_body (snd t))]) ts.
(** a test and a suite as the runner leaves them *)
Definition test_done (t : text * list check) : test := mktest (fst t) (snd t) (if ok_body (snd t) then 1 else 0) (asserts (snd t)) (excepts (snd t)) (negb (ok_body (snd t))).
Definition suite_done (x : text * bool * bool * list (text * list check)) : suite :=
  let '(n, a, b, ts) := x in let l := map snd ts in
  mksuite n a b (map test_done ts) (number ok_body l) (number (fun c => negb (ok_body c)) l) (total asserts l) (total excepts l) (number silent l).

Definition fresh_test (t : text * list check) : test := mktest (fst t) (snd t) (-1) 0 0 false.
Definition fresh_suite (x : text * bool * bool * list (text * list check)) : suite := let '(n, a, b, ts) := x in mksuite n a b (map fresh_test ts) 0 0 0 0 0.
Lemma register_tests : forall ts s, fold_left (fun s t => register_test s (fst t) (snd t)) ts s =
  mksuite (s_name s) (s_setup s) (s_teardown s) (s_tests s ++ map fresh_test ts) (s_succeeded s) (s_failed s) (s_assertions s) (s_exceptions s) (s_empty s).
Proof.
  induction ts as [|t ts IH]; intros s; cbn [fold_left map]; [rewrite app_nil_r; now destruct s|]. rewrite IH. unfold register_test. cbn [s_name s_setup s_teardown s_tests s_succeeded s_failed s_assertions s_exceptions s_empty]. now rewrite <- app_assoc.
Qed.
Lemma build_from : forall p l, fold_left declare p (mkunit l 0 0 0 0 0 0 0) = mkunit (l ++ map fresh_suite p) 0 0 0 0 0 0 0.
Proof.
  induction p as [|[[[n a] b] ts] p IH]; intros l; cbn [fold_left map]; [now rewrite app_nil_r|].
  cbn [declare]. unfold register_suite. cbn [u_suites]. rewrite rev_app_distr. cbn [rev app]. rewrite rev_involutive, register_tests. cbn [s_name s_setup s_teardown s_tests s_succeeded s_failed s_assertions s_exceptions s_empty app].
  unfold set_suites. cbn [u_suite_count u_tests u_successes u_failures u_assertions u_exceptions u_empty]. rewrite IH, <- app_assoc. reflexivity.
Qed.
Lemma build_is p : build p = mkunit (map fresh_suite p) 0 0 0 0 0 0 0.
Proof. exact (build_from p []). Qed.

Lemma passes_body t : passes (fresh_test t) = ok_body (snd t).
Proof. unfold passes, ok_body. cbn [fresh_test t_body]. induction (snd t) as [|c r IH]; [reflexivity|]. cbn [forallb existsb]. rewrite negb_orb, IH. now destruct c as [[]|]. Qed.
Lemma made_upto b : made b = upto b.
Proof. induction b as [|[[]|] r IH]; cbn; congruence. Qed.
Lemma held_body t : held (fresh_test t) = asserts (snd t).
Proof. unfold held, asserts. cbn [fresh_test t_body]. now rewrite made_upto. Qed.
Lemma raised_body t : raised (fresh_test t) = excepts (snd t).
Proof. unfold raised, excepts. cbn [fresh_test t_body]. rewrite made_upto. f_equal. Qed.
Lemma vacuous_body t : vacuous (fresh_test t) = silent (snd t).
Proof.
  unfold vacuous. rewrite held_body, raised_body. cbn [fresh_test t_assertions t_exceptions]. unfold asserts, excepts, silent, zlen. destruct (upto (snd t)) as [|c r]; [reflexivity|].
  destruct c; cbn [filter]; cbn [length]; apply andb_false_iff; [left|right]; apply Z.eqb_neq; lia.
Qed.
Lemma count_body f g ts : (forall t, f (fresh_test t) = g (snd t)) -> count f (map fresh_test ts) = number g (map snd ts).
Proof.
  intros E. unfold count, number, zlen. f_equal. induction ts as [|t ts IH]; [reflexivity|]. cbn [map filter]. rewrite E. destruct (g (snd t)); cbn [length]; now rewrite IH.
Qed.
Lemma sum_body f g ts : (forall t, f (fresh_test t) = g (snd t)) -> zsum (map f (map fresh_test ts)) = total g (map snd ts).
Proof. intros E. unfold zsum, total. f_equal. rewrite !map_map. apply map_ext. exact E. Qed.
Lemma all_flat p : flat_map s_tests (map fresh_suite p) = map fresh_test (flat_map snd p).
Proof. induction p as [|[[[n a] b] ts] p IH]; [reflexivity|]. cbn [map flat_map fresh_suite s_tests snd]. now rewrite IH, map_app. Qed.
Lemma bodies_flat p : bodies p = map snd (flat_map snd p).
Proof. unfold bodies. induction p as [|x p IH]; [reflexivity|]. cbn [flat_map]. now rewrite IH, map_app. Qed.

(** Running everything: each suite and test runs once, in order of registration, each test between its suite's set-up and tear-down;
    the totals are those of the bodies, the flags and counters of each suite and test too, and the exit status is 0 iff no assertion failed, else -1. *)
Theorem C43_program : forall p, unit_main (build p) [] =
  Ok (mkunit (map suite_done p) (zlen p) (zlen (bodies p)) (number ok_body (bodies p)) (number (fun b => negb (ok_body b)) (bodies p))
        (total asserts (bodies p)) (total excepts (bodies p)) (number silent (bodies p)),
      flat_map played p, if forallb ok_body (bodies p) then 0 else -1).
Proof.
  intros p. unfold unit_main. cbn [existsb]. rewrite C43_run, build_is. cbn [obind]. unfold counted, all_tests. cbn [u_suites u_suite_count u_tests u_successes u_failures u_assertions u_exceptions u_empty].
  rewrite all_flat, bodies_flat. set (L := flat_map snd p).
  assert (E1 : count passes (map fresh_test L) = number ok_body (map snd L)) by (apply count_body; exact passes_body).
  assert (E2 : count failing (map fresh_test L) = number (fun b => negb (ok_body b)) (map snd L)) by (apply count_body; intros t; unfold failing; now rewrite passes_body).
  assert (E3 : zsum (map (fun t => t_assertions t + held t) (map fresh_test L)) = total asserts (map snd L)) by (apply sum_body; intros t; now rewrite held_body).
  assert (E4 : zsum (map (fun t => t_exceptions t + raised t) (map fresh_test L)) = total excepts (map snd L)) by (apply sum_body; intros t; now rewrite raised_body).
  assert (E5 : count vacuous (map fresh_test L) = number silent (map snd L)) by (apply count_body; exact vacuous_body).
  rewrite E1, E2, E3, E4, E5. rewrite !Z.add_0_l. unfold zlen at 1 2. rewrite !map_length.
  assert (S : map suite_after (map fresh_suite p) = map suite_done p).
  { rewrite map_map. apply map_ext. intros [[[n a] b] ts]. unfold suite_after. cbn [fresh_suite s_name s_setup s_teardown s_tests s_succeeded s_failed s_assertions s_exceptions s_empty].
    rewrite (count_body passes ok_body ts passes_body), (count_body failing (fun b => negb (ok_body b)) ts), (sum_body _ asserts ts), (sum_body _ excepts ts), (count_body vacuous silent ts vacuous_body).
    - unfold suite_done. rewrite !Z.add_0_l. f_equal. rewrite map_map. apply map_ext. intros t. unfold after_run. rewrite passes_body, held_body, raised_body. reflexivity.
    - intros t. now rewrite raised_body.
    - intros t. now rewrite held_body.
    - intros t. unfold failing. now rewrite passes_body. }
  assert (V : flat_map (fun s => flat_map (events_of s) (s_tests s)) (map fresh_suite p) = flat_map played p).
  { assert (G : forall s ts, flat_map (events_of s) (map fresh_test ts) = flat_map (fun t => (if s_setup s then [Setup (s_name s)] else []) ++ [Run (s_name s) (fst t)] ++ (if s_teardown s then [Teardown (s_name s)] else []) ++ [Result (fst t) (asserts (snd t)) (ok_body (snd t))]) ts).
    { clear. intros s ts. induction ts as [|t ts IH]; [reflexivity|]. cbn [map flat_map]. rewrite IH. f_equal. unfold events_of. rewrite held_body, passes_body. reflexivity. }
    clear - G. induction p as [|[[[n a] b] ts] p IH]; [reflexivity|]. cbn [map flat_map]. rewrite IH. f_equal. cbn [fresh_suite s_tests]. rewrite G. reflexivity. }
  rewrite S, V. cbn [Z.eqb andb].
  assert (R : (0 <? number (fun b => negb (ok_body b)) (map snd L)) = negb (forallb ok_body (map snd L))).
  { unfold number. clear. induction (map snd L) as [|b l IH]; [reflexivity|]. cbn [filter forallb]. destruct (ok_body b); cbn [negb andb]; [exact IH|]. unfold zlen. cbn [length]. apply Z.ltb_lt. lia. }
  rewrite R. unfold zlen. rewrite ?map_length. now destruct (forallb ok_body (map snd L)).
Qed.
Print Assumptions C43_program.

(** an argument that asks for help or for the list of tests: nothing runs, status 0 *)
Theorem C43_info : forall u args a, In a args ->
  a = [45; 104] (* -h *) \/ a = [45; 45; 104; 101; 108; 112] (* --help *) \/ a = [45; 108] (* -l *) \/ a = [45; 45; 108; 105; 115; 116] (* --list *) ->
  unit_main u args = Ok (u, [], 0).
Proof.
  intros u args a I H. unfold unit_main.
  assert (X : existsb (fun a => existsb (name_eq a) info_opts) args = true).
  { apply existsb_exists. exists a. split; [exact I|]. destruct H as [->|[->|[->| ->]]]; vm_compute; reflexivity. }
  now rewrite X.
Qed.
Print Assumptions C43_info.

Example C43_program_case : unit_main (build [([115], true, false, [([97], [Assert true; Exception]); ([98], [Assert true; Assert false; Assert true])]); ([116], false, true, [([99], [])])]) [] =
  Ok (mkunit [mksuite [115] true false [mktest [97] [Assert true; Exception] 1 1 1 false; mktest [98] [Assert true; Assert false; Assert true] 0 1 0 true] 1 1 2 1 0;
              mksuite [116] false true [mktest [99] [] 1 0 0 false] 1 0 0 0 1] 2 3 2 1 2 1 1,
      [Setup [115]; Run [115] [97]; Result [97] 1 true; Setup [115]; Run [115] [98]; Result [98] 1 false; Run [116] [99]; Teardown [116]; Result [99] 0 true], -1).
Proof. rewrite C43_program. vm_compute. reflexivity. Qed.
