(** What running tests should report. *)
From Verif Require Import Prelude CstrModel CstrSpec UnitModel.
Local Open Scope Z_scope.

(** a test passes iff none of its assertions fails *)
Definition passes (t : test) : bool := forallb (fun c => match c with Assert b => b | Exception => true end) (t_body t).
(** the checks made before the first failing assertion *)
Fixpoint made (l : list check) : list check := match l with [] => [] | Assert false :: _ => [] | c :: r => c :: made r end.
Definition held (t : test) : Z := zlen (filter (fun c => match c with Assert _ => true | Exception => false end) (made (t_body t))).
Definition raised (t : test) : Z := zlen (filter (fun c => match c with Assert _ => false | Exception => true end) (made (t_body t))).
(** the test after a run: only its own outcome decides its flag *)
Definition after_run (t : test) : test :=
  mktest (t_name t) (t_body t) (if passes t then 1 else 0) (t_assertions t + held t) (t_exceptions t + raised t) (t_error t || negb (passes t)).
(** what happens around one test of a suite *)
Definition events_of (s : suite) (t : test) : list event :=
  (if s_setup s then [Setup (s_name s)] else []) ++ [Run (s_name s) (t_name t)] ++ (if s_teardown s then [Teardown (s_name s)] else []) ++
  [Result (t_name t) (t_assertions t + held t) (passes t)].
Definition count {A} (f : A -> bool) (l : list A) : Z := zlen (filter f l).
Definition zsum (l : list Z) : Z := fold_right Z.add 0 l.
(** the test asserted nothing and raised nothing *)
Definition vacuous (t : test) : bool := (t_assertions t + held t =? 0) && (t_exceptions t + raised t =? 0).
Definition all_tests (u : unit) : list test := flat_map s_tests (u_suites u).
Definition failing (t : test) : bool := negb (passes t).
(** the suite after a run *)
Definition suite_after (s : suite) : suite :=
  let T := s_tests s in
  mksuite (s_name s) (s_setup s) (s_teardown s) (map after_run T) (s_succeeded s + count passes T) (s_failed s + count failing T)
    (s_assertions s + zsum (map (fun t => t_assertions t + held t) T)) (s_exceptions s + zsum (map (fun t => t_exceptions t + raised t) T)) (s_empty s + count vacuous T).
(** the unit's counters after tests T have been run in k suites *)
Definition counted (u : unit) (k : Z) (T : list test) (suites : list suite) : unit :=
  mkunit suites (u_suite_count u + k) (u_tests u + zlen T) (u_successes u + count passes T) (u_failures u + count failing T)
    (u_assertions u + zsum (map (fun t => t_assertions t + held t) T)) (u_exceptions u + zsum (map (fun t => t_exceptions t + raised t) T)) (u_empty u + count vacuous T).
