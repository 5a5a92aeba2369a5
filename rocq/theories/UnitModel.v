(** Model of src/libzt/zt_unit.c and the assertion macro of zt_unit.h.
    Simplifications: the circular lists of suites and of tests are lists in order of registration (property C24); counters do not overflow; the YAML report is reduced
    to the line "result" of each test; what a test function does is the list of the assertions it makes (ZT_UNIT_ASSERT, zt_unit.h:71-85) and of its calls of
    zt_unit_test_add_exception, the same at every run. *)
From Verif Require Import Prelude CstrModel CstrSpec.
Local Open Scope Z_scope.

Definition text := list Z.
Inductive check := Assert (b : bool) | Exception.
(* zt_unit.h:49-58; [t_error]: test->error is set *)
Record test := mktest { t_name : text; t_body : list check; t_success : Z; t_assertions : Z; t_exceptions : Z; t_error : bool }.
(* zt_unit.h:34-47; [s_setup], [s_teardown]: is there such a function *)
Record suite := mksuite { s_name : text; s_setup : bool; s_teardown : bool; s_tests : list test; s_succeeded : Z; s_failed : Z; s_assertions : Z; s_exceptions : Z; s_empty : Z }.
(* zt_unit.h:22-32 *)
Record unit := mkunit { u_suites : list suite; u_suite_count : Z; u_tests : Z; u_successes : Z; u_failures : Z; u_assertions : Z; u_exceptions : Z; u_empty : Z }.
(** what is observed while tests run *)
Inductive event := Setup (s : text) | Run (s t : text) | Teardown (s : text) | Result (t : text) (assertions : Z) (success : bool).

(* zt_unit.c:41-57 zt_unit_init *)
Definition unit_init : unit := mkunit [] 0 0 0 0 0 0 0.
(* zt_unit.c:78-106 zt_unit_register_suite_ *)
Definition register_suite (u : unit) (name : text) (setup teardown : bool) : unit :=
  mkunit (u_suites u ++ [mksuite name setup teardown [] 0 0 0 0 0]) (u_suite_count u) (u_tests u) (u_successes u) (u_failures u) (u_assertions u) (u_exceptions u) (u_empty u).
(* zt_unit.c:132-153 zt_unit_register_test *)
Definition register_test (s : suite) (name : text) (body : list check) : suite :=
  mksuite (s_name s) (s_setup s) (s_teardown s) (s_tests s ++ [mktest name body (-1) 0 0 false]) (s_succeeded s) (s_failed s) (s_assertions s) (s_exceptions s) (s_empty s).

(** the test function: assertions that hold are counted, the first that does not sets the error text and leaves the function (longjmp); the boolean: did it return *)
Fixpoint test_fn (t : test) (l : list check) : test * bool :=
  match l with
  | [] => (t, true)
  | Assert true :: r => test_fn (mktest (t_name t) (t_body t) (t_success t) (t_assertions t + 1) (t_exceptions t) (t_error t)) r
  | Assert false :: _ => (mktest (t_name t) (t_body t) (t_success t) (t_assertions t) (t_exceptions t) true, false)
  | Exception :: r => test_fn (mktest (t_name t) (t_body t) (t_success t) (t_assertions t) (t_exceptions t + 1) (t_error t)) r
  end.
(* zt_unit.c:247-255 zt_unit_try_c *)
Definition try_c (t : test) : test * bool := test_fn t (t_body t).
Definition set_success (t : test) (v : Z) : test := mktest (t_name t) (t_body t) v (t_assertions t) (t_exceptions t) (t_error t).
(* zt_unit.c:257-288 zt_unit_run_test *)
Definition run_test (s : suite) (t : test) : test * list event * Z :=
  let t := set_success t 0 in
  let '(t, ok) := try_c t in
  let t := if ok then set_success t 1 else t in
  (t, (if s_setup s then [Setup (s_name s)] else []) ++ [Run (s_name s) (t_name t)] ++ (if s_teardown s then [Teardown (s_name s)] else []) ++
      [Result (t_name t) (t_assertions t) (t_success t =? 1)], t_success t).

(* zt_unit.c:205-225: the loop over the tests; [s] is the suite, whose counters change as it goes, [done] the tests already run *)
Fixpoint run_tests (u : unit) (s : suite) (done : list test) (todo : list test) : unit * suite * list event :=
  match todo with
  | [] => (u, mksuite (s_name s) (s_setup s) (s_teardown s) done (s_succeeded s) (s_failed s) (s_assertions s) (s_exceptions s) (s_empty s), [])
  | t :: r =>
      let '(t, ev, result) := run_test s t in
      let fail := negb (result =? 1) in
      let empty := (t_assertions t =? 0) && (t_exceptions t =? 0) in
      let s := mksuite (s_name s) (s_setup s) (s_teardown s) (s_tests s) (s_succeeded s + if fail then 0 else 1) (s_failed s + if fail then 1 else 0)
                 (s_assertions s + t_assertions t) (s_exceptions s + t_exceptions t) (s_empty s + if empty then 1 else 0) in
      let u := mkunit (u_suites u) (u_suite_count u) (u_tests u + 1) (u_successes u + if fail then 0 else 1) (u_failures u + if fail then 1 else 0)
                 (u_assertions u + t_assertions t) (u_exceptions u + t_exceptions t) (u_empty u + if empty then 1 else 0) in
      let '(u, s, ev') := run_tests u s (done ++ [t]) r in (u, s, ev ++ ev')
  end.
(* zt_unit.c:192-237 zt_unit_run_suite, which returns 0; the suite's place in unit->suites is updated by the callers below *)
Definition run_suite (u : unit) (s : suite) : unit * suite * list event :=
  run_tests (mkunit (u_suites u) (u_suite_count u + 1) (u_tests u) (u_successes u) (u_failures u) (u_assertions u) (u_exceptions u) (u_empty u)) s [] (s_tests s).
Definition set_suites (u : unit) (l : list suite) : unit :=
  mkunit l (u_suite_count u) (u_tests u) (u_successes u) (u_failures u) (u_assertions u) (u_exceptions u) (u_empty u).

(* zt_unit.c:181-186 *)
Fixpoint run_suites (u : unit) (done todo : list suite) : unit * list event :=
  match todo with
  | [] => (set_suites u done, [])
  | s :: r => let '(u, s, ev) := run_suite u s in let '(u, ev') := run_suites u (done ++ [s]) r in (u, ev ++ ev')
  end.
(* zt_unit.c:174-189 zt_unit_run *)
Definition unit_run (u : unit) : unit * list event * Z := let '(u, ev) := run_suites u [] (u_suites u) in (u, ev, 0).

(* zt_unit.c:291-338 str_split with the delimiter "."; strsep's pieces, the empty ones overwritten by the next; an entry of argv that is never set is NULL *)
Fixpoint dots (s : text) : Z := match s with [] => 0 | c :: r => (if c =? 46 then 1 else 0) + dots r end.
Definition str_split (s : text) : Z * list (option text) :=
  let argc := 1 + dots s in
  let found := filter nonempty (fields [46] s) in
  (argc, map Some found ++ repeat None (Z.to_nat argc + 1 - length found)).

Definition name_eq (a b : text) : bool := if list_eq_dec Z.eq_dec a b then true else false.
(* zt_unit.c:364-373, 385-394: strlen and strncmp of the same length; the first with that name, with what precedes and follows it *)
Fixpoint find_name {A} (name : A -> text) (n : text) (l : list A) : option (list A * A * list A) :=
  match l with
  | [] => None
  | x :: r => if name_eq (name x) n then Some ([], x, r) else match find_name name n r with Some (a, y, b) => Some (x :: a, y, b) | None => None end
  end.
Definition set_tests (s : suite) (l : list test) : suite :=
  mksuite (s_name s) (s_setup s) (s_teardown s) l (s_succeeded s) (s_failed s) (s_assertions s) (s_exceptions s) (s_empty s).
(* zt_unit.c:345-410 zt_unit_run_by_name; strlen(NULL) is undefined *)
Definition run_by_name (u : unit) (name : text) : outcome (unit * list event * Z) :=
  let '(count, targetv) := str_split name in
  if (count <=? 0) || (2 <? count) then Ok (u, [], -1) else
  match nth 0 targetv None with
  | None => UB
  | Some t0 =>
      match find_name s_name t0 (u_suites u) with
      | None => Ok (u, [], -1)
      | Some (a, s, b) =>
          if count =? 1 then let '(u, s, ev) := run_suite u s in Ok (set_suites u (a ++ s :: b), ev, 0)
          else
            match nth 1 targetv None with
            | None => UB
            | Some t1 =>
                match find_name t_name t1 (s_tests s) with
                | None => Ok (u, [], -1)
                | Some (ta, t, tb) =>
                    let '(t, ev, result) := run_test s t in
                    let fail := result =? 0 in
                    Ok (mkunit (a ++ set_tests s (ta ++ t :: tb) :: b) (u_suite_count u) (u_tests u) (u_successes u + if fail then 0 else 1)
                               (u_failures u + if fail then 1 else 0) (u_assertions u) (u_exceptions u) (u_empty u), ev, 0)
                end
            end
      end
  end.

(* zt_unit.c:494-499 *)
Fixpoint run_names (u : unit) (l : list text) (result : Z) : outcome (unit * list event * Z) :=
  match l with
  | [] => Ok (u, [], result)
  | n :: r =>
      ' (u, ev, x) <- run_by_name u n ;;
      ' (u, ev', result) <- run_names u r (if x <? 0 then -1 else result) ;;
      Ok (u, ev ++ ev', result)
  end.
(* "-h", "--help", "-l", "--list" *)
Definition info_opts : list text := [[45; 104]; [45; 45; 104; 101; 108; 112]; [45; 108]; [45; 45; 108; 105; 115; 116]].
(* zt_unit.c:467-512 zt_unit_main; [args] are argv[1..argc-1] *)
Definition unit_main (u : unit) (args : list text) : outcome (unit * list event * Z) :=
  if existsb (fun a => existsb (name_eq a) info_opts) args then Ok (u, [], 0) else
  ' (u, ev, result) <- match args with
     | [] => let '(u, ev, result) := unit_run u in Ok (u, ev, result)
     | _ => run_names u args 0
     end ;;
  Ok (u, ev, if (result =? 0) && (0 <? u_failures u) then -1 else result).
