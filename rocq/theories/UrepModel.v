(** Model of what src/libzt/zt_unit.c prints and allocates (C43 is about the verdicts; the counters here are the same).
    Every struct and every string is a block on a heap (HeapModel); the circular lists of suites and tests are lists (C24).  A text is the list of its character codes without NUL.
    Simplifications: allocation does not fail; setup and teardown functions print nothing; counters do not overflow; a test function does the same at every run. *)
From Verif Require Import Prelude CstrModel CstrSpec HeapModel.
Local Open Scope Z_scope.

Definition text := list Z.
Inductive blk := BUnit | BSuite | BTest | BText (t : text).
(** what a test function does: ZT_UNIT_ASSERT (zt_unit.h:72-85), whose text "expression : file:line" is never empty; zt_unit_test_add_exception; ZT_UNIT_SET_ERROR; ZT_UNIT_FAIL
    (zt_unit.h:95-99) *)
(** what a C++ test may throw: a char pointer (None: NULL), a string literal (a pointer to const char), anything else *)
Inductive thrown := ThrowChars (m : option text) | ThrowLiteral (m : text) | ThrowOther.
Inductive act := Assert (b : bool) (m : text) | Exception | SetError (m : text) | Fail (m : text) | Throw (x : thrown).
(* zt_unit.h:49-58; [t_at], [t_name]: the addresses of the struct and of its name; 0 is NULL *)
Record test := mktest { t_at : nat; t_name : nat; t_body : list act; t_success : Z; t_error : nat; t_assertions : Z; t_exceptions : Z }.
(* zt_unit.h:34-47; succeeded, assertions and exceptions of a suite are counted but never printed *)
Record suite := mksuite { s_at : nat; s_name : nat; s_tests : list test; s_failed : Z; s_empty : Z }.
(* zt_unit.h:22-32 *)
Record unit := mkunit { u_at : nat; u_suites : list suite; u_suite_count : Z; u_tests : Z; u_successes : Z; u_failures : Z; u_assertions : Z; u_exceptions : Z; u_empty : Z }.
Definition heap := hp blk.
Definition gettext (h : heap) (p : nat) : outcome text := b <- hget h p ;; match b with BText t => Ok t | _ => UB end.

(** printf("%*s", w, ""): a negative width counts as its absolute value (zt_macros.h:102, 127-138: INDENT_TO(to, 2, from) is to - from) *)
Definition blank (w : Z) : text := repeat 32 (Z.to_nat (Z.abs w)).
(* zt_unit.c:10-24 *)
Definition yaml_dict (name : text) (offt : Z) : text := blank offt ++ name ++ [58; 10].
Definition yaml_list_elt (v : text) (offt : Z) : text := blank offt ++ [45; 32] ++ v ++ [10].
Definition yaml_value (name : text) (offt : Z) (v : text) : text := let first := blank offt ++ name in first ++ blank (30 - zlen first) ++ [58; 32] ++ v ++ [10].
Definition quoted (t : text) : text := [39] ++ t ++ [39].
(* the words printed *)
Definition w_tests : text := [84;101;115;116;115].
Definition w_errors : text := [69;114;114;111;114;115].
Definition w_no_text : text := [78;111;32;69;114;114;111;114;32;84;101;120;116].
Definition w_assertions : text := [97;115;115;101;114;116;105;111;110;115].
Definition w_unhandled : text := [117;110;104;97;110;100;108;101;100;95;101;120;99;101;112;116;105;111;110;115].
Definition w_result : text := [114;101;115;117;108;116].
Definition w_success : text := [115;117;99;99;101;115;115].
Definition w_failure : text := [102;97;105;108;117;114;101].
Definition w_stats : text := [71;108;111;98;97;108;32;83;116;97;116;115].
Definition w_suites : text := [115;117;105;116;101;115].
Definition w_ltests : text := [116;101;115;116;115].
Definition w_successes : text := [115;117;99;99;101;115;115;101;115].
Definition w_exceptions : text := [101;120;99;101;112;116;105;111;110;115].
Definition w_failures : text := [102;97;105;108;117;114;101;115].
Definition w_empty : text := [101;109;112;116;121;32;116;101;115;116;115].
Definition w_list : text := [84;101;115;116;32;83;117;105;116;101;115].

Section U.
Variable pick : nat -> list nat -> nat.
(* zt_unit.c:41-58 zt_unit_init *)
Definition unit_init (h : heap) : heap * unit := let (p, h) := hnew pick h BUnit in (h, mkunit p [] 0 0 0 0 0 0 0).
(* zt_unit.c:78-107 zt_unit_register_suite_ *)
Definition register_suite (h : heap) (u : unit) (name : text) : heap * unit :=
  let (p, h) := hnew pick h BSuite in let (n, h) := hnew pick h (BText name) in
  (h, mkunit (u_at u) (u_suites u ++ [mksuite p n [] 0 0]) (u_suite_count u) (u_tests u) (u_successes u) (u_failures u) (u_assertions u) (u_exceptions u) (u_empty u)).
(* zt_unit.c:133-154 zt_unit_register_test *)
Definition register_test (h : heap) (s : suite) (name : text) (body : list act) : heap * suite :=
  let (p, h) := hnew pick h BTest in let (n, h) := hnew pick h (BText name) in
  (h, mksuite (s_at s) (s_name s) (s_tests s ++ [mktest p n body (-1) 0 0 0]) (s_failed s) (s_empty s)).

(* zt_unit.c:26-34 zt_unit_printf(&test->error, ...): vasprintf stores the address of a new text *)
Definition set_error (h : heap) (t : test) (m : text) : heap * test :=
  let (p, h) := hnew pick h (BText m) in (h, mktest (t_at t) (t_name t) (t_body t) (t_success t) p (t_assertions t) (t_exceptions t)).
(* zt_unit_cpp.cpp:17-25: a handler for char pointers does not catch pointers to const char; the texts are "unhandled exception: ", "NULL" and "unknown" *)
Definition w_thrown : text := [117;110;104;97;110;100;108;101;100;32;101;120;99;101;112;116;105;111;110;58;32].
Definition thrown_text (x : thrown) : text :=
  match x with
  | ThrowChars (Some m) => w_thrown ++ m
  | ThrowChars None => w_thrown ++ [78;85;76;76]
  | ThrowLiteral _ | ThrowOther => w_thrown ++ [117;110;107;110;111;119;110]
  end.
(* the test function in zt_unit_try_c, zt_unit.c:247-255, and zt_unit_try_cpp, zt_unit_cpp.cpp:7-28, where ZT_UNIT_EXIT throws what the first handler catches; the boolean: did it return.  A test of a suite
   registered for C does not throw. *)
Fixpoint test_fn (h : heap) (t : test) (l : list act) : heap * test * bool :=
  match l with
  | [] => (h, t, true)
  | Assert true _ :: r => test_fn h (mktest (t_at t) (t_name t) (t_body t) (t_success t) (t_error t) (t_assertions t + 1) (t_exceptions t)) r
  | Assert false m :: _ => let (h, t) := set_error h t m in (h, t, false)
  | Exception :: r => test_fn h (mktest (t_at t) (t_name t) (t_body t) (t_success t) (t_error t) (t_assertions t) (t_exceptions t + 1)) r
  | SetError m :: r => let (h, t) := set_error h t m in test_fn h t r
  | Fail m :: _ => let (h, t) := set_error h t m in (h, t, false)
  | Throw x :: _ => let (h, t) := set_error h t (thrown_text x) in (h, mktest (t_at t) (t_name t) (t_body t) (t_success t) (t_error t) (t_assertions t) (t_exceptions t + 1), false)
  end.
Definition set_success (t : test) (v : Z) : test := mktest (t_at t) (t_name t) (t_body t) v (t_error t) (t_assertions t) (t_exceptions t).
(* zt_unit.c:257-289 zt_unit_run_test *)
Definition run_test (h : heap) (t : test) : outcome (heap * test * text) :=
  let t := set_success t 0 in
  name <- gettext h (t_name t) ;;
  let '(h, t, ok) := test_fn h t (t_body t) in
  let t := if ok then set_success t 1 else t in
  Ok (h, t, yaml_dict name 4 ++ yaml_value w_assertions 6 (decimal (t_assertions t)) ++
            (if t_exceptions t =? 0 then [] else yaml_value w_unhandled 6 (decimal (t_exceptions t))) ++
            yaml_value w_result 6 (if t_success t =? 1 then w_success else w_failure)).
(* zt_unit.c:205-225 *)
Fixpoint run_tests (h : heap) (u : unit) (s : suite) (done todo : list test) : outcome (heap * unit * suite * text) :=
  match todo with
  | [] => Ok (h, u, mksuite (s_at s) (s_name s) done (s_failed s) (s_empty s), [])
  | t :: r =>
      ' (h, t, o) <- run_test h t ;;
      let fail := negb (t_success t =? 1) in
      let empty := (t_assertions t =? 0) && (t_exceptions t =? 0) in
      let s := mksuite (s_at s) (s_name s) (s_tests s) (s_failed s + if fail then 1 else 0) (s_empty s + if empty then 1 else 0) in
      let u := mkunit (u_at u) (u_suites u) (u_suite_count u) (u_tests u + 1) (u_successes u + if fail then 0 else 1) (u_failures u + if fail then 1 else 0)
                 (u_assertions u + t_assertions t) (u_exceptions u + t_exceptions t) (u_empty u + if empty then 1 else 0) in
      ' (h, u, s, o') <- run_tests h u s (done ++ [t]) r ;; Ok (h, u, s, o ++ o')
  end.
(* zt_unit.c:227-235 *)
Fixpoint errors (h : heap) (l : list test) : outcome text :=
  match l with
  | [] => Ok []
  | t :: r =>
      o <- (if t_success t =? 1 then Ok [] else
              name <- gettext h (t_name t) ;;
              e <- (if (t_error t =? 0)%nat then Ok w_no_text else gettext h (t_error t)) ;;
              Ok (yaml_value name 4 (quoted e))) ;;
      o' <- errors h r ;; Ok (o ++ o')
  end.
(* zt_unit.c:192-237 zt_unit_run_suite, which returns 0 *)
Definition run_suite (h : heap) (u : unit) (s : suite) : outcome (heap * unit * suite * text) :=
  let u := mkunit (u_at u) (u_suites u) (u_suite_count u + 1) (u_tests u) (u_successes u) (u_failures u) (u_assertions u) (u_exceptions u) (u_empty u) in
  name <- gettext h (s_name s) ;;
  ' (h, u, s, o) <- run_tests h u s [] (s_tests s) ;;
  e <- (if s_failed s =? 0 then Ok [] else e <- errors h (s_tests s) ;; Ok (yaml_dict w_errors 2 ++ e)) ;;
  Ok (h, u, s, [45; 45; 45; 10] ++ name ++ [58; 10] ++ yaml_dict w_tests 2 ++ o ++ e).
Definition set_suites (u : unit) (l : list suite) : unit :=
  mkunit (u_at u) l (u_suite_count u) (u_tests u) (u_successes u) (u_failures u) (u_assertions u) (u_exceptions u) (u_empty u).
Fixpoint run_suites (h : heap) (u : unit) (done todo : list suite) : outcome (heap * unit * text) :=
  match todo with
  | [] => Ok (h, set_suites u done, [])
  | s :: r => ' (h, u, s, o) <- run_suite h u s ;; ' (h, u, o') <- run_suites h u (done ++ [s]) r ;; Ok (h, u, o ++ o')
  end.
(* zt_unit.c:452-461: the names of the tests that checked nothing *)
Fixpoint empty_tests (h : heap) (l : list test) : outcome text :=
  match l with
  | [] => Ok []
  | t :: r =>
      o <- (if (t_assertions t =? 0) && (t_exceptions t =? 0) then name <- gettext h (t_name t) ;; Ok (yaml_list_elt name 4) else Ok []) ;;
      o' <- empty_tests h r ;; Ok (o ++ o')
  end.
Fixpoint empty_suites (h : heap) (l : list suite) : outcome text :=
  match l with
  | [] => Ok []
  | s :: r => o <- (if 0 <? s_empty s then empty_tests h (s_tests s) else Ok []) ;; o' <- empty_suites h r ;; Ok (o ++ o')
  end.
(* zt_unit.c:428-464 zt_unit_test_global_stats *)
Definition global_stats (h : heap) (u : unit) : outcome text :=
  e <- (if 0 <? u_empty u then e <- empty_suites h (u_suites u) ;; Ok (yaml_dict w_empty 2 ++ e) else Ok []) ;;
  Ok ([10; 45; 45; 45; 10] ++ yaml_dict w_stats 0 ++ yaml_value w_suites 2 (decimal (u_suite_count u)) ++ yaml_value w_ltests 2 (decimal (u_tests u)) ++
      yaml_value w_successes 2 (decimal (u_successes u)) ++ yaml_value w_exceptions 2 (decimal (u_exceptions u)) ++ yaml_value w_assertions 2 (decimal (u_assertions u)) ++
      yaml_value w_failures 2 (decimal (u_failures u)) ++ e).
(* zt_unit.c:175-189 zt_unit_run, which returns 0 *)
Definition unit_run (h : heap) (u : unit) : outcome (heap * unit * text) :=
  ' (h, u, o) <- run_suites h u [] (u_suites u) ;; g <- global_stats h u ;; Ok (h, u, o ++ g).
(* zt_unit.c:396-400: one test, as zt_unit_run_by_name("suite.test") runs it; the counters of the suite and the number of tests are left alone *)
Definition run_one (h : heap) (u : unit) (t : test) : outcome (heap * unit * test * text) :=
  ' (h, t, o) <- run_test h t ;;
  let fail := t_success t =? 0 in
  Ok (h, mkunit (u_at u) (u_suites u) (u_suite_count u) (u_tests u) (u_successes u + if fail then 0 else 1) (u_failures u + if fail then 1 else 0) (u_assertions u) (u_exceptions u) (u_empty u), t, o).
(* zt_unit.c:408-426 zt_unit_list *)
Fixpoint list_tests (h : heap) (l : list test) : outcome text :=
  match l with [] => Ok [] | t :: r => name <- gettext h (t_name t) ;; o <- list_tests h r ;; Ok (yaml_list_elt name 4 ++ o) end.
Fixpoint list_suites (h : heap) (l : list suite) : outcome text :=
  match l with [] => Ok [] | s :: r => name <- gettext h (s_name s) ;; o <- list_tests h (s_tests s) ;; o' <- list_suites h r ;; Ok (yaml_dict name 2 ++ o ++ o') end.
Definition unit_list (h : heap) (u : unit) : outcome text := o <- list_suites h (u_suites u) ;; Ok (yaml_dict w_list 0 ++ o).

(* zt_unit.c:156-172 zt_unit_release_test *)
Definition release_test (h : heap) (t : test) : outcome heap :=
  h <- hfree h (t_name t) ;;
  h <- (if (t_error t =? 0)%nat then Ok h else hfree h (t_error t)) ;;
  hfree h (t_at t).
Fixpoint release_tests (h : heap) (l : list test) : outcome heap := match l with [] => Ok h | t :: r => h <- release_test h t ;; release_tests h r end.
(* zt_unit.c:109-130 zt_unit_release_suite *)
Definition release_suite (h : heap) (s : suite) : outcome heap :=
  h <- release_tests h (s_tests s) ;; h <- hfree h (s_name s) ;; hfree h (s_at s).
Fixpoint release_suites (h : heap) (l : list suite) : outcome heap := match l with [] => Ok h | s :: r => h <- release_suite h s ;; release_suites h r end.
(* zt_unit.c:60-76 zt_unit_release *)
Definition unit_release (h : heap) (u : unit) : outcome heap := h <- release_suites h (u_suites u) ;; hfree h (u_at u).

(** calls of a program on one unit; suites and tests by their place *)
Inductive op :=
| RegSuite (name : text) | RegTest (i : nat) (name : text) (body : list act)
| Run | RunSuite (i : nat) | RunTest (i j : nat) | List
| RelTest (i j : nat) | RelSuite (i : nat).
Definition nth_ok {A} (l : list A) (i : nat) : outcome A := match nth_error l i with Some x => Ok x | None => UB end.
Definition cut {A} (l : list A) (i : nat) : list A := firstn i l ++ skipn (Datatypes.S i) l.
Definition set_tests (s : suite) (l : list test) : suite := mksuite (s_at s) (s_name s) l (s_failed s) (s_empty s).
Definition step (h : heap) (u : unit) (o : op) : outcome (heap * unit * text) :=
  match o with
  | RegSuite name => let (h, u) := register_suite h u name in Ok (h, u, [])
  | RegTest i name body => s <- nth_ok (u_suites u) i ;; let (h, s) := register_test h s name body in Ok (h, set_suites u (upd (u_suites u) i s), [])
  | Run => unit_run h u
  | RunSuite i => s <- nth_ok (u_suites u) i ;; ' (h, u, s, o) <- run_suite h u s ;; Ok (h, set_suites u (upd (u_suites u) i s), o)
  | RunTest i j => s <- nth_ok (u_suites u) i ;; t <- nth_ok (s_tests s) j ;; ' (h, u, t, o) <- run_one h u t ;; Ok (h, set_suites u (upd (u_suites u) i (set_tests s (upd (s_tests s) j t))), o)
  | List => o <- unit_list h u ;; Ok (h, u, o)
  | RelTest i j => s <- nth_ok (u_suites u) i ;; t <- nth_ok (s_tests s) j ;; h <- release_test h t ;; Ok (h, set_suites u (upd (u_suites u) i (set_tests s (cut (s_tests s) j))), [])
  | RelSuite i => s <- nth_ok (u_suites u) i ;; h <- release_suite h s ;; Ok (h, set_suites u (cut (u_suites u) i), [])
  end.
Fixpoint steps (h : heap) (u : unit) (l : list op) : outcome (heap * unit * list text) :=
  match l with [] => Ok (h, u, []) | o :: r => ' (h, u, t) <- step h u o ;; ' (h, u, ts) <- steps h u r ;; Ok (h, u, t :: ts) end.
End U.
