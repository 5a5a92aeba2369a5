(** What a user of zt_unit expects to read and to find in memory (C75), without addresses.  A report is a list of lines. *)
From Coq Require Import Ascii String.
From Verif Require Import Prelude CstrSpec LogSpec UrepModel.
Local Open Scope Z_scope.
Local Open Scope list_scope.

(** ** What one run of a test function does *)
Definition stops (a : act) : bool := match a with Assert false _ | Fail _ | Throw _ => true | _ => false end.
(* the statements that are executed: those up to the first that stops the test *)
Fixpoint executed (l : list act) : list act := match l with [] => [] | a :: r => if stops a then [a] else a :: executed r end.
Definition passes (l : list act) : bool := negb (existsb stops l).
Definition holds_ (a : act) : bool := match a with Assert true _ => true | _ => false end.
Definition raises (a : act) : bool := match a with Exception | Throw _ => true | _ => false end.
Definition held (l : list act) : Z := Z.of_nat (List.length (filter holds_ (executed l))).
Definition raised (l : list act) : Z := Z.of_nat (List.length (filter raises (executed l))).
(* of what is thrown only the text behind a pointer to changeable characters is told *)
Definition throw_text (x : thrown) : text :=
  str "unhandled exception: " ++ match x with ThrowChars (Some m) => m | ThrowChars None => str "NULL" | ThrowLiteral _ | ThrowOther => str "unknown" end.
Definition text_of (a : act) : list text := match a with Assert false m | SetError m | Fail m => [m] | Throw x => [throw_text x] | _ => [] end.
(* the error texts made *)
Definition texts (l : list act) : list text := flat_map text_of (executed l).

(** ** Tests, suites and units *)
(* v_result: None before the first run; v_error: the texts kept, at most one *)
Record vtest := mkvt { v_name : text; v_body : list act; v_result : option bool; v_error : option text; v_held : Z; v_raised : Z }.
(* v_failed, v_empties: the runs of tests of the suite, as part of the suite, that failed, that saw no assertion and no exception so far *)
Record vsuite := mkvs { v_title : text; v_tests : list vtest; v_failed : Z; v_empties : Z }.
Record vunit := mkvu { v_suites : list vsuite; n_suites : Z; n_tests : Z; n_passed : Z; n_failed : Z; n_held : Z; n_raised : Z; n_empty : Z }.
Definition new : vunit := mkvu [] 0 0 0 0 0 0 0.
Definition kept (t : vtest) : list text := match v_error t with None => [] | Some e => [e] end.
(* the last text made is kept, the others are lost *)
Definition last_of (l : list text) : option text := match rev l with [] => None | e :: _ => Some e end.
Definition ran (t : vtest) : vtest :=
  mkvt (v_name t) (v_body t) (Some (passes (v_body t))) (last_of (kept t ++ texts (v_body t))) (v_held t + held (v_body t)) (v_raised t + raised (v_body t)).
Definition lost_by (t : vtest) : list text := removelast (kept t ++ texts (v_body t)).
Definition passed (t : vtest) : bool := match v_result t with Some true => true | _ => false end.
Definition hollow (t : vtest) : bool := (v_held t =? 0) && (v_raised t =? 0).
Definition count {A} (f : A -> bool) (l : list A) : Z := Z.of_nat (List.length (filter f l)).
Definition total (f : vtest -> Z) (l : list vtest) : Z := fold_right Z.add 0 (map f l).
Definition fails (t : vtest) : bool := negb (passed t).

(** ** Lines *)
Definition blanks (n : Z) : text := repeat 32 (Z.to_nat n).
Definition heading (col : Z) (name : text) : text := blanks col ++ name ++ str ":".
(* the colon is put in column 30 if the name ends before; a longer name is followed by as many blanks as it is too long *)
Definition entry (col : Z) (name value : text) : text :=
  let used := col + Z.of_nat (List.length name) in
  blanks col ++ name ++ blanks (if used <=? 30 then 30 - used else used - 30) ++ str ": " ++ value.
Definition bullet (col : Z) (name : text) : text := blanks col ++ str "- " ++ name.
Definition in_quotes (t : text) : text := str "'" ++ t ++ str "'".
Definition test_lines (t : vtest) : list text :=
  [heading 4 (v_name t); entry 6 (str "assertions") (decimal (v_held t))] ++
  (if v_raised t =? 0 then [] else [entry 6 (str "unhandled_exceptions") (decimal (v_raised t))]) ++
  [entry 6 (str "result") (str (if passed t then "success" else "failure"))].
Definition error_line (t : vtest) : text := entry 4 (v_name t) (in_quotes (match v_error t with None => str "No Error Text" | Some e => e end)).
(* of a suite whose tests have run *)
Definition suite_lines (s : vsuite) : list text :=
  [str "---"; heading 0 (v_title s); heading 2 (str "Tests")] ++ flat_map test_lines (v_tests s) ++
  (if v_failed s =? 0 then [] else heading 2 (str "Errors") :: map error_line (filter fails (v_tests s))).
Definition stat_lines (u : vunit) : list text :=
  [[]; str "---"; heading 0 (str "Global Stats"); entry 2 (str "suites") (decimal (n_suites u)); entry 2 (str "tests") (decimal (n_tests u));
   entry 2 (str "successes") (decimal (n_passed u)); entry 2 (str "exceptions") (decimal (n_raised u)); entry 2 (str "assertions") (decimal (n_held u));
   entry 2 (str "failures") (decimal (n_failed u))] ++
  (if n_empty u =? 0 then [] else
     heading 2 (str "empty tests") :: flat_map (fun s => if v_empties s =? 0 then [] else map (fun t => bullet 4 (v_name t)) (filter hollow (v_tests s))) (v_suites u)).
Definition list_lines (u : vunit) : list text :=
  heading 0 (str "Test Suites") :: flat_map (fun s => heading 2 (v_title s) :: map (fun t => bullet 4 (v_name t)) (v_tests s)) (v_suites u).
Definition printed (l : list text) : text := flat_map (fun x => x ++ [10]) l.

(** ** Calls *)
Definition suite_ran (s : vsuite) : vsuite :=
  let l := map ran (v_tests s) in mkvs (v_title s) l (v_failed s + count fails l) (v_empties s + count hollow l).
(* the counters of a unit after the tests [l] of one suite have run *)
Definition counted (u : vunit) (l : list vtest) : vunit :=
  mkvu (v_suites u) (n_suites u + 1) (n_tests u + Z.of_nat (List.length l)) (n_passed u + count passed l) (n_failed u + count fails l)
       (n_held u + total v_held l) (n_raised u + total v_raised l) (n_empty u + count hollow l).
Definition with_suites (u : vunit) (l : list vsuite) : vunit := mkvu l (n_suites u) (n_tests u) (n_passed u) (n_failed u) (n_held u) (n_raised u) (n_empty u).
Definition all_ran (u : vunit) : vunit := let l := map suite_ran (v_suites u) in with_suites (fold_left (fun u s => counted u (v_tests s)) l u) l.
Definition without {A} (l : list A) (i : nat) : list A := firstn i l ++ skipn (S i) l.
Definition replaced {A} (l : list A) (i : nat) (x : A) : list A := firstn i l ++ x :: skipn (S i) l.
Definition with_tests (s : vsuite) (l : list vtest) : vsuite := mkvs (v_title s) l (v_failed s) (v_empties s).
(* the unit afterwards, the lines printed, the texts lost; None: the call names what is not there *)
Definition call (u : vunit) (o : op) : option (vunit * list text * list text) :=
  match o with
  | RegSuite name => Some (with_suites u (v_suites u ++ [mkvs name [] 0 0]), [], [])
  | RegTest i name body =>
      match nth_error (v_suites u) i with
      | Some s => Some (with_suites u (replaced (v_suites u) i (with_tests s (v_tests s ++ [mkvt name body None None 0 0]))), [], [])
      | None => None
      end
  | Run => let u' := all_ran u in Some (u', flat_map suite_lines (v_suites u') ++ stat_lines u', flat_map (fun s => flat_map lost_by (v_tests s)) (v_suites u))
  | RunSuite i =>
      match nth_error (v_suites u) i with
      | Some s => let s' := suite_ran s in Some (with_suites (counted u (v_tests s')) (replaced (v_suites u) i s'), suite_lines s', flat_map lost_by (v_tests s))
      | None => None
      end
  | RunTest i j =>
      match nth_error (v_suites u) i with
      | Some s =>
          match nth_error (v_tests s) j with
          | Some t =>
              let t' := ran t in
              Some (mkvu (replaced (v_suites u) i (with_tests s (replaced (v_tests s) j t'))) (n_suites u) (n_tests u) (n_passed u + if passed t' then 1 else 0)
                         (n_failed u + if passed t' then 0 else 1) (n_held u) (n_raised u) (n_empty u), test_lines t', lost_by t)
          | None => None
          end
      | None => None
      end
  | UrepModel.List => Some (u, list_lines u, [])
  | RelTest i j =>
      match nth_error (v_suites u) i with
      | Some s => match nth_error (v_tests s) j with Some _ => Some (with_suites u (replaced (v_suites u) i (with_tests s (without (v_tests s) j))), [], []) | None => None end
      | None => None
      end
  | RelSuite i => match nth_error (v_suites u) i with Some _ => Some (with_suites u (without (v_suites u) i), [], []) | None => None end
  end.
Fixpoint history (u : vunit) (l : list op) : option (vunit * list (list text) * list text) :=
  match l with
  | [] => Some (u, [], [])
  | o :: r =>
      match call u o with
      | Some (u, p, x) => match history u r with Some (u, ps, y) => Some (u, p :: ps, x ++ y) | None => None end
      | None => None
      end
  end.

(** ** A reader of reports: the name in the last heading in column 4 goes with the next result *)
Fixpoint split_lines (t : text) : list text :=
  match t with [] => [] | c :: r => if c =? 10 then [] :: split_lines r else match split_lines r with [] => [[c]] | x :: l => (c :: x) :: l end end.
Definition text_dec : forall a b : text, {a = b} + {a <> b} := list_eq_dec Z.eq_dec.
Definition heads (l : text) : option text :=
  if text_dec (firstn 4 l) (blanks 4) then match rev (skipn 4 l) with c :: r => if c =? 58 then Some (rev r) else None | [] => None end else None.
Fixpoint verdicts (cur : text) (l : list text) : list (text * bool) :=
  match l with
  | [] => []
  | x :: r =>
      if text_dec x (str "      result                  : success") then (cur, true) :: verdicts cur r
      else if text_dec x (str "      result                  : failure") then (cur, false) :: verdicts cur r
      else verdicts (match heads x with Some n => n | None => cur end) r
  end.
(** a reader of single-quoted YAML texts: two apostrophes stand for one *)
Fixpoint inside (l : text) : option text :=
  match l with
  | [] => None
  | c :: r =>
      if c =? 39 then match r with
                      | [] => Some []
                      | d :: q => if d =? 39 then match inside q with Some t => Some (39 :: t) | None => None end else None
                      end
      else match inside r with Some t => Some (c :: t) | None => None end
  end.
Definition unquote (l : text) : option text := match l with c :: r => if c =? 39 then inside r else None | [] => None end.
