(** C75: what zt_unit prints and what it keeps in memory. *)
From Coq Require Import Permutation Ascii String.
From Verif Require Import Prelude CstrModel CstrSpec HeapModel LogSpec UrepModel UrepSpec UrepProofs UrepRead.
Local Open Scope Z_scope.
Local Open Scope list_scope.

(** ** Every history of calls *)
(* the blocks of a unit: the unit; a struct and a name for every suite and every test; the error text of a test that has one *)
Definition things (u : vunit) : nat :=
  S (list_sum (map (fun s => 2 + list_sum (map (fun t => 2 + List.length (kept t)) (v_tests s))) (v_suites u)))%nat.
(** Whatever is registered, run, listed and released, in whatever order: no undefined behaviour; the printed text is, line for line, the one described in UrepSpec; the memory in use is that of the unit plus the
    lost error texts; and zt_unit_release frees everything but those. *)
Theorem C75_report pick : good pick -> forall ops v outs lost, history new ops = Some (v, outs, lost) ->
  exists h u, (let (h0, u0) := unit_init pick (mkhp [] 0) in steps pick h0 u0 ops) = Ok (h, u, map printed outs) /\
    List.length (blocks h) = (things v + List.length lost)%nat /\
    exists h', unit_release h u = Ok h' /\ Permutation (map snd (blocks h')) (map BText lost).
Proof.
  intros G ops v outs lost H. pose proof (init_ok pick G) as I. destruct (unit_init pick (mkhp [] 0)) as (h0, u0). destruct I as (R & O).
  destruct (steps_ok pick G ops h0 u0 new v outs lost [] R O H) as (h & u & X & E & R' & O' & M). exists h, u. split; [exact E|]. rewrite app_nil_r in O'. split.
  - rewrite (owns_size _ _ O'), app_length. apply (f_equal (@List.length blk)) in M. rewrite !map_length in M. rewrite M. f_equal.
    destruct R' as (F & _). unfold ucell, things. cbn [List.length]. f_equal. clear -F. revert F. generalize (u_suites u), (v_suites v). induction 1 as [|s vs l vl (T & _) _ IH]; [reflexivity|]. cbn [scells map list_sum fold_right]. unfold list_sum in IH. rewrite app_length, IH. f_equal.
    unfold scell. cbn [List.length]. assert (TL : List.length (tcells (s_tests s) (v_tests vs)) = fold_right Nat.add 0%nat (map (fun t => 2 + List.length (kept t))%nat (v_tests vs))); [|rewrite TL; reflexivity].
    clear -T. induction T as [|t vt l vl R _ IH]; [reflexivity|]. cbn [tcells map fold_right]. rewrite app_length, IH. f_equal. unfold tcell, ecell, kept. cbn [List.length]. now destruct (v_error vt).
  - destruct (unit_release_ok h u v X R' O') as (h' & E' & O2). exists h'. split; [exact E'|]. destruct O2 as (P & _). rewrite <- M. now apply Permutation_map.
Qed.

(** ** The report can be read: run everything after any history, split the text at the newlines, and a reader that knows only headings in column 4 and result lines finds every test with its verdict, in order;
    provided no name and no error text contains a newline. *)
Definition one_line (o : op) : Prop :=
  match o with
  | RegSuite n => ~ In 10 n
  | RegTest _ n body => ~ In 10 n /\ forall a m, In a body -> In m (text_of a) -> ~ In 10 m
  | _ => True
  end.
Theorem C75_readable pick : good pick -> forall ops v outs lost, history new ops = Some (v, outs, lost) -> Forall one_line ops ->
  exists h u outs' h' u' out, (let (h0, u0) := unit_init pick (mkhp [] 0) in steps pick h0 u0 ops) = Ok (h, u, outs') /\ step pick h u Run = Ok (h', u', out) /\
    verdicts [] (split_lines out) = map (fun t => (v_name t, passes (v_body t))) (flat_map v_tests (v_suites v)).
Proof.
  intros G ops v outs lost H L. pose proof (init_ok pick G) as I. destruct (unit_init pick (mkhp [] 0)) as (h0, u0). destruct I as (R & O).
  destruct (steps_ok pick G ops h0 u0 new v outs lost [] R O H) as (h & u & X & E & R' & O' & M). 
  destruct (step_ok pick G Run h u v _ _ _ _ R' O' eq_refl) as (h' & u' & Y & E' & _). exists h, u, (map printed outs), h', u'. eexists. split; [exact E|]. split; [exact E'|].
  assert (C : clean v). { eapply clean_history; [|exact L|exact H]. constructor. }
  assert (C' : clean (all_ran v)) by (eapply (clean_call v Run); [exact C|exact Logic.I|reflexivity]).
  rewrite split_printed.
  - destruct (v_suites_ (v_suites (all_ran v)) (stat_lines (all_ran v)) []) as (c & ->). rewrite v_stat, app_nil_r. cbn [all_ran with_suites v_suites].
    generalize (v_suites v). clear. induction l as [|s l IH]; [reflexivity|]. cbn [map flat_map]. rewrite !map_app, IH. f_equal. cbn [suite_ran v_tests]. rewrite map_map. apply map_ext. intros t. unfold passed. cbn [ran v_name v_result]. now destruct (passes (v_body t)).
  - apply Forall_app. split; [|now apply lines_stat]. apply Forall_flat_map. eapply Forall_impl; [|exact C']. apply lines_suite.
Qed.

(** ** Nothing is lost if nothing is run twice and no test function makes two texts *)
Definition runs (o : op) : bool := match o with Run | RunSuite _ | RunTest _ _ => true | _ => false end.
Definition brief (o : op) : Prop := match o with RegTest _ _ body => (List.length (texts body) <= 1)%nat | _ => True end.
Definition few (t : vtest) : Prop := (List.length (texts (v_body t)) <= 1)%nat.
Definition fresh (t : vtest) : Prop := v_error t = None /\ few t.
Lemma lost_fresh t : fresh t -> lost_by t = [].
Proof. intros (E & F). unfold few in F. unfold lost_by, kept. rewrite E. cbn [app]. destruct (texts (v_body t)) as [|a [|b l]]; try reflexivity. cbn in F. lia. Qed.
Lemma quiet_call (P : vtest -> Prop) u o u' p x : (forall n b, brief (RegTest 0 n b) -> P (mkvt n b None None 0 0)) -> runs o = false -> brief o -> Forall (fun s => Forall P (v_tests s)) (v_suites u) -> call u o = Some (u', p, x) -> x = [] /\ Forall (fun s => Forall P (v_tests s)) (v_suites u').
Proof.
  intros N Q B F E. destruct o as [name|i name body| |i|i j| |i j|i]; try discriminate Q; cbn [call] in E.
  - match type of E with Some (?a, _, _) = _ => assert (X : a = u' /\ x = []) by (split; congruence) end. destruct X as (<- & ->). split; [reflexivity|]. cbn. apply Forall_app. split; [exact F|]. repeat constructor.
  - destruct (nth_error (v_suites u) i) as [s|] eqn:NE; [|discriminate]. pose proof (F_nth _ _ _ _ F NE) as S1. match type of E with Some (?a, _, _) = _ => assert (X : a = u' /\ x = []) by (split; congruence) end. destruct X as (<- & ->). split; [reflexivity|]. cbn. apply F_replaced; [exact F|]. cbn. apply Forall_app. split; [exact S1|]. repeat constructor. apply N, B.
  - assert (X : u = u' /\ x = []) by (split; congruence). destruct X as (<- & ->). split; [reflexivity|exact F].
  - destruct (nth_error (v_suites u) i) as [s|] eqn:NE; [|discriminate]. pose proof (F_nth _ _ _ _ F NE) as S1. destruct (nth_error (v_tests s) j) as [t|]; [|discriminate]. match type of E with Some (?a, _, _) = _ => assert (X : a = u' /\ x = []) by (split; congruence) end. destruct X as (<- & ->). split; [reflexivity|]. cbn. apply F_replaced; [exact F|]. cbn. now apply F_without.
  - destruct (nth_error (v_suites u) i) as [s|] eqn:NE; [|discriminate]. match type of E with Some (?a, _, _) = _ => assert (X : a = u' /\ x = []) by (split; congruence) end. destruct X as (<- & ->). split; [reflexivity|]. cbn. now apply F_without.
Qed.
Lemma quiet_history (P : vtest -> Prop) l : (forall n b, brief (RegTest 0 n b) -> P (mkvt n b None None 0 0)) -> forall u u' ps x, Forall brief l -> filter runs l = [] -> Forall (fun s => Forall P (v_tests s)) (v_suites u) ->
  history u l = Some (u', ps, x) -> x = [].
Proof.
  intros N. induction l as [|o l IH]; intros u u' ps x B Q F H; cbn [history] in H; [congruence|]. inversion B as [|? ? B1 B2]; subst. cbn [filter] in Q. destruct (runs o) eqn:R; [discriminate|].
  destruct (call u o) as [[[u1 p] y]|] eqn:C; [|discriminate]. destruct (history u1 l) as [[[u2 ps'] z]|] eqn:H2; [|discriminate]. destruct (quiet_call P _ _ _ _ _ N R B1 F C) as (-> & F1). assert (X : x = [] ++ z) by congruence. subst x. cbn [app]. eapply IH; eassumption.
Qed.
Theorem C75_nothing_lost ops v outs lost : Forall brief ops -> (List.length (filter runs ops) <= 1)%nat -> history new ops = Some (v, outs, lost) -> lost = [].
Proof.
  intros B R. assert (F0 : Forall (fun s => Forall fresh (v_tests s)) (v_suites new)) by constructor. revert B R F0. generalize new. intros u. revert u v outs lost.
  induction ops as [|o ops IH]; intros u v outs lost B R F H; cbn [history] in H; [congruence|]. inversion B as [|? ? B1 B2]; subst.
  destruct (call u o) as [[[u1 p] y]|] eqn:C; [|discriminate]. destruct (history u1 ops) as [[[u2 ps'] z]|] eqn:H2; [|discriminate]. assert (X : lost = y ++ z) by congruence. subst lost.
  assert (NF : forall n b, brief (RegTest 0 n b) -> fresh (mkvt n b None None 0 0)) by (intros n b K; split; [reflexivity|exact K]).
  cbn [filter] in R. destruct (runs o) eqn:RO.
  - cbn [List.length] in R. assert (Q : filter runs ops = []) by (destruct (filter runs ops); [reflexivity|cbn in R; lia]).
    rewrite (quiet_history (fun _ => True) ops (fun _ _ _ => Logic.I) u1 u2 ps' z B2 Q) by (try exact H2; apply Forall_forall; intros; apply Forall_forall; intros; exact Logic.I).
    rewrite app_nil_r. assert (LS : forall l, Forall fresh l -> flat_map lost_by l = []). { induction 1 as [|t l T _ IH']; [reflexivity|]. cbn [flat_map]. now rewrite lost_fresh, IH'. }
    destruct o as [name|i name body| |i|i j| |i j|i]; try discriminate RO; cbn [call] in C.
    + assert (X : y = flat_map (fun s => flat_map lost_by (v_tests s)) (v_suites u)) by (cbv zeta in C; congruence). rewrite X. clear -F LS. induction F as [|s l T _ IH']; [reflexivity|]. cbn [flat_map]. now rewrite LS, IH'.
    + destruct (nth_error (v_suites u) i) as [s|] eqn:NE; [|discriminate]. assert (X : y = flat_map lost_by (v_tests s)) by (cbv zeta in C; congruence). rewrite X. apply LS. exact (F_nth _ _ _ _ F NE).
    + destruct (nth_error (v_suites u) i) as [s|] eqn:NE; [|discriminate]. destruct (nth_error (v_tests s) j) as [t|] eqn:NT; [|discriminate]. assert (X : y = lost_by t) by (cbv zeta in C; congruence). rewrite X. apply lost_fresh. exact (F_nth _ _ _ _ (F_nth _ _ _ _ F NE) NT).
  - destruct (quiet_call fresh _ _ _ _ _ NF RO B1 F C) as (-> & F1). cbn [app]. eapply IH; eassumption.
Qed.

(** ** Text in its place *)
(** the colon of an entry is in column 30 when the name ends before *)
Theorem C75_column col name v : 0 <= col -> col + Z.of_nat (List.length name) <= 30 -> nth_error (yaml_value name col v) 30 = Some 58.
Proof.
  intros H L. rewrite value_ok, printed_one by assumption. unfold entry. cbv zeta. destruct (Z.leb_spec (col + Z.of_nat (List.length name)) 30); [|lia].
  assert (A : List.length (blanks col ++ name ++ blanks (30 - (col + Z.of_nat (List.length name)))) = 30%nat). { unfold blanks. rewrite !app_length, !repeat_length. lia. }
  assert (E : ((blanks col ++ name ++ blanks (30 - (col + Z.of_nat (List.length name))) ++ str ": " ++ v) ++ [10]) = (blanks col ++ name ++ blanks (30 - (col + Z.of_nat (List.length name)))) ++ 58 :: 32 :: v ++ [10]) by (rewrite <- !app_assoc; reflexivity).
  rewrite E, nth_error_app2 by lia. rewrite A. reflexivity.
Qed.
(** an error text is quoted so that a YAML reader finds it again exactly when it contains no apostrophe *)
Theorem C75_quotes e : unquote (quoted e) = Some e <-> ~ In 39 e.
Proof. rewrite quoted_ok. apply unquote_iff. Qed.

(** ** A case that meets the hypotheses: two suites, four tests *)
Definition sample : list op :=
  [RegSuite (str "lists"); RegTest 0 (str "add") [Assert true (str "a : t.c:3"); Assert true (str "b : t.c:4")]; RegTest 0 (str "del") [Assert true (str "a : t.c:8"); Assert false (str "n == 0 : t.c:9"); Exception];
   RegSuite (str "sets"); RegTest 1 (str "none") []; RegTest 1 (str "odd") [Exception; Fail (str "no luck")]; Run].
Example C75_sample : exists v outs, history new sample = Some (v, outs, []) /\ Forall one_line sample /\ Forall brief sample /\ List.length (filter runs sample) = 1%nat /\ things v = 15%nat /\
  nth_error outs 6 = Some (map str
    ["---"; "lists:"; "  Tests:"; "    add:"; "      assertions              : 2"; "      result                  : success"; "    del:"; "      assertions              : 1"; "      result                  : failure"; "  Errors:";
     "    del                       : 'n == 0 : t.c:9'"; "---"; "sets:"; "  Tests:"; "    none:"; "      assertions              : 0"; "      result                  : success"; "    odd:"; "      assertions              : 0";
     "      unhandled_exceptions    : 1"; "      result                  : failure"; "  Errors:"; "    odd                       : 'no luck'"; ""; "---"; "Global Stats:"; "  suites                      : 2";
     "  tests                       : 4"; "  successes                   : 2"; "  exceptions                  : 1"; "  assertions                  : 3"; "  failures                    : 2"; "  empty tests:"; "    - none"]%string).
Proof.
  eexists _, _. split; [vm_compute; reflexivity|]. split; [|split; [|vm_compute; repeat split]].
  - unfold sample. assert (K : forall s, existsb (Z.eqb 10) (str s) = false -> ~ In 10 (str s)) by (intros s Hs; apply (line_str s Hs)).
    repeat apply Forall_cons; try apply Forall_nil; cbn [one_line]; try exact Logic.I; try (apply K; reflexivity); (split; [apply K; reflexivity|]); intros a m Ia Im; repeat (destruct Ia as [<-|Ia]; [cbn [text_of] in Im; repeat (destruct Im as [<-|Im]; [apply K; reflexivity|]); destruct Im|]); destruct Ia.
  - unfold sample. repeat apply Forall_cons; try apply Forall_nil; cbn [brief]; try exact Logic.I; vm_compute; lia.
Qed.
Example C75_sample_runs : match (let (h0, u0) := unit_init next (mkhp [] 0) in steps next h0 u0 sample) with
  | Ok (h, u, outs) => List.length (blocks h) = 15%nat /\ verdicts [] (split_lines (last outs [])) = [(str "add", true); (str "del", false); (str "none", true); (str "odd", false)] /\ match unit_release h u with Ok h' => blocks h' = [] | _ => False end
  | _ => False
  end.
Proof. vm_compute. repeat split. Qed.

(** ** What does not hold *)
(** running a failing test again loses the first error text: it is never freed *)
Theorem C75_release_refuted : exists ops h u outs h', (let (h0, u0) := unit_init next (mkhp [] 0) in steps next h0 u0 ops) = Ok (h, u, outs) /\ unit_release h u = Ok h' /\ blocks h' <> [].
Proof.
  exists [RegSuite (str "s"); RegTest 0 (str "t") [Assert false (str "x : t.c:1")]; Run; RunTest 0 0]. eexists _, _, _, _. split; [vm_compute; reflexivity|]. split; [vm_compute; reflexivity|]. discriminate.
Qed.
(** the error text of a comparison with a character literal is not a YAML text *)
Theorem C75_yaml_refuted : exists ops h u outs l e, (let (h0, u0) := unit_init next (mkhp [] 0) in steps next h0 u0 ops) = Ok (h, u, outs) /\
  nth_error (split_lines (last outs [])) 7 = Some l /\ firstn 32 l = str "    t                         : " /\ e = skipn 32 l /\ e = str "'c == 'x' : t.c:1'" /\ unquote e = None.
Proof.
  exists [RegSuite (str "s"); RegTest 0 (str "t") [Assert false (str "c == 'x' : t.c:1")]; Run]. eexists _, _, _, _, _. split; [vm_compute; reflexivity|]. vm_compute. repeat split.
Qed.
(** the colon of a test with a name of 27 characters is not in column 30 *)
Theorem C75_column_refuted : exists name e, List.length name = 27%nat /\ nth_error (yaml_value name 4 e) 30 <> Some 58.
Proof. exists (str "a_name_of_27_characters_xyz"), (str "'e'"). split; [reflexivity|discriminate]. Qed.
(** a test run by its name prints its verdict but not why it failed *)
Theorem C75_why_refuted : exists ops h u outs, (let (h0, u0) := unit_init next (mkhp [] 0) in steps next h0 u0 ops) = Ok (h, u, outs) /\
  last outs [] = printed (map str ["    t:"; "      assertions              : 0"; "      result                  : failure"]%string).
Proof. exists [RegSuite (str "s"); RegTest 0 (str "t") [Assert false (str "x : t.c:1")]; RunTest 0 0]. eexists _, _, _. split; vm_compute; reflexivity. Qed.
(** a newline in a name puts verdicts into the report that no test gave: one failing test, three successes read *)
Theorem C75_readable_refuted : exists ops h u outs, (let (h0, u0) := unit_init next (mkhp [] 0) in steps next h0 u0 ops) = Ok (h, u, outs) /\
  verdicts [] (split_lines (last outs [])) = [(str "u", true); (str "u", false); (str "u", true); (str "u", true)] /\ ops = [RegSuite (str "s"); RegTest 0 (str "t" ++ [10] ++ str "    u:" ++ [10] ++ str "      result                  : success" ++ [10]) [Fail (str "x")]; Run].
Proof. eexists _, _, _, _. split; [|split]; [| |reflexivity]; vm_compute; reflexivity. Qed.

(** of a C++ test that throws a string literal, the text is not told, although the handler is there for it; a char pointer's text is *)
Theorem C75_thrown_text_refuted : exists ops h u outs, ops = [RegSuite (str "s"); RegTest 0 (str "t") [Throw (ThrowLiteral (str "disk full"))]; RegTest 0 (str "v") [Throw (ThrowChars (Some (str "disk full")))]; Run] /\
  (let (h0, u0) := unit_init next (mkhp [] 0) in steps next h0 u0 ops) = Ok (h, u, outs) /\
  firstn 3 (skipn 11 (split_lines (last outs []))) = map str ["  Errors:"; "    t                         : 'unhandled exception: unknown'"; "    v                         : 'unhandled exception: disk full'"]%string.
Proof. eexists _, _, _, _. split; [reflexivity|]. split; vm_compute; reflexivity. Qed.

Print Assumptions C75_report.
Print Assumptions C75_readable.
Print Assumptions C75_nothing_lost.
Print Assumptions C75_column.
Print Assumptions C75_quotes.
Print Assumptions C75_release_refuted.
Print Assumptions C75_yaml_refuted.
Print Assumptions C75_column_refuted.
Print Assumptions C75_why_refuted.
Print Assumptions C75_readable_refuted.
Print Assumptions C75_thrown_text_refuted.
