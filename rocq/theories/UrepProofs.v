(** zt_unit's heap against its values (C75). *)
From Coq Require Import Permutation.
From Coq Require Import Ascii String.
From Verif Require Import Prelude CstrModel CstrSpec AmemModel AmemProofs HeapModel Perm LogSpec UrepModel UrepSpec.
Local Open Scope Z_scope.
Local Open Scope list_scope.

(** ** Lines *)
Lemma printed_app a b : printed (a ++ b) = printed a ++ printed b.
Proof. apply flat_map_app. Qed.
Lemma printed_one a : printed [a] = a ++ [10].
Proof. unfold printed. cbn [flat_map]. apply app_nil_r. Qed.
Lemma printed_cons a l : printed (a :: l) = (a ++ [10]) ++ printed l.
Proof. reflexivity. Qed.
Lemma blank_ok c : 0 <= c -> blank c = blanks c.
Proof. intros. unfold blank, blanks. now rewrite Z.abs_eq. Qed.
Lemma dict_ok c n : 0 <= c -> yaml_dict n c = printed [heading c n].
Proof. intros. rewrite printed_one. unfold yaml_dict, heading. rewrite blank_ok, <- !app_assoc by assumption. reflexivity. Qed.
Lemma elt_ok c n : 0 <= c -> yaml_list_elt n c = printed [bullet c n].
Proof. intros. rewrite printed_one. unfold yaml_list_elt, bullet. rewrite blank_ok, <- !app_assoc by assumption. reflexivity. Qed.
Lemma value_ok c n v : 0 <= c -> yaml_value n c v = printed [entry c n v].
Proof.
  intros. rewrite printed_one. unfold yaml_value, entry. cbv zeta. rewrite blank_ok by assumption. rewrite <- !app_assoc. do 2 f_equal.
  assert (E : zlen (blanks c ++ n) = c + Z.of_nat (List.length n)). { unfold zlen, blanks. rewrite app_length, repeat_length. lia. }
  rewrite E. f_equal. unfold blank, blanks. f_equal. f_equal. destruct (Z.leb_spec (c + Z.of_nat (List.length n)) 30); lia.
Qed.
Lemma quoted_ok t : quoted t = in_quotes t.
Proof. reflexivity. Qed.

(** ** Texts *)
Lemma last_skip a b l : last_of (a :: b :: l) = last_of (b :: l).
Proof. unfold last_of. cbn [rev]. destruct (rev l ++ [b]) eqn:E; [now destruct (rev l)|]. reflexivity. Qed.
Lemma removelast_skip {A} (a b : A) l : removelast (a :: b :: l) = a :: removelast (b :: l).
Proof. reflexivity. Qed.
Lemma kept_last o : last_of (match o with None => [] | Some e => [e] end) = o.
Proof. now destruct o. Qed.

Definition ke (o : option text) : list text := match o with None => [] | Some e => [e] end.
Definition ecell (p : nat) (o : option text) : list (nat * blk) := map (fun e => (p, BText e)) (ke o).
Definition errel (p : nat) (o : option text) : Prop := match o with None => p = 0%nat | Some _ => p <> 0%nat end.
Definition code (r : option bool) : Z := match r with None => -1 | Some false => 0 | Some true => 1 end.
Definition rt (t : test) (v : vtest) : Prop :=
  t_body t = v_body v /\ t_success t = code (v_result v) /\ t_assertions t = v_held v /\ t_exceptions t = v_raised v /\ errel (t_error t) (v_error v).
Definition tcell (t : test) (v : vtest) : list (nat * blk) := (t_at t, BTest) :: (t_name t, BText (v_name v)) :: ecell (t_error t) (v_error v).
Fixpoint tcells (l : list test) (vl : list vtest) : list (nat * blk) := match l, vl with t :: r, v :: vr => tcell t v ++ tcells r vr | _, _ => [] end.
Definition rs (s : suite) (v : vsuite) : Prop := Forall2 rt (s_tests s) (v_tests v) /\ s_failed s = v_failed v /\ s_empty s = v_empties v /\ 0 <= v_empties v.
Definition scell (s : suite) (v : vsuite) : list (nat * blk) := (s_at s, BSuite) :: (s_name s, BText (v_title v)) :: tcells (s_tests s) (v_tests v).
Fixpoint scells (l : list suite) (vl : list vsuite) : list (nat * blk) := match l, vl with t :: r, v :: vr => scell t v ++ scells r vr | _, _ => [] end.
Definition ru (u : UrepModel.unit) (v : vunit) : Prop :=
  Forall2 rs (u_suites u) (v_suites v) /\ u_suite_count u = n_suites v /\ u_tests u = n_tests v /\ u_successes u = n_passed v /\ u_failures u = n_failed v /\
  u_assertions u = n_held v /\ u_exceptions u = n_raised v /\ u_empty u = n_empty v /\ 0 <= n_empty v.
Definition ucell (u : UrepModel.unit) (v : vunit) : list (nat * blk) := (u_at u, BUnit) :: scells (u_suites u) (v_suites v).
Lemma tcells_app l1 v1 l2 v2 : Forall2 rt l1 v1 -> tcells (l1 ++ l2) (v1 ++ v2) = tcells l1 v1 ++ tcells l2 v2.
Proof. induction 1; cbn [app tcells]; [reflexivity|]. now rewrite IHForall2, app_assoc. Qed.
Lemma scells_app l1 v1 l2 v2 : Forall2 rs l1 v1 -> scells (l1 ++ l2) (v1 ++ v2) = scells l1 v1 ++ scells l2 v2.
Proof. induction 1; cbn [app scells]; [reflexivity|]. now rewrite IHForall2, app_assoc. Qed.

Section P.
Variable pick : nat -> list nat -> nat.
Hypothesis G : good pick.

Lemma test_fn_ok l : forall h t e L, errel (t_error t) e -> owns h (ecell (t_error t) e ++ L) ->
  exists h' t' X, test_fn pick h t l = (h', t', passes l) /\ t_at t' = t_at t /\ t_name t' = t_name t /\ t_body t' = t_body t /\ t_success t' = t_success t /\
    t_assertions t' = t_assertions t + held l /\ t_exceptions t' = t_exceptions t + raised l /\
    errel (t_error t') (last_of (ke e ++ texts l)) /\ owns h' (ecell (t_error t') (last_of (ke e ++ texts l)) ++ X ++ L) /\ map snd X = map BText (removelast (ke e ++ texts l)).
Proof.
  assert (SE : forall h t e L m, errel (t_error t) e -> owns h (ecell (t_error t) e ++ L) ->
    exists h' t' X, set_error pick h t m = (h', t') /\ t_at t' = t_at t /\ t_name t' = t_name t /\ t_body t' = t_body t /\ t_success t' = t_success t /\
      t_assertions t' = t_assertions t /\ t_exceptions t' = t_exceptions t /\ errel (t_error t') (Some m) /\ owns h' (ecell (t_error t') (Some m) ++ X ++ L) /\ map snd X = map BText (ke e)).
  { intros h t e L m R O. unfold set_error. destruct (owns_new pick h (BText m) _ G O) as (x & h' & E & O'). rewrite E.
    exists h'. eexists. exists (ecell (t_error t) e). split; [reflexivity|]. cbn. repeat split.
    - eapply owns_nonnull; [exact O'|now left].
    - apply O'. - apply O'. - apply O'.
    - unfold ecell. rewrite map_map. reflexivity. }
  induction l as [|a l IH]; intros h t e L R O.
  - exists h, t, []. unfold texts. cbn [executed flat_map]. rewrite app_nil_r. unfold held, raised. cbn [executed filter List.length]. change (last_of (ke e)) with (last_of (match e with None => [] | Some e => [e] end)). rewrite kept_last.
    repeat split; try lia; try assumption; [apply O..|]. now destruct e.
  - assert (ST : forall m, stops a = true -> text_of a = [m] -> test_fn pick h t (a :: l) = (let (h, t) := set_error pick h t m in (h, mktest (t_at t) (t_name t) (t_body t) (t_success t) (t_error t) (t_assertions t) (t_exceptions t + if raises a then 1 else 0), false)) -> holds_ a = false ->
      exists h' t' X, test_fn pick h t (a :: l) = (h', t', passes (a :: l)) /\ t_at t' = t_at t /\ t_name t' = t_name t /\ t_body t' = t_body t /\ t_success t' = t_success t /\
      t_assertions t' = t_assertions t + held (a :: l) /\ t_exceptions t' = t_exceptions t + raised (a :: l) /\
      errel (t_error t') (last_of (ke e ++ texts (a :: l))) /\ owns h' (ecell (t_error t') (last_of (ke e ++ texts (a :: l))) ++ X ++ L) /\ map snd X = map BText (removelast (ke e ++ texts (a :: l)))).
    { intros m S T F Hh. destruct (SE h t e L m R O) as (h' & t' & X & E & A1 & A2 & A3 & A4 & A5 & A6 & A7 & A8 & A9).
      exists h', (mktest (t_at t') (t_name t') (t_body t') (t_success t') (t_error t') (t_assertions t') (t_exceptions t' + if raises a then 1 else 0)), X. rewrite F, E. unfold passes. cbn [existsb]. rewrite S. cbn [orb negb]. split; [reflexivity|]. cbn [t_at t_name t_body t_success t_error t_assertions t_exceptions].
      assert (TE : texts (a :: l) = [m]). { unfold texts. cbn [executed]. rewrite S. cbn [flat_map]. rewrite T. reflexivity. }
      rewrite TE. assert (LE : last_of (ke e ++ [m]) = Some m) by now destruct e. rewrite LE.
      assert (RE : removelast (ke e ++ [m]) = ke e) by now destruct e. rewrite RE.
      unfold held, raised. cbn [executed]. rewrite S. cbn [filter]. rewrite Hh. cbn [List.length]. rewrite A5, A6. destruct (raises a); cbn [List.length].
      all: repeat split; try lia; try assumption; apply A8. }
    assert (CO : forall h' t' e' X0, stops a = false -> test_fn pick h t (a :: l) = test_fn pick h' t' l -> t_at t' = t_at t -> t_name t' = t_name t -> t_body t' = t_body t -> t_success t' = t_success t ->
       t_assertions t' = t_assertions t + (if holds_ a then 1 else 0) -> t_exceptions t' = t_exceptions t + (if raises a then 1 else 0) ->
       errel (t_error t') e' -> owns h' (ecell (t_error t') e' ++ X0 ++ L) -> ke e' = match text_of a with [] => ke e | m :: _ => [m] end -> map snd X0 = map BText (match text_of a with [] => [] | _ => ke e end) ->
       (text_of a = [] \/ exists m, text_of a = [m]) ->
      exists h' t' X, test_fn pick h t (a :: l) = (h', t', passes (a :: l)) /\ t_at t' = t_at t /\ t_name t' = t_name t /\ t_body t' = t_body t /\ t_success t' = t_success t /\
      t_assertions t' = t_assertions t + held (a :: l) /\ t_exceptions t' = t_exceptions t + raised (a :: l) /\
      errel (t_error t') (last_of (ke e ++ texts (a :: l))) /\ owns h' (ecell (t_error t') (last_of (ke e ++ texts (a :: l))) ++ X ++ L) /\ map snd X = map BText (removelast (ke e ++ texts (a :: l)))).
    { intros h1 t1 e1 X0 S F B1 B2 B3 B4 B5 B6 R1 O1 K1 K2 TO. destruct (IH h1 t1 e1 (X0 ++ L) R1 O1) as (h' & t' & X & E & A1 & A2 & A3 & A4 & A5 & A6 & A7 & A8 & A9).
      exists h', t', (X0 ++ X). rewrite F, E. unfold passes. cbn [existsb]. rewrite S. cbn [orb]. split; [reflexivity|].
      assert (TE : texts (a :: l) = text_of a ++ texts l). { unfold texts. cbn [executed]. rewrite S. reflexivity. }
      rewrite TE. clear TE.
      assert (HE : held (a :: l) = (if holds_ a then 1 else 0) + held l). { unfold held. cbn [executed]. rewrite S. cbn [filter]. destruct (holds_ a); cbn [List.length]; lia. }
      assert (RE : raised (a :: l) = (if raises a then 1 else 0) + raised l). { unfold raised. cbn [executed]. rewrite S. cbn [filter]. destruct (raises a); cbn [List.length]; lia. }
      rewrite HE, RE.
      assert (LL : last_of (ke e ++ text_of a ++ texts l) = last_of (ke e1 ++ texts l)).
      { destruct TO as [T|[m T]]; rewrite T in K1 |- *; rewrite K1; [reflexivity|]. destruct e; cbn [ke app]; [apply last_skip|reflexivity]. }
      assert (RR : map snd (X0 ++ X) = map BText (removelast (ke e ++ text_of a ++ texts l))).
      { rewrite map_app, K2, A9. destruct TO as [T|[m T]]; rewrite T in K1 |- *; rewrite K1; [reflexivity|]. destruct e; cbn [ke app]; [rewrite removelast_skip; reflexivity|reflexivity]. }
      rewrite LL, RR. repeat split; try lia; try congruence; try assumption.
      all: assert (PP : owns h' (ecell (t_error t') (last_of (ke e1 ++ texts l)) ++ (X0 ++ X) ++ L)) by (eapply owns_perm; [exact A8|perm]); apply PP. }
    assert (SZ : forall m, (let (h, t) := set_error pick h t m in (h, t, false)) = (let (h, t) := set_error pick h t m in (h, mktest (t_at t) (t_name t) (t_body t) (t_success t) (t_error t) (t_assertions t) (t_exceptions t + 0), false))) by (intros m; unfold set_error; destruct (hnew pick h (BText m)); cbn; rewrite Z.add_0_r; reflexivity).
    destruct a as [[|] m| |m|m|x].
    + apply CO with (h' := h) (t' := mktest (t_at t) (t_name t) (t_body t) (t_success t) (t_error t) (t_assertions t + 1) (t_exceptions t)) (e' := e) (X0 := []); cbn; try reflexivity; try assumption; try lia. now left.
    + apply (ST m); try reflexivity. apply SZ.
    + apply CO with (h' := h) (t' := mktest (t_at t) (t_name t) (t_body t) (t_success t) (t_error t) (t_assertions t) (t_exceptions t + 1)) (e' := e) (X0 := []); cbn; try reflexivity; try assumption; try lia. now left.
    + destruct (SE h t e L m R O) as (h' & t' & X & E & A1 & A2 & A3 & A4 & A5 & A6 & A7 & A8 & A9).
      apply CO with (h' := h') (t' := t') (e' := Some m) (X0 := X); try assumption; try reflexivity.
      * cbn [test_fn]. now rewrite E.
      * cbn. lia. * cbn. lia. * cbn. right. eauto.
    + apply (ST m); try reflexivity. apply SZ.
    + apply (ST (throw_text x)); try reflexivity. cbn [test_fn raises]. destruct x as [[m|]|m|]; reflexivity.
Qed.

Lemma name_get h t v L : owns h (tcell t v ++ L) -> gettext h (t_name t) = Ok (v_name v).
Proof. intros O. unfold gettext. rewrite (owns_in _ _ (t_name t) (BText (v_name v)) O); [reflexivity|]. unfold tcell. cbn. tauto. Qed.
Lemma run_test_ok h t v L : rt t v -> owns h (tcell t v ++ L) ->
  exists h' t' X, run_test pick h t = Ok (h', t', printed (test_lines (ran v))) /\ rt t' (ran v) /\ owns h' (tcell t' (ran v) ++ X ++ L) /\ map snd X = map BText (lost_by v).
Proof.
  intros (R1 & R2 & R3 & R4 & R5) O. unfold run_test. cbv zeta. cbn [set_success t_name t_body]. rewrite (name_get _ _ _ _ O). cbn [obind].
  assert (O1 : owns h (ecell (t_error (set_success t 0)) (v_error v) ++ (t_at t, BTest) :: (t_name t, BText (v_name v)) :: L)).
  { eapply owns_perm; [exact O|]. unfold tcell. cbn [set_success t_error]. perm. }
  destruct (test_fn_ok (t_body t) h (set_success t 0) (v_error v) _ R5 O1) as (h' & t1 & X & E & A1 & A2 & A3 & A4 & A5 & A6 & A7 & A8 & A9).
  unfold set_success in E |- *. rewrite E. cbn in A1, A2, A3, A4, A5, A6.
  exists h', (if passes (t_body t) then set_success t1 1 else t1), X.
  assert (F : forall b : bool, t_at (if b then set_success t1 1 else t1) = t_at t1 /\ t_name (if b then set_success t1 1 else t1) = t_name t1 /\ t_body (if b then set_success t1 1 else t1) = t_body t1 /\ t_error (if b then set_success t1 1 else t1) = t_error t1
     /\ t_assertions (if b then set_success t1 1 else t1) = t_assertions t1 /\ t_exceptions (if b then set_success t1 1 else t1) = t_exceptions t1 /\ t_success (if b then set_success t1 1 else t1) = code (Some b)).
  { intros [|]; cbn; repeat split; congruence. }
  destruct (F (passes (t_body t))) as (F1 & F2 & F3 & F4 & F5 & F6 & F7). unfold set_success in F1, F2, F3, F4, F5, F6, F7. rewrite R1 in *.
  split; [|split; [|split]].
  - do 2 f_equal. unfold test_lines. rewrite !printed_app. rewrite printed_cons, F5, F6, F7, A5, A6, R3, R4. cbn [ran v_name v_held v_raised]. rewrite !value_ok, dict_ok by lia.
    assert (PE : passed (ran v) = passes (v_body v)). { unfold passed. cbn [ran v_result]. now destruct (passes (v_body v)). }
    assert (HP : forall a b c : text, printed [a] ++ b ++ c = ((a ++ [10]) ++ b) ++ c). { intros. now rewrite printed_one, <- !app_assoc. }
    rewrite PE, HP. f_equal. destruct (v_raised v + raised (v_body v) =? 0), (passes (v_body v)); reflexivity.
  - unfold rt, set_success. rewrite F3, F4, F5, F6, F7. cbn [ran v_body v_result v_held v_raised v_error]. repeat split; try congruence; exact A7.
  - unfold tcell, set_success. rewrite F1, F2, F4, A1, A2. cbn [ran v_name v_error]. eapply owns_perm; [exact A8|]. unfold kept. fold (ke (v_error v)). perm.
  - exact A9.
Qed.

Lemma run_tests_ok todo : forall vt h u s done L, Forall2 rt todo vt -> owns h (tcells todo vt ++ L) ->
  exists h' todo' X, let l := map ran vt in
    run_tests pick h u s done todo = Ok (h', mkunit (u_at u) (u_suites u) (u_suite_count u) (u_tests u + Z.of_nat (List.length l)) (u_successes u + count passed l) (u_failures u + count fails l) (u_assertions u + total v_held l) (u_exceptions u + total v_raised l) (u_empty u + count hollow l),
      mksuite (s_at s) (s_name s) (done ++ todo') (s_failed s + count fails l) (s_empty s + count hollow l), printed (flat_map test_lines l)) /\
    Forall2 rt todo' l /\ owns h' (tcells todo' l ++ X ++ L) /\ map snd X = map BText (flat_map lost_by vt).
Proof.
  induction todo as [|t todo IH]; intros vt h u s done L F O; inversion F as [|? v ? vr R F' EQ1 EQ2]; subst.
  - exists h, [], []. cbv zeta. cbn. rewrite !Z.add_0_r, app_nil_r. split; [|repeat split; try constructor; try apply O].
    destruct u; reflexivity.
  - cbn [tcells] in O. rewrite <- app_assoc in O. destruct (run_test_ok h t v _ R O) as (h1 & t1 & X1 & E1 & R1 & O1 & M1). cbn [run_tests]. rewrite E1. cbn [obind].
    assert (O2 : owns h1 (tcells todo vr ++ (X1 ++ tcell t1 (ran v) ++ L))) by (eapply owns_perm; [exact O1|perm]).
    match goal with |- context [run_tests pick h1 ?u1 ?s1 ?d1 todo] => destruct (IH vr h1 u1 s1 d1 _ F' O2) as (h2 & todo2 & X2 & E2 & F2 & O3 & M2) end.
    rewrite E2. cbn [obind]. exists h2, (t1 :: todo2), (X1 ++ X2). cbv zeta. cbn [map].
    destruct R1 as (Q1 & Q2 & Q3 & Q4 & Q5). split; [|split; [|split]].
    + cbn [u_at u_suites u_suite_count u_tests u_successes u_failures u_assertions u_exceptions u_empty s_at s_name s_failed s_empty].
      rewrite Q2, Q3, Q4.
      assert (CF : negb (code (v_result (ran v)) =? 1) = fails (ran v)). { unfold fails, passed. cbn [ran v_result]. destruct (passes (v_body v)); reflexivity. }
      rewrite CF. fold (hollow (ran v)).
      assert (CP : forall f l, count f (ran v :: l) = (if f (ran v) then 1 else 0) + count f l). { intros f l. unfold count. cbn [filter]. destruct (f (ran v)); cbn [List.length]; lia. }
      assert (TP : forall f l, total f (ran v :: l) = f (ran v) + total f l) by reflexivity.
      assert (PF : passed (ran v) = negb (fails (ran v))). { unfold fails. now rewrite negb_involutive. }
      rewrite !CP, !TP, PF. cbn [flat_map List.length]. rewrite printed_app, <- app_assoc. cbn [app].
      assert (UE : forall (a b c d e f g a' b' c' d' e' f' g' n m : Z) (o : text) (h0 : heap) (x y : Z) (ss : list test), a = a' -> b = b' -> c = c' -> d = d' -> e = e' -> f = f' -> g = g' -> n = m -> x = y ->
         Ok (h0, mkunit (u_at u) (u_suites u) a b c d e f g, mksuite (s_at s) (s_name s) ss n x, o) = Ok (h0 : heap, mkunit (u_at u) (u_suites u) a' b' c' d' e' f' g', mksuite (s_at s) (s_name s) ss m y, o)) by (intros; subst; reflexivity).
      apply UE; try lia; destruct (fails (ran v)); cbn [negb]; lia.
    + constructor; [|exact F2]. repeat split; assumption.
    + cbn [tcells]. eapply owns_perm; [exact O3|]. perm.
    + cbn [flat_map]. rewrite !map_app. congruence.
Qed.

Lemma errors_ok l : forall vl h L, Forall2 rt l vl -> owns h (tcells l vl ++ L) -> errors h l = Ok (printed (map error_line (filter fails vl))).
Proof.
  induction l as [|t l IH]; intros vl h L F O; inversion F as [|? v ? vr R F' EQ1 EQ2]; subst; [reflexivity|].
  cbn [tcells] in O. rewrite <- app_assoc in O. cbn [errors]. rewrite (IH vr h (tcell t v ++ L) F') by (eapply owns_perm; [exact O|perm]).
  destruct R as (R1 & R2 & R3 & R4 & R5). rewrite R2. cbn [filter].
  assert (FE : fails v = negb (code (v_result v) =? 1)) by (unfold fails, passed; now destruct (v_result v) as [[|]|]). rewrite FE.
  destruct (v_result v) as [[|]|]; cbn [code]; [reflexivity| |].
  all: change (0 =? 1) with false; change (-1 =? 1) with false; cbn [negb]; cbv iota; rewrite (name_get _ _ _ _ O); cbn [obind map].
  all: assert (GE : (if (t_error t =? 0)%nat then Ok w_no_text else gettext h (t_error t)) = Ok (match v_error v with None => w_no_text | Some e => e end)).
  1, 3: destruct (v_error v) as [e|] eqn:EE; cbn [errel] in R5; [|rewrite R5; reflexivity]; apply Nat.eqb_neq in R5; rewrite R5; unfold gettext; rewrite (owns_in _ _ (t_error t) (BText e) O); [reflexivity|]; unfold tcell, ecell; rewrite EE; cbn; tauto.
  all: rewrite GE; cbn [obind]; rewrite printed_cons; rewrite value_ok, printed_one by lia; unfold error_line; rewrite quoted_ok; destruct (v_error v); reflexivity.
Qed.

Definition cu (u : UrepModel.unit) (l : list vtest) : UrepModel.unit :=
  mkunit (u_at u) (u_suites u) (u_suite_count u + 1) (u_tests u + Z.of_nat (List.length l)) (u_successes u + count passed l) (u_failures u + count fails l) (u_assertions u + total v_held l) (u_exceptions u + total v_raised l) (u_empty u + count hollow l).
Lemma run_suite_ok h u s v L : rs s v -> owns h (scell s v ++ L) ->
  exists h' s' X, run_suite pick h u s = Ok (h', cu u (map ran (v_tests v)), s', printed (suite_lines (suite_ran v))) /\ rs s' (suite_ran v) /\ owns h' (scell s' (suite_ran v) ++ X ++ L) /\ map snd X = map BText (flat_map lost_by (v_tests v)).
Proof.
  intros (F & R1 & R2 & R3) O. unfold run_suite. cbv zeta.
  assert (N : gettext h (s_name s) = Ok (v_title v)). { unfold gettext. rewrite (owns_in _ _ (s_name s) (BText (v_title v)) O); [reflexivity|]. unfold scell. cbn. tauto. }
  rewrite N. cbn [obind].
  assert (O1 : owns h (tcells (s_tests s) (v_tests v) ++ (s_at s, BSuite) :: (s_name s, BText (v_title v)) :: L)) by (eapply owns_perm; [exact O|unfold scell; perm]).
  match goal with |- context [run_tests pick h ?u1 s [] _] => destruct (run_tests_ok (s_tests s) (v_tests v) h u1 s [] _ F O1) as (h' & l' & X & E & F' & O' & M) end.
  cbv zeta in E. rewrite E. cbn [obind s_failed s_tests app]. exists h'. eexists. exists X.
  assert (EE : (if s_failed s + count fails (map ran (v_tests v)) =? 0 then Ok [] else e <- errors h' l' ;; Ok (yaml_dict w_errors 2 ++ e)) =
     Ok (printed (if v_failed (suite_ran v) =? 0 then [] else heading 2 (str "Errors") :: map error_line (filter fails (v_tests (suite_ran v)))))).
  { cbn [suite_ran v_failed v_tests]. rewrite R1. destruct (_ =? 0); [reflexivity|]. rewrite (errors_ok _ _ _ _ F' O'). cbn [obind]. rewrite printed_cons. rewrite dict_ok, printed_one by lia. reflexivity. }
  rewrite EE. cbn [obind]. split; [|split; [|split]].
  - unfold suite_lines. rewrite !printed_app, !printed_cons. cbn [suite_ran v_title v_tests]. rewrite dict_ok, printed_one by lia. unfold cu. cbn [u_at u_suites u_suite_count u_tests u_successes u_failures u_assertions u_exceptions u_empty s_at s_name s_empty].
    rewrite <- !app_assoc. unfold heading. cbn [blanks]. rewrite <- !app_assoc. reflexivity.
  - repeat split; cbn [s_tests s_failed s_empty suite_ran v_tests v_failed v_empties]; try congruence; try exact F'. unfold count. lia.
  - unfold scell. cbn [s_at s_name s_tests suite_ran v_title v_tests]. eapply owns_perm; [exact O'|perm].
  - exact M.
Qed.
Lemma run_suites_ok todo : forall vs h u done L, Forall2 rs todo vs -> owns h (scells todo vs ++ L) ->
  exists h' todo' X, let l := map suite_ran vs in
    run_suites pick h u done todo = Ok (h', set_suites (fold_left (fun u s => cu u (v_tests s)) l u) (done ++ todo'), printed (flat_map suite_lines l)) /\
    Forall2 rs todo' l /\ owns h' (scells todo' l ++ X ++ L) /\ map snd X = map BText (flat_map (fun s => flat_map lost_by (v_tests s)) vs).
Proof.
  induction todo as [|s todo IH]; intros vs h u done L F O; inversion F as [|? v ? vr R F' EQ1 EQ2]; subst.
  - exists h, [], []. cbv zeta. cbn. rewrite app_nil_r. split; [reflexivity|repeat split; try constructor; try apply O].
  - cbn [scells] in O. rewrite <- app_assoc in O. destruct (run_suite_ok h u s v _ R O) as (h1 & s1 & X1 & E1 & R1 & O1 & M1). cbn [run_suites]. rewrite E1. cbn [obind].
    assert (O2 : owns h1 (scells todo vr ++ (X1 ++ scell s1 (suite_ran v) ++ L))) by (eapply owns_perm; [exact O1|perm]).
    destruct (IH vr h1 (cu u (map ran (v_tests v))) (done ++ [s1]) _ F' O2) as (h2 & todo2 & X2 & E2 & F2 & O3 & M2).
    rewrite E2. cbn [obind]. exists h2, (s1 :: todo2), (X1 ++ X2). cbv zeta. cbn [map]. split; [|split; [|split]].
    + cbn [fold_left flat_map]. rewrite printed_app, <- app_assoc. reflexivity.
    + now constructor.
    + cbn [scells]. eapply owns_perm; [exact O3|perm].
    + cbn [flat_map]. rewrite !map_app. congruence.
Qed.
Lemma empty_tests_ok l : forall vl h L, Forall2 rt l vl -> owns h (tcells l vl ++ L) -> empty_tests h l = Ok (printed (map (fun t => bullet 4 (v_name t)) (filter hollow vl))).
Proof.
  induction l as [|t l IH]; intros vl h L F O; inversion F as [|? v ? vr R F' EQ1 EQ2]; subst; [reflexivity|].
  cbn [tcells] in O. rewrite <- app_assoc in O. cbn [empty_tests]. rewrite (IH vr h (tcell t v ++ L) F') by (eapply owns_perm; [exact O|perm]).
  destruct R as (R1 & R2 & R3 & R4 & R5). rewrite R3, R4. fold (hollow v). cbn [filter]. destruct (hollow v); cbn [obind]; [|reflexivity].
  rewrite (name_get _ _ _ _ O). cbn [obind map]. rewrite printed_cons, elt_ok, printed_one by lia. reflexivity.
Qed.
Lemma empty_suites_ok l : forall vl h L, Forall2 rs l vl -> owns h (scells l vl ++ L) ->
  empty_suites h l = Ok (printed (flat_map (fun s => if v_empties s =? 0 then [] else map (fun t => bullet 4 (v_name t)) (filter hollow (v_tests s))) vl)).
Proof.
  induction l as [|s l IH]; intros vl h L F O; inversion F as [|? v ? vr R F' EQ1 EQ2]; subst; [reflexivity|].
  cbn [scells] in O. rewrite <- app_assoc in O. cbn [empty_suites]. rewrite (IH vr h (scell s v ++ L) F') by (eapply owns_perm; [exact O|perm]).
  destruct R as (R1 & R2 & R3 & R4). rewrite R3. cbn [flat_map]. rewrite printed_app.
  destruct (Z.eqb_spec (v_empties v) 0) as [->|N]; [reflexivity|]. assert (B : 0 <? v_empties v = true) by (apply Z.ltb_lt; lia). rewrite B.
  assert (O1 : owns h (tcells (s_tests s) (v_tests v) ++ (s_at s, BSuite) :: (s_name s, BText (v_title v)) :: scells l vr ++ L)) by (eapply owns_perm; [exact O|unfold scell; perm]).
  rewrite (empty_tests_ok _ _ _ _ R1 O1). reflexivity.
Qed.
Lemma global_stats_ok h u v L : ru u v -> owns h (ucell u v ++ L) -> global_stats h u = Ok (printed (stat_lines v)).
Proof.
  intros (F & C1 & C2 & C3 & C4 & C5 & C6 & C7 & C8) O. unfold global_stats.
  assert (O1 : owns h (scells (u_suites u) (v_suites v) ++ (u_at u, BUnit) :: L)) by (eapply owns_perm; [exact O|unfold ucell; perm]).
  rewrite (empty_suites_ok _ _ _ _ F O1). unfold stat_lines. rewrite printed_app. rewrite C1, C2, C3, C4, C5, C6, C7. cbn [obind].
  rewrite !value_ok, !dict_ok by lia. rewrite !printed_cons. cbn [printed flat_map]. rewrite !app_nil_r, <- !app_assoc.
  destruct (Z.eqb_spec (n_empty v) 0) as [->|N]; [cbn [Z.ltb Z.compare obind]; rewrite ?app_nil_r, <- ?app_assoc; reflexivity|]. assert (B : 0 <? n_empty v = true) by (apply Z.ltb_lt; lia). rewrite B.
  cbn [obind]. rewrite printed_cons, <- ?app_assoc. reflexivity.
Qed.
Lemma list_tests_ok l : forall vl h L, Forall2 rt l vl -> owns h (tcells l vl ++ L) -> list_tests h l = Ok (printed (map (fun t => bullet 4 (v_name t)) vl)).
Proof.
  induction l as [|t l IH]; intros vl h L F O; inversion F as [|? v ? vr R F' EQ1 EQ2]; subst; [reflexivity|].
  cbn [tcells] in O. rewrite <- app_assoc in O. cbn [list_tests]. rewrite (IH vr h (tcell t v ++ L) F') by (eapply owns_perm; [exact O|perm]).
  rewrite (name_get _ _ _ _ O). cbn [obind map]. rewrite printed_cons, elt_ok, printed_one by lia. reflexivity.
Qed.
Lemma list_suites_ok l : forall vl h L, Forall2 rs l vl -> owns h (scells l vl ++ L) ->
  list_suites h l = Ok (printed (flat_map (fun s => heading 2 (v_title s) :: map (fun t => bullet 4 (v_name t)) (v_tests s)) vl)).
Proof.
  induction l as [|s l IH]; intros vl h L F O; inversion F as [|? v ? vr R F' EQ1 EQ2]; subst; [reflexivity|].
  cbn [scells] in O. rewrite <- app_assoc in O. cbn [list_suites]. rewrite (IH vr h (scell s v ++ L) F') by (eapply owns_perm; [exact O|perm]).
  assert (N : gettext h (s_name s) = Ok (v_title v)). { unfold gettext. rewrite (owns_in _ _ (s_name s) (BText (v_title v)) O); [reflexivity|]. unfold scell. cbn. tauto. }
  rewrite N. cbn [obind].
  assert (O1 : owns h (tcells (s_tests s) (v_tests v) ++ (s_at s, BSuite) :: (s_name s, BText (v_title v)) :: scells l vr ++ L)) by (eapply owns_perm; [exact O|unfold scell; perm]).
  destruct R as (R1 & _). rewrite (list_tests_ok _ _ _ _ R1 O1). cbn [obind flat_map]. rewrite printed_app, printed_cons, dict_ok, printed_one by lia. now rewrite <- !app_assoc.
Qed.
Lemma unit_list_ok h u v L : ru u v -> owns h (ucell u v ++ L) -> unit_list h u = Ok (printed (list_lines v)).
Proof.
  intros (F & _) O. unfold unit_list.
  assert (O1 : owns h (scells (u_suites u) (v_suites v) ++ (u_at u, BUnit) :: L)) by (eapply owns_perm; [exact O|unfold ucell; perm]).
  rewrite (list_suites_ok _ _ _ _ F O1). cbn [obind]. unfold list_lines. rewrite printed_cons, dict_ok, printed_one by lia. reflexivity.
Qed.

(** ** Release *)
Lemma release_test_ok h t v L : rt t v -> owns h (tcell t v ++ L) -> exists h', release_test h t = Ok h' /\ owns h' L.
Proof.
  intros (R1 & R2 & R3 & R4 & R5) O. unfold release_test.
  assert (O1 : owns h ((t_name t, BText (v_name v)) :: ecell (t_error t) (v_error v) ++ (t_at t, BTest) :: L)) by (eapply owns_perm; [exact O|unfold tcell; perm]).
  destruct (owns_free _ _ _ _ O1) as (h1 & E1 & O2). rewrite E1. cbn [obind].
  assert (X : exists h2, (if (t_error t =? 0)%nat then Ok h1 else hfree h1 (t_error t)) = Ok h2 /\ owns h2 ((t_at t, BTest) :: L)).
  { destruct (v_error v) as [e|]; cbn [errel] in R5.
    - apply Nat.eqb_neq in R5. rewrite R5. unfold ecell in O2. cbn [ke map app] in O2. destruct (owns_free _ _ _ _ O2) as (h2 & E2 & O3). eauto.
    - rewrite R5. exists h1. split; [reflexivity|exact O2]. }
  destruct X as (h2 & E2 & O3). rewrite E2. cbn [obind]. destruct (owns_free _ _ _ _ O3) as (h3 & E3 & O4). eauto.
Qed.
Lemma release_tests_ok l : forall vl h L, Forall2 rt l vl -> owns h (tcells l vl ++ L) -> exists h', release_tests h l = Ok h' /\ owns h' L.
Proof.
  induction l as [|t l IH]; intros vl h L F O; inversion F as [|? v ? vr R F' EQ1 EQ2]; subst; [exists h; split; [reflexivity|exact O]|].
  cbn [tcells] in O. rewrite <- app_assoc in O. cbn [release_tests]. destruct (release_test_ok _ _ _ _ R O) as (h1 & E1 & O1). rewrite E1. cbn [obind]. eauto.
Qed.
Lemma release_suite_ok h s v L : rs s v -> owns h (scell s v ++ L) -> exists h', release_suite h s = Ok h' /\ owns h' L.
Proof.
  intros (F & _) O. unfold release_suite.
  assert (O1 : owns h (tcells (s_tests s) (v_tests v) ++ (s_name s, BText (v_title v)) :: (s_at s, BSuite) :: L)) by (eapply owns_perm; [exact O|unfold scell; perm]).
  destruct (release_tests_ok _ _ _ _ F O1) as (h1 & E1 & O2). rewrite E1. cbn [obind]. destruct (owns_free _ _ _ _ O2) as (h2 & E2 & O3). rewrite E2. cbn [obind].
  destruct (owns_free _ _ _ _ O3) as (h3 & E3 & O4). eauto.
Qed.
Lemma release_suites_ok l : forall vl h L, Forall2 rs l vl -> owns h (scells l vl ++ L) -> exists h', release_suites h l = Ok h' /\ owns h' L.
Proof.
  induction l as [|t l IH]; intros vl h L F O; inversion F as [|? v ? vr R F' EQ1 EQ2]; subst; [exists h; split; [reflexivity|exact O]|].
  cbn [scells] in O. rewrite <- app_assoc in O. cbn [release_suites]. destruct (release_suite_ok _ _ _ _ R O) as (h1 & E1 & O1). rewrite E1. cbn [obind]. eauto.
Qed.
Lemma unit_release_ok h u v L : ru u v -> owns h (ucell u v ++ L) -> exists h', unit_release h u = Ok h' /\ owns h' L.
Proof.
  intros (F & _) O. unfold unit_release.
  assert (O1 : owns h (scells (u_suites u) (v_suites v) ++ (u_at u, BUnit) :: L)) by (eapply owns_perm; [exact O|unfold ucell; perm]).
  destruct (release_suites_ok _ _ _ _ F O1) as (h1 & E1 & O2). rewrite E1. cbn [obind]. destruct (owns_free _ _ _ _ O2) as (h2 & E2 & O3). eauto.
Qed.

(** ** One call *)
Lemma split_rel {A B} (R : A -> B -> Prop) la lb i b : Forall2 R la lb -> nth_error lb i = Some b ->
  exists a l1 l2 m1 m2, nth_error la i = Some a /\ R a b /\ la = l1 ++ a :: l2 /\ lb = m1 ++ b :: m2 /\ Forall2 R l1 m1 /\ Forall2 R l2 m2 /\
    (forall x, upd la i x = l1 ++ x :: l2) /\ (forall x, replaced lb i x = m1 ++ x :: m2) /\ cut la i = l1 ++ l2 /\ without lb i = m1 ++ m2.
Proof.
  intros F. revert i. induction F as [|a' b' la lb R1 F IH]; intros [|i] E; try discriminate; cbn [nth_error] in E.
  - injection E as <-. exists a', [], la, [], lb. repeat split; try constructor; try assumption.
  - destruct (IH i E) as (a & l1 & l2 & m1 & m2 & E1 & Ra & -> & -> & F1 & F2 & U & P & C & W). exists a, (a' :: l1), l2, (b' :: m1), m2.
    repeat split; try assumption; try (now constructor).
    + intros x. cbn [upd]. now rewrite U.
    + intros x. specialize (P x). unfold replaced in P |- *. cbn [firstn skipn app] in P |- *. now rewrite P.
    + unfold cut in C |- *. cbn [firstn skipn app] in C |- *. now rewrite C.
    + unfold without in W |- *. cbn [firstn skipn app] in W |- *. now rewrite W.
Qed.
Lemma cu_counted u v l : u_suite_count u = n_suites v /\ u_tests u = n_tests v /\ u_successes u = n_passed v /\ u_failures u = n_failed v /\
  u_assertions u = n_held v /\ u_exceptions u = n_raised v /\ u_empty u = n_empty v /\ 0 <= n_empty v ->
  let u' := cu u l in let v' := counted v l in
  u_suite_count u' = n_suites v' /\ u_tests u' = n_tests v' /\ u_successes u' = n_passed v' /\ u_failures u' = n_failed v' /\
  u_assertions u' = n_held v' /\ u_exceptions u' = n_raised v' /\ u_empty u' = n_empty v' /\ 0 <= n_empty v'.
Proof. intros (C1 & C2 & C3 & C4 & C5 & C6 & C7 & C8). cbn. repeat split; try congruence. unfold count. lia. Qed.
Lemma fold_counted l : forall u v, u_suite_count u = n_suites v /\ u_tests u = n_tests v /\ u_successes u = n_passed v /\ u_failures u = n_failed v /\
  u_assertions u = n_held v /\ u_exceptions u = n_raised v /\ u_empty u = n_empty v /\ 0 <= n_empty v ->
  let u' := fold_left (fun u s => cu u (v_tests s)) l u in let v' := fold_left (fun u s => counted u (v_tests s)) l v in
  u_at u' = u_at u /\ u_suite_count u' = n_suites v' /\ u_tests u' = n_tests v' /\ u_successes u' = n_passed v' /\ u_failures u' = n_failed v' /\
  u_assertions u' = n_held v' /\ u_exceptions u' = n_raised v' /\ u_empty u' = n_empty v' /\ 0 <= n_empty v'.
Proof.
  induction l as [|s l IH]; intros u v C; cbn [fold_left]; [split; [reflexivity|exact C]|]. destruct (IH (cu u (v_tests s)) (counted v (v_tests s)) (cu_counted u v _ C)) as (A1 & A2). split; [exact A1|exact A2].
Qed.

Lemma step_ok o h u v v' p x L : ru u v -> owns h (ucell u v ++ L) -> call v o = Some (v', p, x) ->
  exists h' u' X, step pick h u o = Ok (h', u', printed p) /\ ru u' v' /\ owns h' (ucell u' v' ++ X ++ L) /\ map snd X = map BText x.
Proof.
  intros RU O C. destruct RU as (F & CN). destruct o as [name|i name body| |i|i j| |i j|i]; cbn [call] in C; cbn [step].
  - injection C as <- <- <-. unfold register_suite. destruct (owns_new pick h BSuite _ G O) as (a & h1 & E1 & O1). rewrite E1. destruct (owns_new pick h1 (BText name) _ G O1) as (b & h2 & E2 & O2). rewrite E2.
    eexists _, _, []. split; [reflexivity|]. split; [|split; [|reflexivity]].
    + split; [|exact CN]. cbn. apply Forall2_app; [exact F|]. constructor; [|constructor]. repeat split; try constructor; cbn; lia.
    + unfold ucell. cbn [u_at u_suites with_suites v_suites]. rewrite scells_app by exact F. eapply owns_perm; [exact O2|]. unfold ucell, scells; fold scells; unfold scell; cbn [s_at s_name s_tests v_title v_tests tcells]. perm.
  - destruct (nth_error (v_suites v) i) as [s|] eqn:E; [|discriminate]. injection C as <- <- <-.
    destruct (split_rel _ _ _ _ _ F E) as (ms & l1 & l2 & m1 & m2 & N & R & L1 & L2 & F1 & F2 & U & P & _ & _). unfold nth_ok. rewrite N. cbn [obind]. unfold register_test.
    destruct (owns_new pick h BTest _ G O) as (a & h1 & E1 & O1). rewrite E1. destruct (owns_new pick h1 (BText name) _ G O1) as (b & h2 & E2 & O2). rewrite E2.
    eexists _, _, []. split; [reflexivity|]. destruct R as (R1 & R2 & R3 & R4). split; [|split; [|reflexivity]].
    + split; [|exact CN]. cbn [set_suites u_suites with_suites v_suites]. rewrite U, P. apply Forall2_app; [exact F1|]. constructor; [|exact F2]. repeat split; try assumption. cbn. apply Forall2_app; [exact R1|]. constructor; [|constructor]. repeat split; cbn; lia || reflexivity.
    + unfold ucell in O2 |- *. cbn [u_at u_suites with_suites set_suites v_suites]. rewrite U, P. rewrite L1, L2 in O2. rewrite !scells_app in * by exact F1. cbn [scells] in *. unfold scell in *. cbn [s_at s_name s_tests with_tests v_title v_tests] in *. rewrite tcells_app by exact R1. cbn [tcells].
      eapply owns_perm; [exact O2|]. unfold tcell. cbn [t_at t_name t_error v_name v_error ecell ke map]. perm.
  - assert (X : (all_ran v, flat_map suite_lines (v_suites (all_ran v)) ++ stat_lines (all_ran v), flat_map (fun s => flat_map lost_by (v_tests s)) (v_suites v)) = (v', p, x)) by congruence. clear C.
    assert (X1 : all_ran v = v') by congruence. assert (X2 : flat_map suite_lines (v_suites (all_ran v)) ++ stat_lines (all_ran v) = p) by congruence. assert (X3 : flat_map (fun s => flat_map lost_by (v_tests s)) (v_suites v) = x) by congruence. subst v' p x. clear X.
    unfold unit_run. assert (O1 : owns h (scells (u_suites u) (v_suites v) ++ (u_at u, BUnit) :: L)) by (eapply owns_perm; [exact O|unfold ucell; perm]).
    destruct (run_suites_ok _ _ h u [] _ F O1) as (h1 & l' & Y & E & F' & O2 & M). cbv zeta in E. rewrite E. cbn [obind app].
    destruct (fold_counted (map suite_ran (v_suites v)) u v CN) as (A & CN').
    assert (RU' : ru (set_suites (fold_left (fun u0 s => cu u0 (v_tests s)) (map suite_ran (v_suites v)) u) l') (all_ran v)) by (split; [exact F'|exact CN']).
    assert (O3 : owns h1 (ucell (set_suites (fold_left (fun u0 s => cu u0 (v_tests s)) (map suite_ran (v_suites v)) u) l') (all_ran v) ++ Y ++ L)).
    { eapply owns_perm; [exact O2|]. unfold ucell. cbn [set_suites u_at u_suites all_ran with_suites v_suites]. rewrite A. perm. }
    rewrite (global_stats_ok _ _ _ _ RU' O3). cbn [obind]. eexists _, _, Y. split; [rewrite printed_app; reflexivity|]. repeat split; try assumption; try apply RU'; apply O3.
  - destruct (nth_error (v_suites v) i) as [s|] eqn:E; [|discriminate]. cbv zeta in C.
    assert (X1 : with_suites (counted v (v_tests (suite_ran s))) (replaced (v_suites v) i (suite_ran s)) = v') by congruence. assert (X2 : suite_lines (suite_ran s) = p) by congruence. assert (X3 : flat_map lost_by (v_tests s) = x) by congruence. subst v' p x. clear C.
    destruct (split_rel _ _ _ _ _ F E) as (ms & l1 & l2 & m1 & m2 & N & R & L1 & L2 & F1 & F2 & U & P & _ & _). unfold nth_ok. rewrite N. cbn [obind].
    assert (O1 : owns h (scell ms s ++ (u_at u, BUnit) :: scells l1 m1 ++ scells l2 m2 ++ L)). { eapply owns_perm; [exact O|]. unfold ucell. rewrite L1, L2, scells_app by exact F1. cbn [scells]. perm. }
    destruct (run_suite_ok h u ms s _ R O1) as (h1 & s1 & Y & E1 & R1 & O2 & M). rewrite E1. cbn [obind]. eexists _, _, Y. split; [reflexivity|]. split; [|split; [|exact M]].
    + split; [|apply (cu_counted u v _ CN)]. cbn [set_suites u_suites with_suites v_suites]. change (u_suites (cu u (map ran (v_tests s)))) with (u_suites u). rewrite U, P. apply Forall2_app; [exact F1|]. now constructor.
    + unfold ucell. cbn [set_suites u_suites u_at cu with_suites v_suites]. rewrite U, P, scells_app by exact F1. cbn [scells]. eapply owns_perm; [exact O2|perm].
  - destruct (nth_error (v_suites v) i) as [s|] eqn:E; [|discriminate]. destruct (nth_error (v_tests s) j) as [t|] eqn:E2; [|discriminate]. cbv zeta in C.
    assert (X1 : mkvu (replaced (v_suites v) i (with_tests s (replaced (v_tests s) j (ran t)))) (n_suites v) (n_tests v) (n_passed v + if passed (ran t) then 1 else 0) (n_failed v + if passed (ran t) then 0 else 1) (n_held v) (n_raised v) (n_empty v) = v') by congruence.
    assert (X2 : test_lines (ran t) = p) by congruence. assert (X3 : lost_by t = x) by congruence. subst v' p x. clear C.
    destruct (split_rel _ _ _ _ _ F E) as (ms & l1 & l2 & m1 & m2 & N & R & L1 & L2 & F1 & F2 & U & P & _ & _). unfold nth_ok. rewrite N. cbn [obind]. destruct R as (R1 & R2 & R3 & R4).
    destruct (split_rel _ _ _ _ _ R1 E2) as (mt & k1 & k2 & q1 & q2 & N' & R' & K1 & K2 & F1' & F2' & U' & P' & _ & _). rewrite N'. cbn [obind]. unfold run_one.
    assert (O1 : owns h (tcell mt t ++ (u_at u, BUnit) :: (s_at ms, BSuite) :: (s_name ms, BText (v_title s)) :: tcells k1 q1 ++ tcells k2 q2 ++ scells l1 m1 ++ scells l2 m2 ++ L)).
    { eapply owns_perm; [exact O|]. unfold ucell. rewrite L1, L2, scells_app by exact F1. cbn [scells]. unfold scell. rewrite K1, K2, tcells_app by exact F1'. cbn [tcells]. perm. }
    destruct (run_test_ok h mt t _ R' O1) as (h1 & t1 & Y & E3 & R5 & O2 & M). rewrite E3. cbn [obind]. eexists _, _, Y. split; [reflexivity|]. split; [|split; [|exact M]].
    + assert (SU : t_success t1 =? 0 = negb (passed (ran t))). { destruct R5 as (_ & -> & _). unfold passed. cbn [ran v_result]. now destruct (passes (v_body t)). }
      destruct CN as (C1 & C2 & C3 & C4 & C5 & C6 & C7 & C8). split; [|cbn [set_suites u_suite_count u_tests u_successes u_failures u_assertions u_exceptions u_empty n_suites n_tests n_passed n_failed n_held n_raised n_empty]; rewrite SU; destruct (passed (ran t)); cbn [negb]; repeat split; congruence || lia].
      cbn [set_suites u_suites v_suites]. rewrite U, P. apply Forall2_app; [exact F1|]. constructor; [|exact F2]. repeat split; try assumption. cbn. rewrite U', P'. apply Forall2_app; [exact F1'|]. now constructor.
    + unfold ucell. cbn [set_suites u_suites u_at v_suites]. rewrite U, P, scells_app by exact F1. cbn [scells]. unfold scell. cbn [set_tests s_at s_name s_tests with_tests v_title v_tests]. rewrite U', P', tcells_app by exact F1'. cbn [tcells]. eapply owns_perm; [exact O2|perm].
  - injection C as <- <- <-. assert (RU : ru u v) by (split; assumption). rewrite (unit_list_ok _ _ _ _ RU O). cbn [obind]. exists h, u, []. repeat split; try assumption; try apply RU; apply O.
  - destruct (nth_error (v_suites v) i) as [s|] eqn:E; [|discriminate]. destruct (nth_error (v_tests s) j) as [t|] eqn:E2; [|discriminate]. injection C as <- <- <-.
    destruct (split_rel _ _ _ _ _ F E) as (ms & l1 & l2 & m1 & m2 & N & R & L1 & L2 & F1 & F2 & U & P & _ & _). unfold nth_ok. rewrite N. cbn [obind]. destruct R as (R1 & R2 & R3 & R4).
    destruct (split_rel _ _ _ _ _ R1 E2) as (mt & k1 & k2 & q1 & q2 & N' & R' & K1 & K2 & F1' & F2' & _ & _ & U' & P'). rewrite N'. cbn [obind].
    assert (O1 : owns h (tcell mt t ++ (u_at u, BUnit) :: (s_at ms, BSuite) :: (s_name ms, BText (v_title s)) :: tcells k1 q1 ++ tcells k2 q2 ++ scells l1 m1 ++ scells l2 m2 ++ L)).
    { eapply owns_perm; [exact O|]. unfold ucell. rewrite L1, L2, scells_app by exact F1. cbn [scells]. unfold scell. rewrite K1, K2, tcells_app by exact F1'. cbn [tcells]. perm. }
    destruct (release_test_ok h mt t _ R' O1) as (h1 & E3 & O2). rewrite E3. cbn [obind]. eexists _, _, []. split; [reflexivity|]. split; [|split; [|reflexivity]].
    + split; [|exact CN]. cbn [set_suites u_suites with_suites v_suites]. rewrite U, P. apply Forall2_app; [exact F1|]. constructor; [|exact F2]. repeat split; try assumption. cbn. rewrite U', P'. now apply Forall2_app.
    + unfold ucell. cbn [set_suites u_suites u_at with_suites v_suites]. rewrite U, P, scells_app by exact F1. cbn [scells]. unfold scell. cbn [set_tests s_at s_name s_tests with_tests v_title v_tests]. rewrite U', P', tcells_app by exact F1'. eapply owns_perm; [exact O2|perm].
  - destruct (nth_error (v_suites v) i) as [s|] eqn:E; [|discriminate]. injection C as <- <- <-.
    destruct (split_rel _ _ _ _ _ F E) as (ms & l1 & l2 & m1 & m2 & N & R & L1 & L2 & F1 & F2 & _ & _ & U & P). unfold nth_ok. rewrite N. cbn [obind].
    assert (O1 : owns h (scell ms s ++ (u_at u, BUnit) :: scells l1 m1 ++ scells l2 m2 ++ L)). { eapply owns_perm; [exact O|]. unfold ucell. rewrite L1, L2, scells_app by exact F1. cbn [scells]. perm. }
    destruct (release_suite_ok h ms s _ R O1) as (h1 & E1 & O2). rewrite E1. cbn [obind]. eexists _, _, []. split; [reflexivity|]. split; [|split; [|reflexivity]].
    + split; [|exact CN]. cbn [set_suites u_suites with_suites v_suites]. rewrite U, P. now apply Forall2_app.
    + unfold ucell. cbn [set_suites u_suites u_at with_suites v_suites]. rewrite U, P, scells_app by exact F1. eapply owns_perm; [exact O2|perm].
Qed.
Lemma steps_ok l : forall h u v v' ps x L, ru u v -> owns h (ucell u v ++ L) -> history v l = Some (v', ps, x) ->
  exists h' u' X, steps pick h u l = Ok (h', u', map printed ps) /\ ru u' v' /\ owns h' (ucell u' v' ++ X ++ L) /\ map snd X = map BText x.
Proof.
  induction l as [|o l IH]; intros h u v v' ps x L R O H; cbn [history] in H.
  - injection H as <- <- <-. exists h, u, []. repeat split; try apply R; apply O.
  - destruct (call v o) as [[[v1 p] x1]|] eqn:C; [|discriminate]. destruct (history v1 l) as [[[v2 ps2] x2]|] eqn:H2; [|discriminate]. injection H as <- <- <-.
    destruct (step_ok o h u v v1 p x1 L R O C) as (h1 & u1 & X1 & E1 & R1 & O1 & M1). destruct (IH h1 u1 v1 v2 ps2 x2 (X1 ++ L) R1 O1 H2) as (h2 & u2 & X2 & E2 & R2 & O2 & M2).
    cbn [steps]. rewrite E1. cbn [obind]. rewrite E2. cbn [obind]. exists h2, u2, (X1 ++ X2). split; [reflexivity|]. split; [exact R2|]. split; [eapply owns_perm; [exact O2|perm]|]. rewrite !map_app. congruence.
Qed.
Lemma init_ok : let (h, u) := unit_init pick (mkhp [] 0) in ru u new /\ owns h (ucell u new ++ []).
Proof.
  unfold unit_init. destruct (owns_new pick (mkhp [] 0) BUnit [] G owns_nil) as (a & h1 & E1 & O1). rewrite E1. split; [|exact O1]. repeat split; constructor || reflexivity || (cbn; lia).
Qed.
End P.
