(** Reading zt_unit's reports back (C75). *)
From Coq Require Import Ascii String.
From Verif Require Import Prelude CstrSpec LogSpec UrepModel UrepSpec UrepProofs.
Local Open Scope Z_scope.
Local Open Scope list_scope.

Definition line (t : text) : Prop := ~ In 10 t.
Lemma line_app a b : line a -> line b -> line (a ++ b).
Proof. unfold line. rewrite in_app_iff. tauto. Qed.
Lemma line_blanks n : line (blanks n).
Proof. unfold line, blanks. intros H. apply repeat_spec in H. discriminate. Qed.
Lemma digits_range f : forall n, 0 <= n -> Forall (fun c => 48 <= c <= 57) (digits f n).
Proof.
  induction f as [|f IH]; intros n H; cbn [digits]; [constructor|]. destruct (Z.ltb_spec n 10); [repeat constructor; lia|].
  apply Forall_app. split; [apply IH, Z.div_pos; lia|]. pose proof (Z.mod_pos_bound n 10). repeat constructor; lia.
Qed.
Lemma digits_end f n : 0 <= n -> exists l c, digits (S f) n = l ++ [c] /\ 48 <= c <= 57.
Proof.
  intros H. cbn [digits]. destruct (Z.ltb_spec n 10); [exists [], (48 + n); split; [reflexivity|lia]|]. pose proof (Z.mod_pos_bound n 10). eexists _, _. split; [reflexivity|lia].
Qed.
Lemma decimal_line n : line (decimal n).
Proof.
  unfold line, decimal. destruct (Z.ltb_spec n 0).
  - intros [E|I]; [discriminate|]. pose proof (digits_range (S (Z.to_nat (Z.log2 (- n)))) (- n) ltac:(lia)) as F. rewrite Forall_forall in F. specialize (F _ I). lia.
  - intros I. pose proof (digits_range (S (Z.to_nat (Z.log2 n))) n ltac:(lia)) as F. rewrite Forall_forall in F. specialize (F _ I). lia.
Qed.
Lemma decimal_end n : exists l c, decimal n = l ++ [c] /\ 48 <= c <= 57.
Proof.
  unfold decimal. destruct (Z.ltb_spec n 0).
  - destruct (digits_end (Z.to_nat (Z.log2 (- n))) (- n) ltac:(lia)) as (l & c & E & B). rewrite E. exists (45 :: l), c. split; [reflexivity|exact B].
  - apply digits_end. lia.
Qed.
Lemma line_heading c n : line n -> line (heading c n).
Proof. intros. unfold heading. repeat apply line_app; try assumption; [apply line_blanks|]. unfold line. cbn. intros [E|[]]. discriminate. Qed.
Lemma line_entry c n v : line n -> line v -> line (entry c n v).
Proof. intros. unfold entry. cbv zeta. repeat apply line_app; try assumption; try apply line_blanks. unfold line. cbn. intros [E|[E|[]]]; discriminate. Qed.
Lemma line_bullet c n : line n -> line (bullet c n).
Proof. intros. unfold bullet. repeat apply line_app; try assumption; try apply line_blanks. unfold line. cbn. intros [E|[E|[]]]; discriminate. Qed.
Lemma line_str s : existsb (Z.eqb 10) (str s) = false -> line (str s).
Proof. unfold line. intros H I. assert (X : existsb (Z.eqb 10) (str s) = true) by (apply existsb_exists; exists 10; split; [exact I|reflexivity]). congruence. Qed.
Lemma line_quotes t : line t -> line (in_quotes t).
Proof. intros. unfold in_quotes. repeat apply line_app; try assumption; apply line_str; reflexivity. Qed.

(** ** Clean units *)
Definition clean_body (l : list act) : Prop := forall a m, In a l -> In m (text_of a) -> line m.
Definition clean_t (t : vtest) : Prop := line (v_name t) /\ clean_body (v_body t) /\ (forall e, v_error t = Some e -> line e).
Definition clean_s (s : vsuite) : Prop := line (v_title s) /\ Forall clean_t (v_tests s).
Definition clean (u : vunit) : Prop := Forall clean_s (v_suites u).
Lemma executed_in l a : In a (executed l) -> In a l.
Proof. induction l as [|b l IH]; cbn [executed]; [tauto|]. destruct (stops b); cbn [In]; tauto. Qed.
Lemma texts_clean l m : clean_body l -> In m (texts l) -> line m.
Proof. intros C I. unfold texts in I. apply in_flat_map in I. destruct I as (a & I & J). eapply C; [apply executed_in, I|exact J]. Qed.
Lemma last_in l e : last_of l = Some e -> In e l.
Proof. unfold last_of. destruct (rev l) eqn:E; [discriminate|]. intros [= <-]. apply in_rev. rewrite E. now left. Qed.
Lemma clean_ran t : clean_t t -> clean_t (ran t).
Proof.
  intros (A & B & C). repeat split; [exact A|exact B|]. cbn [ran v_error]. intros e E. apply last_in, in_app_iff in E. destruct E as [E|E]; [|now apply (texts_clean (v_body t))].
  unfold kept in E. destruct (v_error t) as [e'|]; [|destruct E]. destruct E as [<-|[]]. now apply C.
Qed.
Lemma clean_sran s : clean_s s -> clean_s (suite_ran s).
Proof. intros (A & B). split; [exact A|]. cbn [suite_ran v_tests]. apply Forall_map. eapply Forall_impl; [|exact B]. apply clean_ran. Qed.
Lemma F_replaced {A} (P : A -> Prop) l i x : Forall P l -> P x -> Forall P (replaced l i x).
Proof.
  intros F X. unfold replaced. apply Forall_app. rewrite <- (firstn_skipn i l) in F. apply Forall_app in F. destruct F as (F1 & F2). split; [exact F1|]. constructor; [exact X|].
  rewrite <- (firstn_skipn 1 (skipn i l)) in F2. apply Forall_app in F2. destruct F2 as (_ & F2). rewrite skipn_skipn in F2. replace (S i) with (i + 1)%nat by lia. exact F2.
Qed.
Lemma F_without {A} (P : A -> Prop) l i : Forall P l -> Forall P (without l i).
Proof.
  intros F. unfold without. apply Forall_app. rewrite <- (firstn_skipn i l) in F. apply Forall_app in F. destruct F as (F1 & F2). split; [exact F1|].
  rewrite <- (firstn_skipn 1 (skipn i l)) in F2. apply Forall_app in F2. destruct F2 as (_ & F2). rewrite skipn_skipn in F2. replace (S i) with (i + 1)%nat by lia. exact F2.
Qed.
Lemma F_nth {A} (P : A -> Prop) l i x : Forall P l -> nth_error l i = Some x -> P x.
Proof. intros F E. rewrite Forall_forall in F. apply F. eapply nth_error_In, E. Qed.
Definition clean_op (o : op) : Prop :=
  match o with RegSuite n => line n | RegTest _ n body => line n /\ clean_body body | _ => True end.
Lemma clean_call u o u' p x : clean u -> clean_op o -> call u o = Some (u', p, x) -> clean u'.
Proof.
  unfold clean. intros C D E. destruct o as [name|i name body| |i|i j| |i j|i]; cbn [call] in E.
  - assert (X : with_suites u (v_suites u ++ [mkvs name [] 0 0]) = u') by congruence. subst u'. cbn. apply Forall_app. split; [exact C|]. repeat constructor. exact D.
  - destruct (nth_error (v_suites u) i) as [s|] eqn:N; [|discriminate]. pose proof (F_nth _ _ _ _ C N) as (S1 & S2). match type of E with Some (?a, _, _) = _ => assert (X : a = u') by congruence end. subst u'. cbn. apply F_replaced; [exact C|]. split; [exact S1|]. cbn. apply Forall_app. split; [exact S2|]. destruct D. repeat constructor; try assumption. discriminate.
  - cbv zeta in E. assert (X : all_ran u = u') by congruence. subst u'. cbn. apply Forall_map. eapply Forall_impl; [|exact C]. apply clean_sran.
  - destruct (nth_error (v_suites u) i) as [s|] eqn:N; [|discriminate]. pose proof (F_nth _ _ _ _ C N) as S1. cbv zeta in E. match type of E with Some (?a, _, _) = _ => assert (X : a = u') by congruence end. subst u'. cbn. apply F_replaced; [exact C|]. now apply clean_sran.
  - destruct (nth_error (v_suites u) i) as [s|] eqn:N; [|discriminate]. pose proof (F_nth _ _ _ _ C N) as (S1 & S2). destruct (nth_error (v_tests s) j) as [t|] eqn:N2; [|discriminate]. pose proof (F_nth _ _ _ _ S2 N2) as T. cbv zeta in E. match type of E with Some (?a, _, _) = _ => assert (X : a = u') by congruence end. subst u'. cbn. apply F_replaced; [exact C|]. split; [exact S1|]. cbn. apply F_replaced; [exact S2|]. now apply clean_ran.
  - assert (X : u = u') by congruence. now subst u'.
  - destruct (nth_error (v_suites u) i) as [s|] eqn:N; [|discriminate]. pose proof (F_nth _ _ _ _ C N) as (S1 & S2). destruct (nth_error (v_tests s) j) as [t|] eqn:N2; [|discriminate]. match type of E with Some (?a, _, _) = _ => assert (X : a = u') by congruence end. subst u'. cbn. apply F_replaced; [exact C|]. split; [exact S1|]. cbn. now apply F_without.
  - destruct (nth_error (v_suites u) i) as [s|] eqn:N; [|discriminate]. match type of E with Some (?a, _, _) = _ => assert (X : a = u') by congruence end. subst u'. cbn. now apply F_without.
Qed.
Lemma clean_history l : forall u u' p x, clean u -> Forall clean_op l -> history u l = Some (u', p, x) -> clean u'.
Proof.
  induction l as [|o l IH]; intros u u' p x C F H; cbn [history] in H; [congruence|]. inversion F as [|? ? D1 D2]; subst. destruct (call u o) as [[[u1 p1] x1]|] eqn:E; [|discriminate]. destruct (history u1 l) as [[[u2 p2] x2]|] eqn:HH; [|discriminate].
  assert (X : u2 = u') by congruence. subst u2. eapply IH; [|eassumption|exact HH]. eapply clean_call; eassumption.
Qed.

(** ** Splitting *)
Lemma split_one x r : line x -> split_lines ((x ++ [10]) ++ r) = x :: split_lines r.
Proof.
  rewrite <- app_assoc. induction x as [|c x IH]; intros L; cbn [app split_lines]; [reflexivity|]. unfold line in L. cbn [In] in L.
  destruct (Z.eqb_spec c 10) as [->|N]; [tauto|]. cbn [app] in IH. rewrite IH by (unfold line; tauto). reflexivity.
Qed.
Lemma split_printed l : Forall line l -> split_lines (printed l) = l.
Proof. induction 1; [reflexivity|]. rewrite printed_cons, split_one by assumption. now rewrite IHForall. Qed.
Lemma lines_test t : clean_t t -> Forall line (test_lines t).
Proof.
  intros (A & _). unfold test_lines. rewrite !Forall_app. repeat split.
  - repeat constructor; [now apply line_heading|]. apply line_entry; [apply line_str; reflexivity|apply decimal_line].
  - destruct (_ =? 0); repeat constructor. apply line_entry; [apply line_str; reflexivity|apply decimal_line].
  - repeat constructor. apply line_entry; [|destruct (passed t)]; apply line_str; reflexivity.
Qed.
Lemma lines_suite s : clean_s s -> Forall line (suite_lines s).
Proof.
  intros (A & B). unfold suite_lines. rewrite !Forall_app. repeat split.
  - repeat constructor; [apply line_str; reflexivity|now apply line_heading|apply line_heading, line_str; reflexivity].
  - apply Forall_flat_map. eapply Forall_impl; [|exact B]. apply lines_test.
  - destruct (_ =? 0); constructor; [apply line_heading, line_str; reflexivity|]. apply Forall_map. apply Forall_forall. intros t I. apply filter_In in I. destruct I as (I & _). rewrite Forall_forall in B. destruct (B t I) as (T1 & _ & T2).
    unfold error_line. apply line_entry; [exact T1|]. apply line_quotes. destruct (v_error t) as [e|]; [now apply T2|apply line_str; reflexivity].
Qed.
Lemma lines_stat u : clean u -> Forall line (stat_lines u).
Proof.
  intros C. unfold stat_lines. apply Forall_app. split.
  - repeat apply Forall_cons; try apply Forall_nil; try (apply line_entry; [apply line_str; reflexivity|apply decimal_line]); try (apply line_str; reflexivity); try (intros []; fail). apply line_heading, line_str; reflexivity.
  - destruct (_ =? 0); constructor; [apply line_heading, line_str; reflexivity|]. apply Forall_flat_map. eapply Forall_impl; [|exact C]. intros s (_ & B). cbv beta. destruct (_ =? 0); constructor || (apply Forall_map, Forall_forall; intros t I).
    apply filter_In in I. destruct I as (I & _). rewrite Forall_forall in B. destruct (B t I) as (T1 & _ & T2). now apply line_bullet.
Qed.

(** ** Verdicts *)
Definition other (x : text) : Prop := x <> str "      result                  : success" /\ x <> str "      result                  : failure".
Lemma v_other x r cur : other x -> verdicts cur (x :: r) = verdicts (match heads x with Some n => n | None => cur end) r.
Proof. intros (A & B). cbn [verdicts]. destruct (text_dec x _); [contradiction|]. destruct (text_dec x _); [contradiction|reflexivity]. Qed.
Lemma other_end l c : c <> 115 -> c <> 101 -> other (l ++ [c]).
Proof. intros A B. split; intros E; apply (f_equal (fun l => last l 0)) in E; rewrite last_last in E; vm_compute in E; congruence. Qed.
Lemma heads_end l c : c <> 58 -> heads (l ++ [c]) = None.
Proof.
  intros N. unfold heads. destruct (text_dec _ _); [|reflexivity]. destruct (Nat.le_gt_cases 4 (List.length l)) as [G|G].
  - rewrite skipn_app. replace (4 - List.length l)%nat with O by lia. cbn [skipn]. rewrite rev_app_distr. cbn [rev app]. destruct (Z.eqb_spec c 58); [contradiction|reflexivity].
  - destruct (rev (skipn 4 (l ++ [c]))) eqn:E; [reflexivity|]. assert (L : List.length (rev (skipn 4 (l ++ [c]))) = O) by (rewrite rev_length, skipn_length, app_length; cbn [List.length]; lia). rewrite E in L. discriminate.
Qed.
Lemma heading_end c n : exists l, heading c n = l ++ [58].
Proof. unfold heading. exists (blanks c ++ n). now rewrite <- app_assoc. Qed.
Lemma entry_end c n v l d : v = l ++ [d] -> exists l', entry c n v = l' ++ [d].
Proof.
  intros ->. assert (X : forall a b e f g : text, a ++ b ++ e ++ f ++ g ++ [d] = (a ++ b ++ e ++ f ++ g) ++ [d]) by (intros; now rewrite <- !app_assoc).
  unfold entry. cbv zeta. eexists. apply X.
Qed.
Lemma other_heading c n : other (heading c n).
Proof. destruct (heading_end c n) as (l & E). rewrite E. apply other_end; discriminate. Qed.
Lemma v_heading c n r cur : exists cur', verdicts cur (heading c n :: r) = verdicts cur' r.
Proof. destruct (heading_end c n) as (l & E). rewrite v_other; [eauto|]. rewrite E. apply other_end; discriminate. Qed.
Lemma v_heading4 n r cur : verdicts cur (heading 4 n :: r) = verdicts n r.
Proof.
  destruct (heading_end 4 n) as (l & E). rewrite v_other by (rewrite E; apply other_end; discriminate). replace (heads (heading 4 n)) with (Some n); [reflexivity|].
  unfold heads, heading. change (blanks 4) with [32; 32; 32; 32]. cbn [app firstn skipn]. destruct (text_dec _ _) as [_|N]; [|now elim N]. rewrite rev_app_distr. cbn [str rev app]. cbn. now rewrite rev_involutive.
Qed.
Lemma v_number c n k r cur : verdicts cur (entry c n (decimal k) :: r) = verdicts cur r.
Proof.
  destruct (decimal_end k) as (l & d & E & B). destruct (entry_end c n _ _ _ E) as (l' & E'). rewrite E', v_other by (apply other_end; lia). rewrite heads_end by lia. reflexivity.
Qed.
Lemma v_error_line t r cur : verdicts cur (error_line t :: r) = verdicts cur r.
Proof.
  unfold error_line. destruct (entry_end 4 (v_name t) (in_quotes match v_error t with Some e => e | None => str "No Error Text" end) (str "'" ++ match v_error t with Some e => e | None => str "No Error Text" end) 39) as (l' & E').
  { unfold in_quotes. now rewrite <- app_assoc. }
  rewrite E', v_other by (apply other_end; discriminate). now rewrite heads_end by discriminate.
Qed.
Lemma v_bullet n r cur : exists cur', verdicts cur (bullet 4 n :: r) = verdicts cur' r.
Proof. rewrite v_other; [eauto|]. split; intros E; apply (f_equal (fun l => nth 4 l 0)) in E; discriminate. Qed.
Lemma v_test t r cur : verdicts cur (test_lines t ++ r) = (v_name t, passed t) :: verdicts (v_name t) r.
Proof.
  unfold test_lines. rewrite <- !app_assoc. cbn [app]. rewrite v_heading4, v_number.
  assert (X : forall b, verdicts (v_name t) ([entry 6 (str "result") (str (if b : bool then "success" else "failure"))] ++ r) = (v_name t, b) :: verdicts (v_name t) r).
  { intros [|]; cbn [app].
    - change (entry 6 (str "result") (str "success")) with (str "      result                  : success"). cbn [verdicts]. destruct (text_dec _ _) as [_|N]; [reflexivity|now elim N].
    - change (entry 6 (str "result") (str "failure")) with (str "      result                  : failure"). cbn [verdicts]. destruct (text_dec _ _) as [E|_]; [discriminate|]. destruct (text_dec _ _) as [_|N]; [reflexivity|now elim N]. }
  destruct (_ =? 0); cbn [app]; [apply X|]. rewrite v_number. apply X.
Qed.
Lemma v_tests_ l : forall r cur, exists cur', verdicts cur (flat_map test_lines l ++ r) = map (fun t => (v_name t, passed t)) l ++ verdicts cur' r.
Proof.
  induction l as [|t l IH]; intros r cur; cbn [flat_map map app]; [eauto|]. rewrite <- app_assoc, v_test. destruct (IH r (v_name t)) as (cur' & E). exists cur'. now rewrite E.
Qed.
Lemma v_errors l : forall r cur, verdicts cur (map error_line l ++ r) = verdicts cur r.
Proof. induction l as [|t l IH]; intros r cur; cbn [map app]; [reflexivity|]. now rewrite v_error_line, IH. Qed.
Lemma v_bullets {A} (f : A -> text) l : forall r cur, exists cur', verdicts cur (map (fun t => bullet 4 (f t)) l ++ r) = verdicts cur' r.
Proof. induction l as [|t l IH]; intros r cur; cbn [map app]; [eauto|]. destruct (v_bullet (f t) (map (fun t => bullet 4 (f t)) l ++ r) cur) as (c1 & ->). apply IH. Qed.
Lemma v_dashes r cur : verdicts cur (str "---" :: r) = verdicts cur r.
Proof. rewrite v_other; [reflexivity|]. split; discriminate. Qed.
Lemma v_suite s r cur : exists cur', verdicts cur (suite_lines s ++ r) = map (fun t => (v_name t, passed t)) (v_tests s) ++ verdicts cur' r.
Proof.
  unfold suite_lines. rewrite <- !app_assoc. set (tail := (if _ =? 0 then _ else _) ++ r).
  assert (T : forall c, exists c', verdicts c tail = verdicts c' r).
  { intros c. unfold tail. destruct (_ =? 0); [exists c; reflexivity|]. cbn [app]. destruct (v_heading 2 (str "Errors") (map error_line (filter fails (v_tests s)) ++ r) c) as (c4 & ->). rewrite v_errors. eauto. }
  clearbody tail. change ([str "---"; heading 0 (v_title s); heading 2 (str "Tests")] ++ flat_map test_lines (v_tests s) ++ tail) with (str "---" :: heading 0 (v_title s) :: heading 2 (str "Tests") :: flat_map test_lines (v_tests s) ++ tail).
  rewrite v_dashes. destruct (v_heading 0 (v_title s) (heading 2 (str "Tests") :: flat_map test_lines (v_tests s) ++ tail) cur) as (c1 & ->).
  destruct (v_heading 2 (str "Tests") (flat_map test_lines (v_tests s) ++ tail) c1) as (c2 & ->).
  destruct (v_tests_ (v_tests s) tail c2) as (c3 & ->). destruct (T c3) as (c4 & ->). eauto.
Qed.
Lemma v_suites_ l : forall r cur, exists cur', verdicts cur (flat_map suite_lines l ++ r) = map (fun t => (v_name t, passed t)) (flat_map v_tests l) ++ verdicts cur' r.
Proof.
  induction l as [|s l IH]; intros r cur; cbn [flat_map map app]; [eauto|]. rewrite <- app_assoc. destruct (v_suite s (flat_map suite_lines l ++ r) cur) as (c1 & ->). destruct (IH r c1) as (c2 & ->). exists c2. now rewrite map_app, <- app_assoc.
Qed.
Lemma v_stat u cur : verdicts cur (stat_lines u) = [].
Proof.
  unfold stat_lines. cbn [app]. rewrite v_other by (split; discriminate). cbn [heads]. rewrite v_dashes.
  rewrite v_other by apply other_heading. rewrite !v_number.
  destruct (_ =? 0); [reflexivity|]. rewrite v_other by apply other_heading.
  match goal with |- verdicts ?c _ = _ => generalize c end. generalize (v_suites u). intros l. induction l as [|s l IH]; intros c; cbn [flat_map]; [reflexivity|]. destruct (_ =? 0); cbn [app]; [apply IH|]. destruct (v_bullets v_name (filter hollow (v_tests s)) (flat_map (fun s => if v_empties s =? 0 then [] else map (fun t => bullet 4 (v_name t)) (filter hollow (v_tests s))) l) c) as (c3 & ->). apply IH.
Qed.

(** ** Quotes *)
Lemma inside_cons c r : c <> 39 -> inside (c :: r) = match inside r with Some t => Some (c :: t) | None => None end.
Proof. intros N. cbn [inside]. destruct (Z.eqb_spec c 39); [contradiction|reflexivity]. Qed.
Lemma inside_plain e r : ~ In 39 e -> inside (e ++ 39 :: r) = match inside (39 :: r) with Some t => Some (e ++ t) | None => None end.
Proof.
  induction e as [|c e IH]; intros N; [cbn [app]; now destruct (inside (39 :: r))|]. cbn [In] in N. change ((c :: e) ++ 39 :: r) with (c :: (e ++ 39 :: r)). rewrite inside_cons, IH by (intros ->; tauto) || tauto. destruct (inside (39 :: r)); reflexivity.
Qed.
Lemma inside_len : forall n l t, (List.length l <= n)%nat -> inside l = Some t -> (List.length t < List.length l)%nat /\ (forall e, l = e ++ [39] -> In 39 e -> (List.length t < List.length e)%nat).
Proof.
  induction n as [|n IH]; intros l t LE E; [destruct l; [discriminate|cbn in LE; lia]|]. destruct l as [|c r]; [discriminate|]. cbn [inside] in E. cbn [List.length] in LE |- *. destruct (Z.eqb_spec c 39) as [->|NC].
  - destruct r as [|d q]; [assert (t = []) by congruence; subst; cbn; split; [lia|]; intros e X I; destruct e as [|a [|b e]]; [destruct I|discriminate|discriminate]|]. destruct (Z.eqb_spec d 39) as [->|ND]; [|discriminate]. destruct (inside q) as [t'|] eqn:EQ; [|discriminate]. assert (X : t = 39 :: t') by congruence. subst t.
    destruct (IH q t' ltac:(cbn [List.length] in LE; lia) EQ) as (B1 & B2). cbn [List.length]. split; [lia|]. intros e X I. assert (LL : S (S (List.length q)) = (List.length e + 1)%nat) by (apply (f_equal (@List.length Z)) in X; rewrite app_length in X; cbn [List.length] in X; lia). lia.
  - destruct (inside r) as [t'|] eqn:EQ; [|discriminate]. assert (X : t = c :: t') by congruence. subst t. destruct (IH r t' ltac:(lia) EQ) as (B1 & B2). cbn [List.length]. split; [lia|].
    intros [|a e] X I; [destruct I|]. cbn [app] in X. assert (a = c /\ r = e ++ [39]) as (-> & X2) by (split; congruence). destruct I as [I|I]; [contradiction|]. specialize (B2 e X2 I). cbn [List.length]. lia.
Qed.
Lemma unquote_iff e : unquote (in_quotes e) = Some e <-> ~ In 39 e.
Proof.
  unfold in_quotes. change (str "'") with [39]. cbn [app unquote]. split.
  - intros H I. change (39 =? 39) with true in H. cbv iota in H. destruct (inside_len _ _ _ (le_n _) H) as (_ & B). specialize (B e eq_refl I). lia.
  - intros N. change (39 =? 39) with true. cbv iota. rewrite (inside_plain e [] N). cbn. now rewrite app_nil_r.
Qed.
