(** Lemmas about slices and the building functions of zt_cstr.c. *)
From Verif Require Import Prelude CstrModel CstrSpec.
Open Scope Z_scope.

Lemma zlen_app {A} (a b : list A) : zlen (a ++ b) = zlen a + zlen b.
Proof. unfold zlen. rewrite app_length. lia. Qed.
Lemma zlen_nonneg {A} (a : list A) : 0 <= zlen a.
Proof. unfold zlen. lia. Qed.
Lemma zlen_pos {A} (a : list A) : a <> [] -> 0 < zlen a.
Proof. destruct a; [congruence|unfold zlen; cbn; lia]. Qed.

Lemma zlen_rev {A} (a : list A) : zlen (rev a) = zlen a.
Proof. unfold zlen. now rewrite rev_length. Qed.
Lemma zlen_map {A B} (f : A -> B) a : zlen (map f a) = zlen a.
Proof. unfold zlen. now rewrite map_length. Qed.

Lemma rd_ok s i : 0 <= i <= zlen s -> rd s i = Ok (nth (Z.to_nat i) (s ++ [0]) 0).
Proof.
  intros H. unfold rd, zlen in *. destruct (i <? 0) eqn:E0; [lia|].
  destruct (i <? Z.of_nat (length s)) eqn:E1.
  - rewrite app_nth1 by lia. reflexivity.
  - destruct (i =? Z.of_nat (length s)) eqn:E2; [|lia].
    rewrite app_nth2 by lia. replace (Z.to_nat i - length s)%nat with O by lia. reflexivity.
Qed.
Lemma rd_in s i : 0 <= i < zlen s -> rd s i = Ok (nth (Z.to_nat i) s 0).
Proof. intros H. rewrite rd_ok by lia. rewrite app_nth1 by (unfold zlen in *; lia). reflexivity. Qed.

Lemma at_ok s i : 0 <= i <= zlen s -> at_ s i = Ok (skipn (Z.to_nat i) s).
Proof. intros H. unfold at_. replace ((0 <=? i) && (i <=? zlen s)) with true by lia. reflexivity. Qed.

Lemma bput_ok cap acc c : zlen acc < cap -> bput cap acc c = Ok (acc ++ [c]).
Proof. intros H. unfold bput. replace (zlen acc <? cap) with true by lia. reflexivity. Qed.

Lemma CONVERT_ne s i j : s <> [] -> - zlen s <= i -> - zlen s <= j ->
  CONVERT s i j = Ok (low (zlen s) i j, high (zlen s) i j) /\
  0 <= low (zlen s) i j <= high (zlen s) i j /\ high (zlen s) i j < zlen s.
Proof.
  intros Hs Hi Hj. pose proof (zlen_pos s Hs) as Hp. unfold CONVERT, low, high, index, IDX, BASE.
  replace (0 <? zlen s) with true by lia.
  destruct (i <? 0) eqn:E1; destruct (j <? 0) eqn:E2;
  repeat match goal with |- context [if ?b then _ else _] => destruct b eqn:? end;
  cbn [obind guard];
  try (match goal with |- context [guard ?b] => replace b with true by lia end; cbn [obind guard]);
  (split; [f_equal; f_equal; lia | lia]).
Qed.
Lemma CONVERT_e i j : CONVERT [] i j = Ok (0, 0).
Proof. reflexivity. Qed.
Lemma CONVERT_bad s i j : s <> [] -> (i < - zlen s \/ j < - zlen s) -> CONVERT s i j = Abort.
Proof.
  intros Hs Hi. pose proof (zlen_pos s Hs) as Hp. unfold CONVERT, IDX, BASE.
  replace (0 <? zlen s) with true by lia.
  destruct (i <? 0) eqn:E1; destruct (j <? 0) eqn:E2;
  repeat match goal with |- context [if ?b then _ else _] => destruct b eqn:? end;
  try (match goal with |- context [guard ?b] => replace b with false by lia end; reflexivity); lia.
Qed.
Lemma IDXLEN_ok i j : i <= j -> IDXLEN i j = Ok (j - i + 1).
Proof.
  intros H. unfold IDXLEN. destruct (i <? j) eqn:E.
  - replace (0 <? j - i + 1) with true by lia. cbn. reflexivity.
  - assert (i = j) as -> by lia. replace (j - j + 1) with 1 by lia. reflexivity.
Qed.

Lemma nth_skipn_cons {A} (l : list A) i d : (i < length l)%nat -> skipn i l = nth i l d :: skipn (S i) l.
Proof.
  revert i; induction l as [|x l IH]; intros i H; cbn in H; [lia|].
  destruct i as [|i]; [reflexivity|]. cbn [skipn nth]. rewrite (IH i) by lia. reflexivity.
Qed.

Lemma copy_up_ok s j cap : forall fuel i acc,
  0 <= i <= j + 1 -> j <= zlen s -> zlen acc + (j - i + 1) <= cap -> (Z.to_nat (j - i + 1) <= fuel)%nat ->
  copy_up fuel s i j cap acc = Ok (acc ++ firstn (Z.to_nat (j - i + 1)) (skipn (Z.to_nat i) (s ++ [0]))).
Proof.
  induction fuel as [|f IH]; intros i acc Hi Hj Hc Hf; cbn [copy_up].
  - destruct (i <=? j) eqn:E; [lia|]. replace (Z.to_nat (j - i + 1)) with O by lia.
    cbn. rewrite app_nil_r. reflexivity.
  - destruct (i <=? j) eqn:E.
    + rewrite rd_ok by lia. cbn [obind]. rewrite bput_ok by lia. cbn [obind].
      rewrite IH; try lia; [|rewrite zlen_app; unfold zlen at 2; cbn [length]; lia].
      rewrite <- app_assoc. f_equal. f_equal.
      rewrite (nth_skipn_cons (s ++ [0]) (Z.to_nat i) 0) by (rewrite app_length; cbn [length]; unfold zlen in *; lia).
      replace (Z.to_nat (j - i + 1)) with (S (Z.to_nat (j - (i + 1) + 1))) by lia.
      cbn [firstn app]. f_equal. f_equal. f_equal. lia.
    + replace (Z.to_nat (j - i + 1)) with O by lia. cbn. rewrite app_nil_r. reflexivity.
Qed.

Lemma firstn_snoc_nth {A} (l : list A) k d : (k < length l)%nat -> firstn (S k) l = firstn k l ++ [nth k l d].
Proof.
  revert k; induction l as [|x l IH]; intros k H; cbn in H; [lia|].
  destruct k as [|k]; [reflexivity|]. cbn [firstn nth app]. f_equal. apply IH. lia.
Qed.

Lemma nth_skipn' {A} (l : list A) a k d : nth k (skipn a l) d = nth (a + k)%nat l d.
Proof.
  revert l; induction a as [|a IH]; intros l; [reflexivity|].
  destruct l as [|x l]; cbn [skipn Nat.add nth]; [destruct k; reflexivity|apply IH].
Qed.

Lemma copy_down_ok s i cap : forall fuel j acc,
  0 <= i <= j + 1 -> j <= zlen s -> zlen acc + (j - i + 1) <= cap -> (Z.to_nat (j - i + 1) <= fuel)%nat ->
  copy_down fuel s i j cap acc = Ok (acc ++ rev (firstn (Z.to_nat (j - i + 1)) (skipn (Z.to_nat i) (s ++ [0])))).
Proof.
  induction fuel as [|f IH]; intros j acc Hi Hj Hc Hf; cbn [copy_down].
  - destruct (i <=? j) eqn:E; [lia|]. replace (Z.to_nat (j - i + 1)) with O by lia.
    cbn. rewrite app_nil_r. reflexivity.
  - destruct (i <=? j) eqn:E.
    + rewrite rd_ok by lia. cbn [obind]. rewrite bput_ok by lia. cbn [obind].
      rewrite IH; try lia; [|rewrite zlen_app; unfold zlen at 2; cbn [length]; lia].
      rewrite <- app_assoc. f_equal. f_equal.
      replace (Z.to_nat (j - i + 1)) with (S (Z.to_nat (j - 1 - i + 1))) by lia.
      rewrite (firstn_snoc_nth _ _ 0) by (rewrite skipn_length, app_length; cbn [length]; unfold zlen in *; lia).
      rewrite rev_app_distr. cbn [rev app]. f_equal. rewrite nth_skipn'. f_equal. lia.
    + replace (Z.to_nat (j - i + 1)) with O by lia. cbn. rewrite app_nil_r. reflexivity.
Qed.

Lemma firstn_skipn_app_l {A} (s t : list A) a k : (a + k <= length s)%nat ->
  firstn k (skipn a (s ++ t)) = firstn k (skipn a s).
Proof.
  intros H. rewrite skipn_app. rewrite firstn_app. rewrite skipn_length.
  replace (k - (length s - a))%nat with O by lia. cbn. now rewrite app_nil_r.
Qed.

(** what the copy loops read from a string that is not empty *)
Lemma slice_read s i j : s <> [] -> - zlen s <= i -> - zlen s <= j ->
  firstn (Z.to_nat (high (zlen s) i j - low (zlen s) i j + 1)) (skipn (Z.to_nat (low (zlen s) i j)) (s ++ [0]))
  = slice s i j.
Proof.
  intros Hs Hi Hj. destruct (CONVERT_ne s i j Hs Hi Hj) as (_ & H1 & H2).
  unfold slice. fold (zlen s). apply firstn_skipn_app_l. unfold zlen in *. lia.
Qed.
Lemma slice_length s i j : s <> [] -> - zlen s <= i -> - zlen s <= j ->
  zlen (slice s i j) = high (zlen s) i j - low (zlen s) i j + 1.
Proof.
  intros Hs Hi Hj. destruct (CONVERT_ne s i j Hs Hi Hj) as (_ & H1 & H2).
  unfold slice. fold (zlen s). unfold zlen at 1. rewrite firstn_length, skipn_length. unfold zlen in *. lia.
Qed.
Lemma slice_nil i j : slice [] i j = [].
Proof. unfold slice. rewrite skipn_nil. apply firstn_nil. Qed.

Lemma cstr_app a b : cstr (a ++ b) <-> cstr a /\ cstr b.
Proof. apply Forall_app. Qed.
Lemma Forall_firstn' {A} (P : A -> Prop) n l : Forall P l -> Forall P (firstn n l).
Proof. intros H. revert n. induction H; intros [|n]; cbn; auto. Qed.
Lemma Forall_skipn' {A} (P : A -> Prop) n l : Forall P l -> Forall P (skipn n l).
Proof. intros H. revert n. induction H; intros [|n]; cbn; auto. Qed.
Lemma cstr_slice s i j : cstr s -> cstr (slice s i j).
Proof. intros H. unfold slice. apply Forall_firstn', Forall_skipn', H. Qed.
Lemma cstr_rev s : cstr s -> cstr (rev s).
Proof. apply Forall_rev. Qed.

Lemma cstring_app s m : cstr s -> cstring (s ++ 0 :: m) = s.
Proof.
  induction 1 as [|c s Hc Hs IH]; cbn; [reflexivity|].
  destruct (c =? 0) eqn:E; [lia|]. f_equal. exact IH.
Qed.
Lemma cstring_cstr s : cstr s -> cstring (s ++ [0]) = s.
Proof. apply cstring_app. Qed.

Lemma in_range_cases s i j : in_range s i j -> s = [] \/ (s <> [] /\ - zlen s <= i /\ - zlen s <= j).
Proof. intros [H|H]; [auto|]. destruct s; [auto|right]. split; [discriminate|exact H]. Qed.

(** *** sub, reverse, dup *)
Lemma sub_ok s i j : cstr s -> in_range s i j ->
  exists m, zt_cstr_sub s i j = Ok m /\ cstring m = slice s i j.
Proof.
  intros Hc H. apply in_range_cases in H as [->|(Hs & Hi & Hj)].
  - eexists. split; [reflexivity|]. rewrite slice_nil. reflexivity.
  - destruct (CONVERT_ne s i j Hs Hi Hj) as (E & H1 & H2). unfold zt_cstr_sub. rewrite E. cbn [obind].
    rewrite IDXLEN_ok by lia. cbn [obind].
    rewrite copy_up_ok; unfold fuel_of; try lia; [|unfold zlen at 1; cbn [length]; lia]. cbn [obind app].
    rewrite slice_read by assumption. rewrite bput_ok by (rewrite slice_length by assumption; lia).
    eexists; split; [reflexivity|]. apply cstring_cstr, cstr_slice, Hc.
Qed.
Lemma sub_exact s i j : s <> [] -> - zlen s <= i -> - zlen s <= j ->
  zt_cstr_sub s i j = Ok (slice s i j ++ [0]).
Proof.
  intros Hs Hi Hj.
  destruct (CONVERT_ne s i j Hs Hi Hj) as (E & H1 & H2). unfold zt_cstr_sub. rewrite E. cbn [obind].
  rewrite IDXLEN_ok by lia. cbn [obind].
  rewrite copy_up_ok; unfold fuel_of; try lia; [|unfold zlen at 1; cbn [length]; lia]. cbn [obind app].
  rewrite slice_read by assumption. rewrite bput_ok by (rewrite slice_length by assumption; lia). reflexivity.
Qed.
Lemma reverse_ok s i j : cstr s -> in_range s i j ->
  exists m, zt_cstr_reverse s i j = Ok m /\ cstring m = rev (slice s i j).
Proof.
  intros Hc H. apply in_range_cases in H as [->|(Hs & Hi & Hj)].
  - eexists. split; [reflexivity|]. rewrite slice_nil. reflexivity.
  - destruct (CONVERT_ne s i j Hs Hi Hj) as (E & H1 & H2). unfold zt_cstr_reverse. rewrite E. cbn [obind].
    rewrite IDXLEN_ok by lia. cbn [obind].
    rewrite copy_down_ok; unfold fuel_of; try lia; [|unfold zlen at 1; cbn [length]; lia]. cbn [obind app].
    rewrite slice_read by assumption.
    rewrite bput_ok by (rewrite zlen_rev, slice_length by assumption; lia).
    eexists; split; [reflexivity|]. apply cstring_cstr, cstr_rev, cstr_slice, Hc.
Qed.

Fixpoint ncopies {A} (n : nat) (l : list A) : list A := match n with O => [] | S k => l ++ ncopies k l end.
Lemma ncopies_length {A} n (l : list A) : zlen (ncopies n l) = Z.of_nat n * zlen l.
Proof. induction n; cbn [ncopies]; [reflexivity|]. rewrite zlen_app, IHn. lia. Qed.
Lemma ncopies_concat {A} n (l : list A) : ncopies n l = concat (repeat l n).
Proof. induction n; cbn; congruence. Qed.

Lemma dup_loop_ok s i j cap : 0 <= i <= j -> j <= zlen s -> forall n acc,
  zlen acc + Z.of_nat n * (j - i + 1) <= cap ->
  dup_loop n s i j cap acc =
    Ok (acc ++ ncopies n (firstn (Z.to_nat (j - i + 1)) (skipn (Z.to_nat i) (s ++ [0])))).
Proof.
  intros Hi Hj. induction n as [|n IH]; intros acc Hc; cbn [dup_loop ncopies].
  - now rewrite app_nil_r.
  - assert (Z.of_nat (S n) * (j - i + 1) = Z.of_nat n * (j - i + 1) + (j - i + 1)) by lia.
    assert (0 <= Z.of_nat n * (j - i + 1)) by nia.
    rewrite copy_up_ok; unfold fuel_of; try lia. cbn [obind]. rewrite IH.
    + rewrite app_assoc. reflexivity.
    + rewrite zlen_app. unfold zlen at 2. rewrite firstn_length, skipn_length, app_length. cbn [length].
      unfold zlen in *. lia.
Qed.

Lemma ncopies_zeros n : ncopies n [0] = repeat 0 n.
Proof. induction n; cbn; congruence. Qed.
Lemma cstring_zeros n m : cstring (repeat 0 n ++ 0 :: m) = [].
Proof. destruct n; reflexivity. Qed.
Lemma cstr_ncopies n s : cstr s -> cstr (ncopies n s).
Proof. intros H. induction n; cbn [ncopies]; [constructor|]. apply cstr_app; auto. Qed.

Lemma dup_ok s i j n : cstr s -> in_range s i j -> 0 <= n -> n * Z.max 1 (zlen (slice s i j)) + 1 < 2 ^ 64 ->
  exists m, zt_cstr_dup (Some s) i j n = Ok (Some m) /\
            cstring m = concat (repeat (slice s i j) (Z.to_nat n)).
Proof.
  intros Hc H Hn Hw. unfold zt_cstr_dup. replace (0 <=? n) with true by lia. cbn [obind guard].
  rewrite <- ncopies_concat.
  apply in_range_cases in H as [->|(Hs & Hi & Hj)].
  - rewrite CONVERT_e. cbn [obind]. rewrite IDXLEN_ok by lia. cbn [obind].
    rewrite slice_nil in *. change (zlen []) with 0 in Hw.
    replace ((n * (0 - 0 + 1) + 1) mod 2 ^ 64) with (n + 1) by (rewrite Z.mod_small; lia).
    change (0 <? 0 - 0 + 1) with true. cbv iota.
    rewrite dup_loop_ok; try (unfold zlen; cbn [length]; lia). cbn [obind app].
    change (Z.to_nat (0 - 0 + 1)) with 1%nat. cbn [app skipn Z.to_nat firstn].
    rewrite ncopies_zeros. rewrite bput_ok by (unfold zlen; rewrite repeat_length; lia). cbn [obind].
    eexists; split; [reflexivity|]. rewrite cstring_zeros. clear. induction (Z.to_nat n); cbn; auto.
  - destruct (CONVERT_ne s i j Hs Hi Hj) as (E & H1 & H2). rewrite E. cbn [obind].
    rewrite IDXLEN_ok by lia. cbn [obind].
    pose proof (slice_length s i j Hs Hi Hj) as HL.
    set (l := high (zlen s) i j - low (zlen s) i j + 1) in *.
    rewrite Z.mod_small by nia.
    replace (0 <? l) with true by lia.
    rewrite dup_loop_ok; try lia; [|fold l; unfold zlen at 1; cbn [length]; lia]. cbn [obind app]. fold l.
    pose proof (slice_read s i j Hs Hi Hj) as HR. fold l in HR. rewrite HR.
    rewrite bput_ok by (rewrite ncopies_length, HL, Z2Nat.id by lia; lia). cbn [obind].
    eexists; split; [reflexivity|]. apply cstring_cstr, cstr_ncopies, cstr_slice, Hc.
Qed.

(** *** cat, catv *)
(** what one argument contributes to the raw block *)
Definition piece (s : list Z) (i j : Z) : list Z := match s with [] => [0] | _ => slice s i j end.
Lemma piece_read s i j : in_range s i j -> exists a b, CONVERT s i j = Ok (a, b) /\ 0 <= a <= b /\ b <= zlen s /\
  zlen (piece s i j) = b - a + 1 /\
  firstn (Z.to_nat (b - a + 1)) (skipn (Z.to_nat a) (s ++ [0])) = piece s i j.
Proof.
  intros H. apply in_range_cases in H as [->|(Hs & Hi & Hj)].
  - exists 0, 0. repeat split; try lia; reflexivity.
  - destruct (CONVERT_ne s i j Hs Hi Hj) as (E & H1 & H2).
    exists (low (zlen s) i j), (high (zlen s) i j). repeat split; try lia; [exact E| |].
    + unfold piece. destruct s; [congruence|]. rewrite slice_length by assumption. lia.
    + rewrite slice_read by assumption. unfold piece. destruct s; congruence.
Qed.
Lemma piece_ne s i j : s <> [] -> piece s i j = slice s i j.
Proof. destruct s; [congruence|reflexivity]. Qed.

Lemma cat_raw s1 i1 j1 s2 i2 j2 : in_range s1 i1 j1 -> in_range s2 i2 j2 ->
  zt_cstr_cat s1 i1 j1 s2 i2 j2 = Ok (piece s1 i1 j1 ++ piece s2 i2 j2 ++ [0]).
Proof.
  intros H1 H2. destruct (piece_read _ _ _ H1) as (a & b & E1 & Ha & Hb & L1 & R1).
  destruct (piece_read _ _ _ H2) as (c & d & E2 & Hc & Hd & L2 & R2).
  unfold zt_cstr_cat. rewrite E1. cbn [obind]. rewrite E2. cbn [obind].
  rewrite !IDXLEN_ok by lia. cbn [obind].
  rewrite copy_up_ok; unfold fuel_of; try lia; [|unfold zlen at 1; cbn [length]; lia]. cbn [obind app]. rewrite R1.
  rewrite copy_up_ok; unfold fuel_of; try lia. cbn [obind]. rewrite R2.
  rewrite bput_ok by (rewrite zlen_app; lia). rewrite <- app_assoc. reflexivity.
Qed.

Lemma cat_ok s1 i1 j1 s2 i2 j2 : cstr s1 -> cstr s2 -> s1 <> [] -> in_range s1 i1 j1 -> in_range s2 i2 j2 ->
  exists m, zt_cstr_cat s1 i1 j1 s2 i2 j2 = Ok m /\ cstring m = slice s1 i1 j1 ++ slice s2 i2 j2.
Proof.
  intros C1 C2 N H1 H2. rewrite cat_raw by assumption. eexists; split; [reflexivity|].
  rewrite piece_ne by assumption. destruct s2 as [|c s2].
  - rewrite slice_nil, app_nil_r. cbn [piece app]. apply cstring_app, cstr_slice, C1.
  - rewrite piece_ne by discriminate. rewrite app_assoc. apply cstring_cstr, cstr_app. split; apply cstr_slice; assumption.
Qed.

Definition arg_ok (a : list Z * Z * Z) : Prop := let '(s, i, j) := a in cstr s /\ in_range s i j.
Definition apiece (a : list Z * Z * Z) : list Z := let '(s, i, j) := a in piece s i j.
Definition aslice (a : list Z * Z * Z) : list Z := let '(s, i, j) := a in slice s i j.

Lemma catv_len_ok args : Forall arg_ok args -> forall l,
  catv_len args l = Ok (l + zlen (concat (map apiece args)) + zlen args).
Proof.
  induction 1 as [|[[s i] j] r [Hc H] Hr IH]; intros l; cbn [catv_len map concat].
  - f_equal. unfold zlen; cbn [length]; lia.
  - destruct (piece_read _ _ _ H) as (a & b & E & Ha & Hb & L & _). rewrite E. cbn [obind].
    rewrite IDXLEN_ok by lia. cbn [obind]. rewrite IH. f_equal. rewrite zlen_app. 
    change (apiece (s, i, j)) with (piece s i j). rewrite L.
    assert (zlen ((s, i, j) :: r) = zlen r + 1) by (unfold zlen; cbn [length]; lia). lia.
Qed.
Lemma catv_copy_ok args cap : Forall arg_ok args -> forall acc,
  zlen acc + zlen (concat (map apiece args)) <= cap ->
  catv_copy args cap acc = Ok (acc ++ concat (map apiece args)).
Proof.
  induction 1 as [|[[s i] j] r [Hc H] Hr IH]; intros acc Hcap; cbn [catv_copy map concat] in *.
  - now rewrite app_nil_r.
  - destruct (piece_read _ _ _ H) as (a & b & E & Ha & Hb & L & R). rewrite E. cbn [obind].
    rewrite zlen_app in Hcap. unfold apiece at 1 in Hcap. pose proof (zlen_nonneg (concat (map apiece r))).
    rewrite copy_up_ok; unfold fuel_of; try lia. cbn [obind]. rewrite R.
    rewrite IH by (rewrite zlen_app; lia). rewrite <- app_assoc. reflexivity.
Qed.
Lemma catv_raw args : Forall arg_ok args -> zt_cstr_catv args = Ok (concat (map apiece args) ++ [0]).
Proof.
  intros H. unfold zt_cstr_catv. rewrite (catv_len_ok args H). cbn [obind].
  pose proof (zlen_nonneg args).
  rewrite catv_copy_ok; [|assumption|unfold zlen at 1; cbn [length]; lia]. cbn [obind app].
  apply bput_ok. lia.
Qed.
(** the visible result stops at the first empty argument *)
Fixpoint upto_empty (args : list (list Z * Z * Z)) : list (list Z * Z * Z) :=
  match args with
  | [] => []
  | (s, i, j) :: r => match s with [] => [] | _ => (s, i, j) :: upto_empty r end
  end.
Lemma cstring_app2 s m : cstr s -> cstring (s ++ m) = s ++ cstring m.
Proof. induction 1 as [|c s Hc Hs IH]; cbn; [reflexivity|]. destruct (c =? 0) eqn:E; [lia|]. now rewrite IH. Qed.
Lemma catv_ok_all args : Forall arg_ok args ->
  exists m, zt_cstr_catv args = Ok m /\ cstring m = concat (map aslice (upto_empty args)).
Proof.
  intros H. rewrite catv_raw by assumption. eexists; split; [reflexivity|].
  induction H as [|[[s i] j] r [Hc Hr] HF IH]; cbn [map concat upto_empty]; [reflexivity|].
  destruct s as [|c s]; [reflexivity|]. cbn [map concat]. rewrite <- app_assoc. unfold apiece at 1. rewrite piece_ne by discriminate.
  rewrite cstring_app2 by (apply cstr_slice; assumption). unfold aslice at 1. now rewrite IH.
Qed.
Lemma upto_empty_all args : Forall (fun a => fst (fst a) <> []) args -> upto_empty args = args.
Proof. induction 1 as [|[[s i] j] r H HF IH]; cbn in *; [reflexivity|]. destruct s; [congruence|]. now rewrite IH. Qed.
Lemma catv_ok args : Forall arg_ok args -> Forall (fun a => fst (fst a) <> []) args ->
  exists m, zt_cstr_catv args = Ok m /\ cstring m = concat (map aslice args).
Proof. intros H1 H2. destruct (catv_ok_all args H1) as (m & E & R). rewrite upto_empty_all in R by assumption. eauto. Qed.

(** *** map *)
Lemma map_fill_ok from : forall to m, length m = 256%nat -> length from = length to -> cstr from ->
  exists m', map_fill m from to = Ok m' /\ length m' = 256%nat /\
    forall c, 0 <= c -> nth (Z.to_nat c) m' 0 =
       if existsb (Z.eqb c) from then translate from to c else nth (Z.to_nat c) m 0.
Proof.
  induction from as [|f from IH]; intros [|t to] m Hm Hl Hc; cbn [length] in Hl; try discriminate.
  - exists m. cbn. auto.
  - inversion Hc as [|? ? Hf Hc']; subst.
    destruct (IH to (upd m (Z.to_nat f) t)) as (m' & E & L & S); [now rewrite upd_length|congruence|assumption|].
    exists m'. cbn [map_fill]. split; [exact E|]. split; [exact L|]. intros c Hc0. rewrite S by assumption.
    cbn [existsb translate].
    destruct (existsb (Z.eqb c) from) eqn:Ex; [rewrite orb_true_r; reflexivity|]. rewrite orb_false_r.
    assert (Hn : nth (Z.to_nat c) (upd m (Z.to_nat f) t) 0 = if c =? f then t else nth (Z.to_nat c) m 0).
    { pose proof (upd_nth_error m (Z.to_nat f) t (Z.to_nat c)) as U. rewrite Hm in U.
      destruct (c =? f) eqn:Ecf.
      - replace (Nat.eqb (Z.to_nat c) (Z.to_nat f)) with true in U by lia.
        replace (Nat.ltb (Z.to_nat f) 256) with true in U by lia. apply nth_error_nth with (d := 0) in U. exact U.
      - replace (Nat.eqb (Z.to_nat c) (Z.to_nat f)) with false in U by lia.
        clear -U. revert U. generalize (upd m (Z.to_nat f) t). generalize (Z.to_nat c). intros k l U.
        destruct (nth_error m k) eqn:E1.
        + rewrite (nth_error_nth _ _ 0 U), (nth_error_nth _ _ 0 E1). reflexivity.
        + apply nth_error_None in U, E1. rewrite !nth_overflow by assumption. reflexivity. }
    rewrite Hn. destruct (c =? f); reflexivity.
Qed.
Lemma map0_length : length map0 = 256%nat.
Proof. reflexivity. Qed.
Lemma map0_nth c : 0 <= c -> nth (Z.to_nat c) map0 0 = if c <? 226 then c else 0.
Proof.
  intros H. unfold map0. destruct (c <? 226) eqn:E.
  - rewrite app_nth1 by (rewrite map_length, seq_length; lia).
    change 0 with (Z.of_nat 0) at 1. rewrite map_nth. rewrite seq_nth by lia. lia.
  - rewrite app_nth2 by (rewrite map_length, seq_length; lia). rewrite map_length, seq_length.
    destruct (le_lt_dec 30 (Z.to_nat c - 226)).
    + apply nth_overflow. rewrite repeat_length. assumption.
    + apply nth_repeat.
Qed.
Lemma map_copy_ok m s j cap : forall fuel i acc,
  0 <= i <= j + 1 -> j <= zlen s -> zlen acc + (j - i + 1) <= cap -> (Z.to_nat (j - i + 1) <= fuel)%nat ->
  map_copy fuel m s i j cap acc =
    Ok (acc ++ map (fun c => nth (Z.to_nat c) m 0) (firstn (Z.to_nat (j - i + 1)) (skipn (Z.to_nat i) (s ++ [0])))).
Proof.
  induction fuel as [|f IH]; intros i acc Hi Hj Hc Hf; cbn [map_copy].
  - destruct (i <=? j) eqn:E; [lia|]. replace (Z.to_nat (j - i + 1)) with O by lia.
    cbn. rewrite app_nil_r. reflexivity.
  - destruct (i <=? j) eqn:E.
    + rewrite rd_ok by lia. cbn [obind]. rewrite bput_ok by lia. cbn [obind].
      rewrite IH; try lia; [|rewrite zlen_app; unfold zlen at 2; cbn [length]; lia].
      rewrite <- app_assoc. f_equal. f_equal.
      rewrite (nth_skipn_cons (s ++ [0]) (Z.to_nat i) 0) by (rewrite app_length; cbn [length]; unfold zlen in *; lia).
      replace (Z.to_nat (j - i + 1)) with (S (Z.to_nat (j - (i + 1) + 1))) by lia.
      cbn [firstn app map]. f_equal. f_equal. f_equal. f_equal. lia.
    + replace (Z.to_nat (j - i + 1)) with O by lia. cbn. rewrite app_nil_r. reflexivity.
Qed.
Lemma translate_notin from to c : existsb (Z.eqb c) from = false -> translate from to c = c.
Proof.
  revert to; induction from as [|f from IH]; intros [|t to] H; cbn in *; try reflexivity.
  apply orb_false_iff in H as [H1 H2]. rewrite H2, H1. reflexivity.
Qed.
Lemma translate_in from to c : length from = length to -> existsb (Z.eqb c) from = true -> In (translate from to c) to.
Proof.
  revert to; induction from as [|f from IH]; intros [|t to] L H; cbn in *; try discriminate.
  destruct (existsb (Z.eqb c) from) eqn:E; [right; apply IH; congruence|].
  rewrite orb_false_r in H. rewrite H. auto.
Qed.

Lemma map_ok s i j from to : cstr s -> in_range s i j -> cstr from -> cstr to -> length from = length to ->
  Forall (fun c => c < 226 \/ In c from) (slice s i j) ->
  exists m, zt_cstr_map (Some s) i j (Some from) (Some to) = Ok (Some m) /\
            cstring m = map (translate from to) (slice s i j).
Proof.
  intros Hc H Hf Ht Hl Hb. unfold zt_cstr_map.
  destruct (map_fill_ok from to map0 map0_length Hl Hf) as (tb & E & L & S). rewrite E. cbn [obind].
  destruct (piece_read _ _ _ H) as (a & b & E1 & Ha & Hb1 & L1 & R1). rewrite E1. cbn [obind].
  rewrite IDXLEN_ok by lia. cbn [obind].
  rewrite map_copy_ok; unfold fuel_of; try lia; [|unfold zlen at 1; cbn [length]; lia]. rewrite R1. cbn [obind app].
  rewrite bput_ok by (rewrite zlen_map; lia). cbn [obind].
  eexists; split; [reflexivity|].
  apply in_range_cases in H as [->|(Hs & Hi & Hj)].
  - rewrite slice_nil. cbn [piece map app]. rewrite S by lia.
    replace (existsb (Z.eqb 0) from) with false.
    + rewrite map0_nth by lia. reflexivity.
    + symmetry. apply not_true_iff_false. rewrite existsb_exists. intros (x & Hx & Hx0).
      unfold cstr in Hf. rewrite Forall_forall in Hf. specialize (Hf x Hx). lia.
  - rewrite piece_ne by assumption. pose proof (cstr_slice s i j Hc) as HC. revert Hb HC.
    generalize (slice s i j). intros sl Hb HC.
    replace (map (fun c => nth (Z.to_nat c) tb 0) sl) with (map (translate from to) sl).
    + apply cstring_cstr. unfold cstr. apply Forall_forall. intros x Hx. apply in_map_iff in Hx as (c & <- & Hin).
      destruct (existsb (Z.eqb c) from) eqn:Ex.
      * pose proof (translate_in from to c Hl Ex) as Hi2. unfold cstr in Ht. rewrite Forall_forall in Ht. auto.
      * rewrite translate_notin by assumption. unfold cstr in HC. rewrite Forall_forall in HC. auto.
    + apply map_ext_in. intros c Hin. unfold cstr in HC. rewrite Forall_forall in HC, Hb.
      specialize (HC c Hin). specialize (Hb c Hin). rewrite S by lia.
      destruct (existsb (Z.eqb c) from) eqn:Ex; [reflexivity|].
      rewrite translate_notin by assumption. rewrite map0_nth by lia.
      destruct Hb as [Hb|Hb]; [replace (c <? 226) with true by lia; reflexivity|].
      exfalso. apply not_true_iff_false in Ex. apply Ex. apply existsb_exists. exists c. split; [assumption|lia].
Qed.

(** *** pos, len, copy *)
Lemma pos_ok s i : s <> [] -> - zlen s <= i -> zt_cstr_pos s i = Ok (index (zlen s) i).
Proof.
  intros Hs Hi. pose proof (zlen_pos s Hs). unfold zt_cstr_pos, IDX, BASE, index.
  destruct (i <? 0) eqn:E1; repeat match goal with |- context [if ?b then _ else _] => destruct b eqn:? end;
  match goal with |- context [guard ?b] => replace b with true by lia end; cbn [guard obind]; f_equal; lia.
Qed.
Lemma len_ok s i j : s <> [] -> in_range s i j -> zt_cstr_len s i j = Ok (zlen (slice s i j)).
Proof.
  intros Hs H. apply in_range_cases in H as [->|(_ & Hi & Hj)]; [congruence|].
  destruct (CONVERT_ne s i j Hs Hi Hj) as (E & H1 & H2). unfold zt_cstr_len. rewrite E. cbn [obind].
  rewrite IDXLEN_ok by lia. rewrite slice_length by assumption. reflexivity.
Qed.

Lemma memcpy_ok to src n : 0 <= n -> n <= zlen to -> n <= zlen src ->
  memcpy to src n = Ok (firstn (Z.to_nat n) src ++ skipn (Z.to_nat n) to).
Proof. intros. unfold memcpy. replace ((n <=? zlen to) && (n <=? zlen src)) with true by lia. reflexivity. Qed.

Lemma copy_ok s i j to len : in_range s i j -> 0 <= len <= zlen to ->
  zt_cstr_copy s i j to len = Ok (Z.min (zlen (piece s i j)) len,
     firstn (Z.to_nat len) (piece s i j) ++ skipn (Z.to_nat (Z.min (zlen (piece s i j)) len)) to).
Proof.
  intros H Hl. destruct (piece_read _ _ _ H) as (a & b & E1 & Ha & Hb1 & L1 & R1).
  unfold zt_cstr_copy. rewrite E1. cbn [obind]. rewrite IDXLEN_ok by lia. cbn [obind].
  rewrite memcpy_ok; try lia.
  - cbn [obind]. f_equal. f_equal; [lia|]. f_equal; [|f_equal; lia].
    rewrite <- R1. rewrite firstn_firstn. f_equal. lia.
  - unfold zlen in *. rewrite skipn_length. unfold NUL. rewrite app_length. cbn [length]. lia.
Qed.
