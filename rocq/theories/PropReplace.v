(** C54: asprintf and vasprintf.  C55: vsyslog.  C56: basename (the replacements for C libraries that lack them). *)
From Verif Require Import Prelude CstrModel CstrSpec CstrProofs ReplaceModel.
Local Open Scope Z_scope.

(** ** C54 *)
(** a heap whose block numbers were handed out one after the other *)
Definition wf (m : mem) : Prop := Forall (fun b => (fst b < next m)%nat) (blocks m).
(** there is memory, and the text fits: either the first text is below 128 characters, or it is longer (below INT_MAX) and the text printed the second time is not longer than it *)
Definition prints (g1 g2 : bool) (t1 t2 : option (list Z)) (t : list Z) : Prop :=
  g1 = true /\ (t1 = Some t /\ zlen t < 128 \/
    exists u, t1 = Some u /\ 128 <= zlen u < 2147483647 /\ g2 = true /\ t2 = Some t /\ zlen t <= zlen u).

Lemma fresh_length junk n : 0 <= n -> zlen (fresh junk n) = n.
Proof. intros H. unfold zlen, fresh. rewrite map_length, seq_length. lia. Qed.
Lemma without_head p b l n : Forall (fun x => (fst x < p)%nat) l -> without (mkmem ((p, b) :: l) n) p = l.
Proof.
  intros F. unfold without. cbn [blocks filter fst]. rewrite Nat.eqb_refl. cbn [negb]. induction l as [|x l IH]; [reflexivity|]. inversion F; subst. cbn [filter].
  replace ((fst x =? p)%nat) with false by lia. cbn [negb]. now rewrite IH.
Qed.
Lemma block_head p b l n : block_of (mkmem ((p, b) :: l) n) p = Some b.
Proof. unfold block_of. cbn [blocks find fst]. now rewrite Nat.eqb_refl. Qed.
Lemma vsnprintf_ok p b l n size t : Forall (fun x => (fst x < p)%nat) l -> 0 < size <= zlen b -> zlen t <= 2147483647 ->
  exists b', vsnprintf (mkmem ((p, b) :: l) n) p size (Some t) = Ok (zlen t, mkmem ((p, b') :: l) n) /\ zlen b' = zlen b /\ (zlen t < size -> exists r, b' = t ++ 0 :: r).
Proof.
  intros F S T. unfold vsnprintf. rewrite block_head, without_head by exact F. unfold INT_MAX. replace (2147483647 <? zlen t) with false by lia. cbv zeta.
  set (w := firstn (Z.to_nat (size - 1)) t ++ [0]). assert (W : zlen w <= size) by (unfold w, zlen; rewrite app_length, firstn_length; cbn [length]; lia).
  replace (zlen w <=? zlen b) with true by lia. eexists. split; [reflexivity|]. split; [unfold zlen in *; rewrite app_length, skipn_length; lia|].
  intros L. exists (skipn (length w) b). unfold w. rewrite firstn_all2 by (unfold zlen in L; lia). now rewrite <- app_assoc.
Qed.
Lemma vsnprintf_bad p b l n size t : (forall u, t = Some u -> 2147483647 < zlen u) -> vsnprintf (mkmem ((p, b) :: l) n) p size t = Ok (-1, mkmem ((p, b) :: l) n).
Proof. intros H. unfold vsnprintf. rewrite block_head. destruct t as [u|]; [|reflexivity]. specialize (H u eq_refl). unfold INT_MAX. now replace (2147483647 <? zlen u) with true by lia. Qed.

(** Success: *str is a new block that holds the text and a NUL, the result is its length, every other block is as before.
    Failure: -1, *str is NULL, errno is ENOMEM and nothing is left allocated.  Success happens exactly when [prints]. *)
Theorem C54_vasprintf : forall junk m g1 g2 t1 t2, wf m -> exists a, vasprintf junk m g1 g2 t1 t2 = Ok a /\
  ((exists t p rest, prints g1 g2 t1 t2 t /\ ret a = zlen t /\ str a = Some p /\ enomem a = false /\ ~ In p (map fst (blocks m)) /\ blocks (heap a) = (p, t ++ 0 :: rest) :: blocks m) \/
   ((forall t, ~ prints g1 g2 t1 t2 t) /\ ret a = -1 /\ str a = None /\ enomem a = true /\ blocks (heap a) = blocks m)).
Proof.
  intros junk [l n] g1 g2 t1 t2 W. unfold wf in W. cbn [blocks next] in *. unfold vasprintf, malloc. cbn [next blocks].
  destruct g1; [|eexists; split; [reflexivity|]; right; split; [intros t (G & _); discriminate|]; cbn; auto 10].
  assert (NI : ~ In n (map fst l)). { intros J. apply in_map_iff in J. destruct J as (x & E & J). rewrite Forall_forall in W. apply W in J. lia. }
  assert (W2 : Forall (fun x => (fst x < S n)%nat) l) by (eapply Forall_impl; [|exact W]; intros ? ?; cbv beta in *; lia).
  assert (NI2 : ~ In (S n) (map fst l)). { intros J. apply in_map_iff in J. destruct J as (x & E & J). rewrite Forall_forall in W. apply W in J. lia. }
  assert (FR : forall b k, free (mkmem ((n, b) :: l) k) n = Ok (mkmem l k)) by (intros b k; unfold free; rewrite block_head, without_head by exact W; reflexivity).
  assert (FR2 : forall b k, free (mkmem ((S n, b) :: l) k) (S n) = Ok (mkmem l k)) by (intros b k; unfold free; rewrite block_head, without_head by exact W2; reflexivity).
  assert (L0 : zlen (fresh junk INIT_SZ) = 128) by (apply fresh_length; unfold INIT_SZ; lia).
  destruct (match t1 with Some u => zlen u <=? 2147483647 | None => false end) eqn:B1.
  - destruct t1 as [u|]; [|discriminate]. destruct (vsnprintf_ok n (fresh junk INIT_SZ) l (S n) 128 u W ltac:(lia) ltac:(lia)) as (b' & E & Lb & T). unfold INIT_SZ in E |- *. rewrite E. cbn [obind].
    pose proof (zlen_nonneg u). destruct (Z.ltb_spec (zlen u) 128) as [S1|S1].
    + replace ((0 <=? zlen u) && true) with true by lia. destruct (T S1) as (r & ->). eexists. split; [reflexivity|]. left. exists u, n, r. cbn [ret str enomem heap blocks]. unfold prints. auto 10.
    + replace ((0 <=? zlen u) && false) with false by lia. unfold INT_MAX. destruct (Z.eqb_spec (zlen u) 2147483647) as [S2|S2].
      * cbn [orb]. rewrite FR. cbn [obind]. eexists. split; [reflexivity|]. right. split; [|cbn; auto 10]. intros t (_ & [(X & Y)|(u' & X & Y & _)]); [assert (u = t) by congruence; subst; lia|assert (u = u') by congruence; subst; lia].
      * replace (false || (zlen u <? 0)) with false by lia. cbv zeta. unfold realloc. rewrite block_head. destruct g2.
        2:{ cbn [obind]. rewrite FR. cbn [obind]. eexists. split; [reflexivity|]. right. split; [|cbn; auto 10]. intros t (_ & [(X & Y)|(u' & X & Y & Z & _)]); [assert (u = t) by congruence; subst; lia|discriminate]. }
        cbn [obind next]. rewrite without_head by exact W.
        set (b2 := firstn (Z.to_nat (zlen u + 1)) b' ++ fresh junk (zlen u + 1 - zlen b')).
        assert (L2 : zlen b2 = zlen u + 1). { unfold b2. rewrite zlen_app, fresh_length by lia. unfold zlen in *. rewrite firstn_length. lia. }
        destruct (match t2 with Some t => zlen t <=? 2147483647 | None => false end) eqn:B2.
        -- destruct t2 as [t|]; [|discriminate]. destruct (vsnprintf_ok (S n) b2 l (S (S n)) (zlen u + 1) t W2 ltac:(lia) ltac:(lia)) as (b3 & E3 & L3 & T3). rewrite E3. cbn [obind]. pose proof (zlen_nonneg t).
           destruct (Z.ltb_spec (zlen t) (zlen u + 1)) as [S3|S3].
           ++ replace ((0 <=? zlen t) && true) with true by lia. destruct (T3 S3) as (r & ->). eexists. split; [reflexivity|]. left. exists t, (S n), r. cbn [ret str enomem heap blocks].
              split; [|auto 10]. unfold prints. split; [reflexivity|]. right. exists u. repeat split; auto; lia.
           ++ replace ((0 <=? zlen t) && false) with false by lia. rewrite FR2. cbn [obind]. eexists. split; [reflexivity|]. right. split; [|cbn; auto 10].
              intros t' (_ & [(X & Y)|(u' & X & Y & _ & Z & Q)]); [assert (u = t') by congruence; subst; lia|]. assert (u = u') by congruence. assert (t = t') by congruence. subst. lia.
        -- rewrite vsnprintf_bad by (intros t ->; cbv beta iota in B2; lia). cbn [obind]. replace ((0 <=? -1) && (-1 <? zlen u + 1)) with false by lia. rewrite FR2. cbn [obind]. eexists. split; [reflexivity|]. right. split; [|cbn; auto 10].
           intros t' (_ & [(X & Y)|(u' & X & Y & _ & Z & Q)]); [assert (u = t') by congruence; subst; lia|]. assert (u = u') by congruence. subst. lia.
  - rewrite vsnprintf_bad by (intros t ->; cbv beta iota in B1; lia). cbn [obind]. replace ((0 <=? -1) && (-1 <? INIT_SZ)) with false by reflexivity. replace ((-1 =? INT_MAX) || (-1 <? 0)) with true by reflexivity.
    rewrite FR. cbn [obind]. eexists. split; [reflexivity|]. right. split; [|cbn; auto 10]. intros t (_ & [(X & Y)|(u' & X & Y & _)]); rewrite X in B1; lia.
Qed.
Print Assumptions C54_vasprintf.
(** The ordinary case: there is memory and printing is repeatable.  Every text below INT_MAX characters arrives complete, whatever its length. *)
Theorem C54_asprintf : forall junk m t, wf m -> zlen t < 2147483647 -> exists a p rest, asprintf junk m true true (Some t) (Some t) = Ok a /\ ret a = zlen t /\ str a = Some p /\
  ~ In p (map fst (blocks m)) /\ blocks (heap a) = (p, t ++ 0 :: rest) :: blocks m.
Proof.
  intros junk m t W L. destruct (C54_vasprintf junk m true true (Some t) (Some t) W) as (a & E & [(t' & p & r & P & A & B & C & D & F)|(N & _)]).
  - exists a, p, r. assert (t' = t) as -> by (destruct P as (_ & [(X & _)|(u & _ & _ & _ & X & _)]); congruence). auto.
  - elim (N t). split; [reflexivity|]. destruct (Z.ltb_spec (zlen t) 128); [left; auto|right]. exists t. repeat split; auto; lia.
Qed.
Print Assumptions C54_asprintf.
(** non-vacuity: 127, 128 and 300 characters; no memory for the longer block; a text that grew between the two passes *)
Example C54_ex : let m := mkmem [(0%nat, [1])] 1 in let t n := Some (repeat 120 n) in
  (exists a, vasprintf (fun _ => 9) m true false (t 127%nat) None = Ok a /\ ret a = 127 /\ map fst (blocks (heap a)) = [1; 0]%nat) /\
  (exists a, vasprintf (fun _ => 9) m true true (t 128%nat) (t 128%nat) = Ok a /\ ret a = 128 /\ map fst (blocks (heap a)) = [2; 0]%nat) /\
  (exists a, vasprintf (fun _ => 9) m true true (t 300%nat) (t 300%nat) = Ok a /\ blocks (heap a) = [(2%nat, repeat 120 300 ++ [0]); (0%nat, [1])]) /\
  vasprintf (fun _ => 9) m true false (t 300%nat) (t 300%nat) = Ok (mkanswer (-1) None true (mkmem [(0%nat, [1])] 2)) /\
  vasprintf (fun _ => 9) m true true (t 300%nat) (t 301%nat) = Ok (mkanswer (-1) None true (mkmem [(0%nat, [1])] 3)).
Proof. cbv zeta. split; [|split; [|split; [|split]]]; try (eexists; repeat split; vm_compute; reflexivity); vm_compute; reflexivity. Qed.

(** ** C55 *)
(** the message meant by a format: %m stands for the error text, %% is a unit that printf handles *)
Fixpoint expand (err f : list Z) {struct f} : list Z :=
  match f with
  | [] => []
  | c :: r =>
      match r with
      | d :: r2 => if (c =? 37) && (d =? 37) then 37 :: 37 :: expand err r2 else if (c =? 37) && (d =? 109) then err ++ expand err r2 else c :: expand err r
      | [] => [c]
      end
  end.
(* what percent_m makes of it: every %m counts *)
Fixpoint scan (err f : list Z) {struct f} : list Z :=
  match f with
  | [] => []
  | c :: r => match r with d :: r2 => if (c =? 37) && (d =? 109) then err ++ scan err r2 else c :: scan err r | [] => [c] end
  end.
Lemma scan_expand err : forall k f, (length f <= k)%nat -> (forall a b, f <> a ++ 37 :: 37 :: 109 :: b) -> scan err f = expand err f.
Proof.
  induction k as [|k IH]; intros f L N; [destruct f; [reflexivity|cbn [length] in L; lia]|]. destruct f as [|c [|d r]]; [reflexivity|reflexivity|]. cbn [length] in L.
  assert (N1 : forall a b, d :: r <> a ++ 37 :: 37 :: 109 :: b) by (intros a b E; apply (N (c :: a) b); cbn [app]; now rewrite E).
  assert (N2 : forall a b, r <> a ++ 37 :: 37 :: 109 :: b) by (intros a b E; apply (N1 (d :: a) b); cbn [app]; now rewrite E).
  change (scan err (c :: d :: r)) with (if (c =? 37) && (d =? 109) then err ++ scan err r else c :: scan err (d :: r)).
  change (expand err (c :: d :: r)) with (if (c =? 37) && (d =? 37) then 37 :: 37 :: expand err r else if (c =? 37) && (d =? 109) then err ++ expand err r else c :: expand err (d :: r)).
  destruct (Z.eqb_spec c 37) as [Ec|Ec]; cbn [andb]; [|f_equal; apply IH; [cbn [length]; lia|exact N1]].
  destruct (Z.eqb_spec d 37) as [Ed|Ed].
  - replace (d =? 109) with false by lia. subst c d. f_equal. destruct r as [|e r]; [reflexivity|].
    change (scan err (37 :: e :: r)) with (if (37 =? 37) && (e =? 109) then err ++ scan err r else 37 :: scan err (e :: r)). replace ((37 =? 37) && (e =? 109)) with false.
    + f_equal. apply IH; [lia|exact N2].
    + destruct (Z.eqb_spec e 109) as [->|]; [elim (N [] r); reflexivity|reflexivity].
  - destruct (d =? 109); f_equal; apply IH; try (cbn [length]; lia); assumption.
Qed.
Lemma put_ok pre old post t : length old = length t -> put (pre ++ old ++ post) (zlen pre) t = Ok (pre ++ t ++ post).
Proof.
  intros L. unfold put. rewrite !zlen_app. pose proof (zlen_nonneg pre). pose proof (zlen_nonneg post). assert (zlen old = zlen t) by (unfold zlen; lia).
  replace ((0 <=? zlen pre) && (zlen pre + zlen t <=? zlen pre + (zlen old + zlen post))) with true by lia.
  replace (Z.to_nat (zlen pre)) with (length pre) by (unfold zlen; lia). rewrite firstn_app, Nat.sub_diag, firstn_O, firstn_all, app_nil_r.
  rewrite skipn_app. rewrite skipn_all2 by lia. replace (length pre + length t - length pre)%nat with (length old) by lia. rewrite skipn_app, skipn_all, Nat.sub_diag. reflexivity.
Qed.
Lemma percent_m_ok err : forall k f pre mid, (length f <= k)%nat -> zlen (scan err f) <= zlen mid ->
  exists tail, percent_m err (pre ++ mid ++ [0]) (zlen pre) (zlen pre + zlen mid) f = Ok (pre ++ scan err f ++ 0 :: tail).
Proof.
  induction k as [|k IH]; intros f pre mid L S.
  - destruct f; [|cbn [length] in L; lia]. cbn [percent_m scan app]. destruct mid as [|x mid]; [exists []; replace (zlen pre <? zlen pre + zlen (@nil Z)) with false by (unfold zlen; cbn [length]; lia); reflexivity|].
    replace (zlen pre <? zlen pre + zlen (x :: mid)) with true by (unfold zlen; cbn [length]; lia). exists (mid ++ [0]). apply (put_ok pre [x] (mid ++ [0]) [0]). reflexivity.
  - destruct mid as [|x mid].
    { exists []. assert (E : scan err f = []) by (destruct (scan err f); [reflexivity|unfold zlen in S; cbn [length] in S; lia]). rewrite E. cbn [app].
      destruct f; cbn [percent_m]; (replace (zlen pre <? zlen pre + zlen (@nil Z)) with false by (unfold zlen; cbn [length]; lia)); reflexivity. }
    assert (B : (zlen pre <? zlen pre + zlen (x :: mid)) = true) by (unfold zlen; cbn [length]; lia).
    assert (ONE : forall c r, (length r <= k)%nat -> zlen (c :: scan err r) <= zlen (x :: mid) -> exists tail, percent_m err (pre ++ c :: mid ++ [0]) (zlen pre + 1) (zlen pre + zlen (x :: mid)) r = Ok (pre ++ (c :: scan err r) ++ 0 :: tail)).
    { intros c r Lr Sr. destruct (IH r (pre ++ [c]) mid Lr) as (tail & E); [unfold zlen in *; cbn [length] in *; lia|]. exists tail.
      replace (zlen pre + 1) with (zlen (pre ++ [c])) by (rewrite zlen_app; unfold zlen; cbn [length]; lia).
      replace (zlen pre + zlen (x :: mid)) with (zlen (pre ++ [c]) + zlen mid) by (rewrite zlen_app; unfold zlen; cbn [length]; lia).
      rewrite <- !app_assoc in E. cbn [app] in E |- *. exact E. }
    destruct f as [|c f]; cbn [percent_m]; rewrite B; [exists (mid ++ [0]); apply (put_ok pre [x] (mid ++ [0]) [0]); reflexivity|]. cbn [length] in L.
    change ((x :: mid) ++ [0]) with ([x] ++ mid ++ [0]). rewrite (put_ok pre [x] (mid ++ [0]) [c] eq_refl). cbn [obind app].
    destruct f as [|d f]; [apply ONE; [cbn [length]; lia|exact S]|]. cbn [length] in L.
    change (scan err (c :: d :: f)) with (if (c =? 37) && (d =? 109) then err ++ scan err f else c :: scan err (d :: f)) in S |- *.
    destruct ((c =? 37) && (d =? 109)); [|apply ONE; [cbn [length]; lia|exact S]].
    rewrite zlen_app in S. set (cell := c :: mid). assert (Lc : zlen cell = zlen (x :: mid)) by reflexivity. rewrite <- Lc in S |- *. change (c :: mid ++ [0]) with (cell ++ [0]). pose proof (zlen_nonneg (scan err f)).
    destruct (Z.eq_dec (zlen err) (zlen cell)) as [Q|Q].
    + replace (put (pre ++ cell ++ [0]) (zlen pre) (err ++ [0])) with (Ok (pre ++ (err ++ [0]) ++ [])) by (symmetry; rewrite <- (app_nil_r (cell ++ [0])); apply put_ok; unfold zlen in Q; rewrite !app_length; lia). cbn [obind].
      destruct (IH f (pre ++ err) [] ltac:(lia)) as (tail & E); [unfold zlen at 2; cbn [length]; lia|]. exists tail. rewrite app_nil_r, <- !app_assoc in *. cbn [app] in E |- *. rewrite <- Q.
      rewrite zlen_app in E. replace (zlen pre + zlen err + zlen (@nil Z)) with (zlen pre + zlen err) in E by (unfold zlen; cbn [length]; lia). exact E.
    + assert (SPL : exists y rest, cell = firstn (length err) cell ++ y :: rest). { exists (nth (length err) cell 0), (skipn (Datatypes.S (length err)) cell). rewrite <- (firstn_skipn (length err) cell) at 1. f_equal.
        assert (LT : (length err < length cell)%nat) by (unfold zlen in *; lia). clear - LT. revert LT. generalize (length err). induction cell as [|a cell IH2]; intros [|i] LT; cbn [length] in LT; try lia; [reflexivity|]. cbn [skipn nth]. apply IH2. lia. }
      destruct SPL as (y & rest & SP). set (h := firstn (length err) cell) in *. assert (Lh : length h = length err) by (unfold h; rewrite firstn_length; unfold zlen in *; lia).
      replace (pre ++ cell ++ [0]) with (pre ++ (h ++ [y]) ++ (rest ++ [0])) by (rewrite SP, <- !app_assoc; reflexivity). rewrite put_ok by (rewrite !app_length; cbn [length]; lia). cbn [obind].
      assert (Lr : zlen cell = zlen err + 1 + zlen rest) by (rewrite SP, zlen_app; unfold zlen; cbn [length]; lia).
      destruct (IH f (pre ++ err) (0 :: rest) ltac:(lia)) as (tail & E); [unfold zlen in *; cbn [length]; lia|]. exists tail. rewrite <- !app_assoc in *. cbn [app] in E |- *.
      rewrite zlen_app in E. replace (zlen pre + zlen cell) with (zlen pre + zlen err + zlen (0 :: rest)) by (unfold zlen in *; cbn [length]; lia). exact E.
Qed.
Lemma scan_clean err : cstr err -> forall k f, (length f <= k)%nat -> cstr f -> cstr (scan err f).
Proof.
  intros E. induction k as [|k IH]; intros f L C; [destruct f; [constructor|cbn [length] in L; lia]|]. destruct f as [|c [|d r]]; [constructor|exact C|]. cbn [length] in L.
  change (scan err (c :: d :: r)) with (if (c =? 37) && (d =? 109) then err ++ scan err r else c :: scan err (d :: r)). inversion C as [|? ? C1 C2]; subst. inversion C2; subst.
  destruct (_ && _); [apply Forall_app; split; [exact E|apply IH; [lia|assumption]]|constructor; [exact C1|apply IH; [cbn [length]; lia|exact C2]]].
Qed.
(** What reaches syslog is what printf makes of the expanded format, and no byte outside the two buffers is written, provided that the expansion at most doubles the format and the
    text printed is at most six times as long as the format, and the format does not have a literal % followed by an m. *)
Theorem C55_vsyslog_partial : forall err render f, cstr f -> cstr err -> (forall a b, f <> a ++ 37 :: 37 :: 109 :: b) -> 6 * zlen f < 2147483647 ->
  zlen (expand err f) <= 2 * zlen f -> cstr (render (expand err f)) -> zlen (render (expand err f)) <= 6 * zlen f -> vsyslog err render f = Ok (render (expand err f)).
Proof.
  intros err render f C CE N B S CR SR. rewrite <- (scan_expand err (length f) f (le_n _) N) in *. unfold vsyslog. cbv zeta. unfold INT_MAX. pose proof (zlen_nonneg f).
  replace (zlen f * 2 * 3 + 1 <=? 2147483647) with true by lia. cbn [safe obind].
  assert (Z1 : forall n, 0 <= n -> repeat 0 (Z.to_nat (n + 1)) = repeat 0 (Z.to_nat n) ++ [0]) by (intros n Hn; replace (Z.to_nat (n + 1)) with (Z.to_nat n + 1)%nat by lia; now rewrite repeat_app).
  assert (LR : forall n, 0 <= n -> zlen (repeat 0 (Z.to_nat n)) = n) by (intros n Hn; unfold zlen; rewrite repeat_length; lia).
  rewrite (Z1 (zlen f * 2)) by lia. destruct (percent_m_ok err (length f) f [] (repeat 0 (Z.to_nat (zlen f * 2))) (le_n _)) as (tail & E); [rewrite LR by lia; lia|].
  rewrite LR in E by lia. change (zlen (@nil Z)) with 0 in E. rewrite Z.add_0_l in E. cbn [app] in E. rewrite E. cbn [obind].
  rewrite (cstring_app _ tail) by (apply (scan_clean err CE (length f)); [lia|exact C]).
  set (t := render (scan err f)) in *. set (n := Z.to_nat (zlen f * 2 * 3 + 1)).
  assert (NN : n = (length (t ++ [0%Z]) + (n - length (t ++ [0%Z])))%nat) by (unfold n; rewrite app_length; unfold zlen in *; cbn [length]; lia).
  rewrite NN, repeat_app. pose proof (put_ok [] (repeat 0 (length (t ++ [0%Z]))) (repeat 0 (n - length (t ++ [0%Z]))) (t ++ [0]) (repeat_length _ _)) as P. change (zlen (@nil Z)) with 0 in P. cbn [app] in P. rewrite P. cbn [obind].
  rewrite <- app_assoc. cbn [app]. now rewrite cstring_app by exact CR.
Qed.
Print Assumptions C55_vsyslog_partial.
(** "%m" alone: an error text of more than 4 characters overruns the buffer - and so does every text longer than the format plus 2 *)
Theorem C55_overrun_refuted : forall err render n, 2 * Z.of_nat n + 4 < zlen err + Z.of_nat n -> Z.of_nat n < 1000 -> vsyslog err render (repeat 120 n ++ [37; 109]) = UB.
Proof.
  intros err render n H B. unfold vsyslog. cbv zeta. set (f := repeat 120 n ++ [37; 109]). assert (Lf : zlen f = Z.of_nat n + 2) by (unfold f; rewrite zlen_app; unfold zlen; rewrite repeat_length; cbn [length]; lia). rewrite Lf.
  unfold INT_MAX. replace ((Z.of_nat n + 2) * 2 * 3 + 1 <=? 2147483647) with true by lia. cbn [safe obind].
  assert (G : forall k pre post len, zlen post = len - zlen pre + 1 -> zlen pre + Z.of_nat k + 2 <= len -> len < zlen pre + Z.of_nat k + zlen err -> percent_m err (pre ++ post) (zlen pre) len (repeat 120 k ++ [37; 109]) = UB).
  { clear. induction k as [|k IH]; intros pre post len P1 P2 P3.
    - destruct post as [|x post]; [unfold zlen in *; cbn [length] in *; lia|]. cbn [repeat app percent_m]. replace (zlen pre <? len) with true by lia.
      change (x :: post) with ([x] ++ post). rewrite (put_ok pre [x] post [37] eq_refl). cbn [obind]. change ((37 =? 37) && (109 =? 109)) with true. cbv iota. unfold put. rewrite !zlen_app. replace (zlen pre + (zlen err + zlen [0]) <=? zlen pre + (zlen [37] + zlen post)) with false; [rewrite andb_false_r; reflexivity|].
      symmetry. unfold zlen in *. cbn [length] in *. lia.
    - destruct post as [|x post]; [unfold zlen in *; cbn [length] in *; lia|]. cbn [repeat app percent_m]. replace (zlen pre <? len) with true by lia.
      change (x :: post) with ([x] ++ post). rewrite (put_ok pre [x] post [120] eq_refl). cbn [obind]. change ((120 =? 37)) with false. cbn [andb].
      replace (zlen pre + 1) with (zlen (pre ++ [120])) by (rewrite zlen_app; unfold zlen; cbn [length]; lia).
      destruct (repeat 120 k ++ [37; 109]) as [|d r] eqn:D; [destruct k; discriminate|]. rewrite app_assoc.
      apply IH; rewrite zlen_app; unfold zlen in *; cbn [length] in *; lia. }
  pose proof (G n [] (repeat 0 (Z.to_nat ((Z.of_nat n + 2) * 2 + 1))) ((Z.of_nat n + 2) * 2)) as P. change (zlen (@nil Z)) with 0 in P. cbn [app] in P. unfold f. rewrite P; [reflexivity| | |]; unfold zlen in *; try rewrite repeat_length; cbn [length] in *; lia.
Qed.
Print Assumptions C55_overrun_refuted.
(** an error text of 5 characters *)
Example C55_overrun_ex : vsyslog [69; 114; 114; 111; 114] (fun t => t) [37; 109] = UB.
Proof. apply (C55_overrun_refuted _ _ 0); unfold zlen; cbn [length]; lia. Qed.
(** a text printed that is more than six times as long as the format (here from "%s") *)
Theorem C55_output_refuted : forall render, 12 < zlen (render [37; 115]) -> vsyslog [] render [37; 115] = UB.
Proof.
  intros render H. unfold vsyslog. cbv zeta. change (zlen [37; 115]) with 2. change (safe (2 * 2 * 3 + 1 <=? INT_MAX)) with (Ok tt). cbn [obind]. change (percent_m [] (repeat 0 (Z.to_nat (2 * 2 + 1))) 0 (2 * 2) [37; 115]) with (Ok [37; 115; 0; 0; 0]). cbn [obind].
  change (cstring [37; 115; 0; 0; 0]) with [37; 115]. unfold put. rewrite zlen_app. replace (0 + (zlen (render [37; 115]) + zlen [0]) <=? zlen (repeat 0 (Z.to_nat (2 * 2 * 3 + 1)))) with false; [reflexivity|].
  symmetry. change (zlen (repeat 0 (Z.to_nat (2 * 2 * 3 + 1)))) with 13. change (zlen [0]) with 1. lia.
Qed.
Print Assumptions C55_output_refuted.
(** "%%m" is a literal % followed by m, but the m and the second % are replaced *)
Theorem C55_percent_refuted : exists err f, expand err f = f /\ forall render, (forall t, zlen (render t) <= zlen t) -> cstr (render ([37] ++ err)) -> vsyslog err render f = Ok (render ([37] ++ err)) /\ [37] ++ err <> f.
Proof.
  exists [69; 73; 79], [37; 37; 109]. split; [reflexivity|]. intros render R C. split; [|discriminate]. unfold vsyslog. cbv zeta. change (zlen [37; 37; 109]) with 3. change (safe (3 * 2 * 3 + 1 <=? INT_MAX)) with (Ok tt). cbn [obind].
  change (percent_m [69; 73; 79] (repeat 0 (Z.to_nat (3 * 2 + 1))) 0 (3 * 2) [37; 37; 109]) with (Ok [37; 69; 73; 79; 0; 0; 0]). cbn [obind]. change (cstring [37; 69; 73; 79; 0; 0; 0]) with ([37] ++ [69; 73; 79]).
  set (t := render _) in *. assert (L : zlen t <= 4) by (apply R). pose proof (zlen_nonneg t). change (repeat 0 (Z.to_nat (3 * 2 * 3 + 1))) with (repeat 0 19).
  assert (NN : 19%nat = (length (t ++ [0%Z]) + (19 - length (t ++ [0%Z])))%nat) by (rewrite app_length; unfold zlen in *; cbn [length]; lia).
  rewrite NN, repeat_app. pose proof (put_ok [] (repeat 0 (length (t ++ [0%Z]))) (repeat 0 (19 - length (t ++ [0%Z]))) (t ++ [0]) (repeat_length _ _)) as P. change (zlen (@nil Z)) with 0 in P. cbn [app] in P. rewrite P. cbn [obind].
  rewrite <- app_assoc. cbn [app]. now rewrite cstring_app by exact C.
Qed.
Print Assumptions C55_percent_refuted.
(** the error text: the system's for the numbers it knows, otherwise the number *)
Theorem C55_error_text : forall errno nerr errlist, (0 < errno < nerr -> error_text errno nerr errlist = errlist errno) /\
  (errno <= 0 \/ nerr <= errno -> error_text errno nerr errlist = [85;110;107;110;111;119;110;32;69;114;114;111;114;32] ++ decimal errno).
Proof. intros. unfold error_text. split; intros H; [replace ((errno <? nerr) && (0 <? errno)) with true by lia|replace ((errno <? nerr) && (0 <? errno)) with false by lia]; reflexivity. Qed.
Print Assumptions C55_error_text.
(** non-vacuity: "cannot open: %m" with "No space" *)
Example C55_ex : vsyslog [78;111;32;115;112;97;99;101] (fun t => t) [99;97;110;110;111;116;32;111;112;101;110;58;32;37;109] = Ok [99;97;110;110;111;116;32;111;112;101;110;58;32;78;111;32;115;112;97;99;101].
Proof.
  apply (C55_vsyslog_partial [78;111;32;115;112;97;99;101] (fun t => t) [99;97;110;110;111;116;32;111;112;101;110;58;32;37;109]); try (repeat constructor; lia); try (vm_compute; congruence); try (vm_compute; repeat constructor; discriminate).
  intros a b E. assert (J : count_occ Z.eq_dec [99;97;110;110;111;116;32;111;112;101;110;58;32;37;109] 37 = 1%nat) by reflexivity. rewrite E, count_occ_app in J. cbn in J. lia.
Qed.

(** ** C56 *)
(** The result is the part of the path after its last slash, or the whole path if there is none. *)
Theorem C56_basename : forall path, (exists d, path = d ++ 47 :: basename path /\ ~ In 47 (basename path)) \/ (basename path = path /\ ~ In 47 path).
Proof.
  assert (R : forall s, match strrchr s 47 with Some t => exists d b, s = d ++ t /\ t = 47 :: b /\ ~ In 47 b | None => ~ In 47 s end).
  { induction s as [|x s IH]; cbn [strrchr]; [exact (fun h => h)|]. destruct (strrchr s 47) as [t|].
    - destruct IH as (d & b & -> & E & N). exists (x :: d), b. auto.
    - destruct (Z.eqb_spec x 47) as [->|N]; [exists [], s; auto|]. cbn [In]. tauto. }
  intros path. specialize (R path). unfold basename. destruct (strrchr path 47) as [t|].
  - destruct R as (d & b & -> & -> & N). left. exists d. cbn [tl]. auto.
  - right. auto.
Qed.
Print Assumptions C56_basename.
Example C56_ex : basename [47; 97; 47; 98] = [98] /\ basename [97; 47] = [] /\ basename [97] = [97].
Proof. repeat split. Qed.
