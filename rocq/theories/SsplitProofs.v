(** str_split of zt_unit.c: proofs *)
From Verif Require Import Prelude SepModel SepProofs SsplitModel.

(** the offsets of the non-empty fields when the first field is at p *)
Fixpoint kept (p : nat) (fs : list (list Z)) : list nat :=
  match fs with [] => [] | f :: fs => (match f with [] => [] | _ => [p] end) ++ kept (p + S (length f)) fs end.

Lemma pbrk_none ds text : Forall (fun c => isin c ds = false) text -> strpbrk text ds = None.
Proof. induction 1 as [|c text IC _ IH]; [reflexivity|]. cbn [strpbrk]. unfold isin in IC. now rewrite IC. Qed.
Lemma pbrk_some ds f c t : Forall (fun c => isin c ds = false) f -> isin c ds = true -> strpbrk (f ++ c :: t) ds = Some (c :: t).
Proof. intros FA IC. induction FA as [|d f ID _ IH]; cbn [app strpbrk]; unfold isin in *; [now rewrite IC|]. now rewrite ID. Qed.
Lemma count_ok ds : forall fuel text a, length text < fuel -> count fuel text ds a = Ok (a + (length (fields ds text) - 1)).
Proof.
  induction fuel as [|fuel IH]; intros text a FU; [lia|]. cbn [count]. destruct (first_field ds text) as [(FA & EF & _)|(f & c & t & -> & FA & IC & EF & _)].
  - rewrite (pbrk_none ds text FA), EF. cbn [length]. f_equal. lia.
  - rewrite (pbrk_some ds f c t FA IC), EF. cbn [length]. rewrite app_length in FU. cbn [length] in FU. destruct t as [|d t].
    + cbn [fields length]. f_equal.
    + rewrite (IH (d :: t) (a + 1) ltac:(lia)). f_equal. assert (length (fields ds (d :: t)) <> 0); [|lia].
      destruct (first_field ds (d :: t)) as [(_ & E & _)|(? & ? & ? & _ & _ & _ & E & _)]; rewrite E; discriminate.
Qed.
Lemma put_at (done : list (option nat)) x rest v : put (done ++ x :: rest) (length done) v = Ok (done ++ v :: rest).
Proof.
  unfold put. rewrite app_length. cbn [length]. replace (length done <? length done + S (length rest)) with true by (symmetry; apply Nat.ltb_lt; lia).
  rewrite upd_app_r by lia. now rewrite Nat.sub_diag.
Qed.
Lemma nth_at (pre rest : list Z) : nth_error (pre ++ rest) (length pre) = nth_error rest 0.
Proof. rewrite nth_error_app2 by lia. now rewrite Nat.sub_diag. Qed.
Lemma fields_ne ds text : 1 <= length (fields ds text).
Proof. destruct (first_field ds text) as [(_ & E & _)|(? & ? & ? & _ & _ & _ & E & _)]; rewrite E; cbn [length]; lia. Qed.

Lemma fill_end fuel done x n copy delim argc : 0 < fuel -> fill fuel (done ++ x :: repeat None n) copy None delim (length done) argc = Ok (done ++ repeat None (S n), copy).
Proof. destruct fuel; [lia|]. intros _. cbn [fill strsep obind]. rewrite put_at. reflexivity. Qed.
Lemma fill_ok ds : nonul ds -> forall fuel text pre done x argc, length text + 2 <= fuel -> nonul text -> length (fields ds text) <= argc ->
  fill fuel (done ++ x :: repeat None argc) (pre ++ text ++ [0%Z]) (Some (length pre)) (ds ++ [0%Z]) (length done) argc =
    Ok (done ++ map Some (kept (length pre) (fields ds text)) ++ repeat None (S argc - length (kept (length pre) (fields ds text))), pre ++ cut ds text ++ [0%Z]).
Proof.
  intros ND. induction fuel as [|fuel IH]; intros text pre done x argc FU NT LE; [lia|]. cbn [fill].
  destruct (first_field ds text) as [(FA & EF & EC)|(f & c & t & -> & FA & IC & EF & EC)].
  - rewrite (strsep_last ds [] pre text [] ND NT FA). cbn [obind]. rewrite put_at. cbn [obind]. rewrite nth_at, EF, EC. rewrite EF in LE. cbn [length] in LE.
    destruct text as [|d text]; cbn [app nth_error kept map length].
    + cbn [Z.eqb]. rewrite fill_end by (cbn [length] in FU; lia). now rewrite Nat.sub_0_r.
    + replace (d =? 0)%Z with false by (symmetry; apply Z.eqb_neq; intros ->; apply NT; now left).
      assert (ER : forall n, n = argc -> S n - 1 = n) by (intros; lia). rewrite (ER argc eq_refl).
      destruct (argc - 1 =? 0) eqn:A; [reflexivity|]. apply Nat.eqb_neq in A. destruct argc as [|argc]; [lia|]. cbn [repeat].
      change (done ++ Some (length pre) :: None :: repeat None argc) with (done ++ [Some (length pre)] ++ None :: repeat None argc). rewrite app_assoc.
      replace (length done + 1) with (length (done ++ [Some (length pre)])) by (rewrite app_length; reflexivity).
      rewrite fill_end by (cbn [length] in FU; lia). cbn [repeat]. rewrite <- !app_assoc. reflexivity.
  - assert (NF : nonul f) by (intros J; apply NT, in_or_app; now left).
    assert (NC : c <> 0%Z) by (intros ->; apply NT, in_or_app; right; now left).
    assert (NT' : nonul t) by (intros J; apply NT, in_or_app; right; now right).
    rewrite <- app_assoc. cbn [app]. rewrite (strsep_cut ds [] pre f c _ ND NF NC FA IC). cbn [obind]. rewrite put_at. cbn [obind]. rewrite nth_at, EF, EC. rewrite EF in LE. cbn [length] in LE.
    rewrite app_length in FU. cbn [length] in FU. pose proof (fields_ne ds t) as FN.
    replace (pre ++ f ++ 0%Z :: t ++ [0%Z]) with ((pre ++ f ++ [0%Z]) ++ t ++ [0%Z]) by (now rewrite <- !app_assoc).
    assert (LP : length pre + S (length f) = length (pre ++ f ++ [0%Z])) by (rewrite !app_length; cbn [length]; lia).
    assert (EP : (pre ++ f ++ [0%Z]) ++ cut ds t ++ [0%Z] = pre ++ (f ++ 0%Z :: cut ds t) ++ [0%Z]) by (now rewrite <- !app_assoc).
    destruct f as [|d f]; cbn [app nth_error kept].
    + cbn [Z.eqb length] in *. rewrite LP. cbn [app] in *. rewrite (IH t (pre ++ [0%Z]) done (Some (length pre)) argc ltac:(lia) NT' ltac:(lia)), EP. reflexivity.
    + replace (d =? 0)%Z with false by (symmetry; apply Z.eqb_neq; intros ->; apply NF; now left).
      destruct argc as [|[|argc]]; [lia|lia|]. replace (S (S argc) - 1) with (S argc) by lia. cbn [Nat.eqb].
      change (done ++ Some (length pre) :: repeat None (S (S argc))) with (done ++ [Some (length pre)] ++ None :: repeat None (S argc)). rewrite app_assoc.
      replace (length done + 1) with (length (done ++ [Some (length pre)])) by (rewrite app_length; reflexivity).
      change (d :: f ++ [0%Z]) with ((d :: f) ++ [0%Z]). change (d :: f ++ 0%Z :: cut ds t) with ((d :: f) ++ 0%Z :: cut ds t).
      rewrite LP, (IH t (pre ++ (d :: f) ++ [0%Z]) (done ++ [Some (length pre)]) None (S argc) ltac:(cbn [length] in FU; lia) NT' ltac:(lia)).
      rewrite EP. cbn [app]. rewrite <- (app_assoc done). cbn [app map length]. reflexivity.
Qed.
Lemma kept_texts ds post : forall n text pre, length text <= n -> nonul text ->
  map (text_at (pre ++ cut ds text ++ 0%Z :: post)) (kept (length pre) (fields ds text)) = filter (fun f => match f with [] => false | _ => true end) (fields ds text).
Proof.
  induction n as [|n IH]; intros text pre LE NT.
  - destruct text; [|cbn [length] in LE; lia]. reflexivity.
  - destruct (first_field ds text) as [(FA & EF & EC)|(f & c & t & -> & FA & IC & EF & EC)].
    + rewrite EF, EC. cbn [kept filter]. destruct text as [|d text]; [reflexivity|]. cbn [app map]. unfold text_at. change (pre ++ d :: text ++ 0%Z :: post) with (pre ++ (d :: text) ++ 0%Z :: post).
      now rewrite skipn_length, cstr_app.
    + assert (NF : nonul f) by (intros J; apply NT, in_or_app; now left).
      assert (NT' : nonul t) by (intros J; apply NT, in_or_app; right; now right).
      rewrite app_length in LE. cbn [length] in LE. rewrite EF, EC. cbn [kept filter]. rewrite map_app.
      specialize (IH t (pre ++ f ++ [0%Z]) ltac:(lia) NT').
      assert (LP : length pre + S (length f) = length (pre ++ f ++ [0%Z])) by (rewrite !app_length; cbn [length]; lia).
      assert (EP : (pre ++ f ++ [0%Z]) ++ cut ds t ++ 0%Z :: post = pre ++ (f ++ 0%Z :: cut ds t) ++ 0%Z :: post) by (now rewrite <- !app_assoc).
      rewrite LP, <- EP, IH. destruct f as [|d f]; [reflexivity|]. cbn [map app]. f_equal. unfold text_at. rewrite <- !app_assoc. rewrite skipn_length. 
      change (d :: f ++ [0%Z]) with ((d :: f) ++ [0%Z]). rewrite <- app_assoc. exact (cstr_app (d :: f) _ NF).
Qed.
Lemma split_ok ds str fuel : nonul ds -> nonul str -> length str + 2 <= fuel ->
  str_split fuel (Some str) (Some ds) = Ok (Some (length (fields ds str), map Some (kept 0 (fields ds str)) ++ repeat None (S (length (fields ds str)) - length (kept 0 (fields ds str))), cut ds str ++ [0%Z])).
Proof.
  intros ND NT FU. unfold str_split. rewrite (count_ok ds fuel str 1 ltac:(lia)). cbn [obind]. pose proof (fields_ne ds str).
  replace (1 + (length (fields ds str) - 1)) with (length (fields ds str)) by lia. rewrite Nat.add_comm. cbn [Nat.add repeat].
  change (None :: repeat None (length (fields ds str))) with ([] ++ None :: repeat (@None nat) (length (fields ds str))).
  pose proof (fill_ok ds ND fuel str [] [] None (length (fields ds str)) FU NT (le_n _)) as K. cbn [app length] in K |- *. rewrite K. reflexivity.
Qed.
