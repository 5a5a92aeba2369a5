(** strsep of zt_win32.c: proofs *)
From Verif Require Import Prelude SepModel.

Definition isin (c : Z) (ds : list Z) : bool := existsb (fun d => d =? c)%Z ds.
(** specification: the fields of a text, cut at every character of ds *)
Fixpoint fields (ds text : list Z) : list (list Z) :=
  match text with
  | [] => [[]]
  | c :: text => if isin c ds then [] :: fields ds text else match fields ds text with [] => [] | f :: fs => (c :: f) :: fs end
  end.
(** what memory holds afterwards: every character of ds replaced by NUL *)
Definition cut (ds text : list Z) : list Z := map (fun c => if isin c ds then 0%Z else c) text.
(** the C string at an offset of a block *)
Fixpoint cstr (l : list Z) : list Z := match l with [] => [] | c :: l => if (c =? 0)%Z then [] else c :: cstr l end.
Definition text_at (block : list Z) (p : nat) : list Z := cstr (skipn p block).
Definition nonul (l : list Z) : Prop := ~ In 0%Z l.

Lemma span_ok c ds dp : nonul ds -> span c (ds ++ 0%Z :: dp) = Ok (isin c ds || (c =? 0)%Z).
Proof.
  induction ds as [|d ds IH]; intros ND; cbn [app span isin existsb].
  - rewrite (Z.eqb_sym 0 c). destruct (c =? 0)%Z; reflexivity.
  - destruct (d =? c)%Z eqn:DC; [reflexivity|]. replace (d =? 0)%Z with false by (symmetry; apply Z.eqb_neq; intros ->; apply ND; now left).
    apply IH. intros J. apply ND. now right.
Qed.
Lemma walk_skip ds dp : nonul ds -> forall f rest s, nonul f -> Forall (fun c => isin c ds = false) f -> walk (f ++ rest) s (ds ++ 0%Z :: dp) = walk rest (s + length f) (ds ++ 0%Z :: dp).
Proof.
  intros ND. induction f as [|c f IH]; intros rest s NF FA; cbn [app walk length]; [now rewrite Nat.add_0_r|].
  apply Forall_cons_iff in FA. destruct FA as [NC FA]. rewrite (span_ok c ds dp ND), NC. replace (c =? 0)%Z with false by (symmetry; apply Z.eqb_neq; intros ->; apply NF; now left).
  cbn [orb obind]. rewrite IH; [f_equal; lia| |exact FA]. intros J. apply NF. now right.
Qed.
Lemma walk_stop ds dp c rest s : nonul ds -> isin c ds || (c =? 0)%Z = true -> walk (c :: rest) s (ds ++ 0%Z :: dp) = Ok (c, s).
Proof. intros ND H. cbn [walk]. now rewrite (span_ok c ds dp ND), H. Qed.
Lemma first_field ds : forall text, (Forall (fun c => isin c ds = false) text /\ fields ds text = [text] /\ cut ds text = text) \/
  exists f c t, text = f ++ c :: t /\ Forall (fun c => isin c ds = false) f /\ isin c ds = true /\ fields ds text = f :: fields ds t /\ cut ds text = f ++ 0%Z :: cut ds t.
Proof.
  induction text as [|c text IH]; [left; repeat constructor|]. cbn [fields cut map]. destruct (isin c ds) eqn:IC.
  - right. exists [], c, text. repeat split; [constructor|exact IC].
  - destruct IH as [(FA & EF & EC)|(f & d & t & -> & FA & ID & EF & EC)].
    + left. rewrite EF. split; [now constructor|]. split; [reflexivity|]. unfold cut in EC. now rewrite EC.
    + right. exists (c :: f), d, t. rewrite EF. unfold cut in EC. rewrite EC. repeat split; [now constructor|exact ID].
Qed.
Lemma skipn_length (pre rest : list Z) : skipn (length pre) (pre ++ rest) = rest.
Proof. induction pre as [|x pre IH]; [reflexivity|]. exact IH. Qed.
Lemma upd_at (pre : list Z) x rest v : upd (pre ++ x :: rest) (length pre) v = pre ++ v :: rest.
Proof. rewrite upd_app_r by lia. now rewrite Nat.sub_diag. Qed.

Lemma strsep_last ds dp pre text post : nonul ds -> nonul text -> Forall (fun c => isin c ds = false) text ->
  strsep (pre ++ text ++ 0%Z :: post) (Some (length pre)) (ds ++ 0%Z :: dp) = Ok (pre ++ text ++ 0%Z :: post, None, Some (length pre)).
Proof.
  intros ND NT FA. unfold strsep. rewrite skipn_length, (walk_skip ds dp ND text _ _ NT FA), (walk_stop ds dp _ _ _ ND) by (apply Bool.orb_true_r). cbn [obind]. reflexivity.
Qed.
Lemma strsep_cut ds dp pre f c t : nonul ds -> nonul f -> c <> 0%Z -> Forall (fun c => isin c ds = false) f -> isin c ds = true ->
  strsep (pre ++ f ++ c :: t) (Some (length pre)) (ds ++ 0%Z :: dp) = Ok (pre ++ f ++ 0%Z :: t, Some (length pre + S (length f)), Some (length pre)).
Proof.
  intros ND NF NC FA IC. unfold strsep. rewrite skipn_length, (walk_skip ds dp ND f _ _ NF FA), (walk_stop ds dp _ _ _ ND) by (now rewrite IC). cbn [obind].
  rewrite (proj2 (Z.eqb_neq _ _) NC). rewrite app_assoc, <- app_length, upd_at, <- app_assoc. rewrite app_length, Nat.add_succ_r. reflexivity.
Qed.
(** where the fields start *)
Fixpoint starts (p : nat) (fs : list (list Z)) : list nat := match fs with [] => [] | f :: fs => p :: starts (p + S (length f)) fs end.
Lemma all_ok ds dp post : nonul ds -> forall fuel text pre, length text + 2 <= fuel -> nonul text ->
  strsep_all fuel (pre ++ text ++ 0%Z :: post) (Some (length pre)) (ds ++ 0%Z :: dp) = Ok (pre ++ cut ds text ++ 0%Z :: post, starts (length pre) (fields ds text)).
Proof.
  intros ND. induction fuel as [|fuel IH]; intros text pre FU NT; [lia|]. cbn [strsep_all].
  destruct (first_field ds text) as [(FA & EF & EC)|(f & c & t & -> & FA & IC & EF & EC)].
  - rewrite (strsep_last ds dp pre text post ND NT FA). cbn [obind]. destruct fuel as [|fuel]; [lia|]. cbn [strsep_all strsep obind]. rewrite EF, EC. reflexivity.
  - assert (NF : nonul f) by (intros J; apply NT, in_or_app; now left).
    assert (NC : c <> 0%Z) by (intros ->; apply NT, in_or_app; right; now left).
    assert (NT' : nonul t) by (intros J; apply NT, in_or_app; right; now right).
    rewrite <- app_assoc. cbn [app]. rewrite (strsep_cut ds dp pre f c _ ND NF NC FA IC). cbn [obind].
    rewrite app_length in FU. cbn [length] in FU.
    replace (pre ++ f ++ 0%Z :: t ++ 0%Z :: post) with ((pre ++ f ++ [0%Z]) ++ t ++ 0%Z :: post) by (now rewrite <- !app_assoc).
    replace (length pre + S (length f)) with (length (pre ++ f ++ [0%Z])) by (rewrite !app_length; cbn [length]; lia).
    rewrite (IH t (pre ++ f ++ [0%Z]) ltac:(lia) NT'). cbn [obind]. rewrite EF, EC. cbn [starts].
    replace (length (pre ++ f ++ [0%Z])) with (length pre + S (length f)) by (rewrite !app_length; cbn [length]; lia).
    f_equal. f_equal. now rewrite <- !app_assoc.
Qed.
Lemma cstr_app f rest : nonul f -> cstr (f ++ 0%Z :: rest) = f.
Proof.
  induction f as [|c f IH]; intros NF; [reflexivity|]. cbn [app cstr]. replace (c =? 0)%Z with false by (symmetry; apply Z.eqb_neq; intros ->; apply NF; now left).
  f_equal. apply IH. intros J. apply NF. now right.
Qed.
Lemma starts_texts ds post : forall n text pre, length text <= n -> nonul text -> map (text_at (pre ++ cut ds text ++ 0%Z :: post)) (starts (length pre) (fields ds text)) = fields ds text.
Proof.
  induction n as [|n IH]; intros text pre LE NT.
  - destruct text; [|cbn [length] in LE; lia]. cbn [fields starts map cut app]. unfold text_at. rewrite skipn_length. reflexivity.
  - destruct (first_field ds text) as [(FA & EF & EC)|(f & c & t & -> & FA & IC & EF & EC)].
    + rewrite EF, EC. cbn [starts map]. unfold text_at. now rewrite skipn_length, cstr_app.
    + assert (NF : nonul f) by (intros J; apply NT, in_or_app; now left).
      assert (NT' : nonul t) by (intros J; apply NT, in_or_app; right; now right).
      rewrite app_length in LE. cbn [length] in LE. rewrite EF, EC. cbn [starts map]. f_equal.
      * unfold text_at. rewrite skipn_length, <- app_assoc. cbn [app]. now rewrite cstr_app.
      * specialize (IH t (pre ++ f ++ [0%Z]) ltac:(lia) NT'). rewrite !app_length in IH. cbn [length] in IH.
        replace (length pre + S (length f)) with (length pre + (length f + 1)) by lia. rewrite <- IH at 2. f_equal. f_equal. now rewrite <- !app_assoc.
Qed.
Lemma walk_runs_off ds dp : nonul ds -> forall f s, nonul f -> Forall (fun c => isin c ds = false) f -> walk f s (ds ++ 0%Z :: dp) = UB.
Proof. intros ND f s NF FA. rewrite <- (app_nil_r f). now rewrite (walk_skip ds dp ND f [] s NF FA). Qed.
