(** Proofs about configurations: the INI parser. *)
From Verif Require Import Prelude OptsModel OptsSpec OptsProofs OptsParse CfgModel CfgSpec CfgProofs.
Local Open Scope Z_scope.

Lemma isblank_spec : forall c, isblank c = true <-> c = 32 \/ c = 9.
Proof. intros c. unfold isblank. rewrite orb_true_iff, !Z.eqb_eq. reflexivity. Qed.

Lemma isblank_false : forall c, c <> 32 -> c <> 9 -> isblank c = false.
Proof. intros c A B. destruct (isblank c) eqn:E; [apply isblank_spec in E; lia|reflexivity]. Qed.

Lemma discard_blank_app : forall w f, blanks w -> discard_blank (w ++ f) = discard_blank f.
Proof.
  induction w as [|c w IH]; intros f H; [reflexivity|]. inversion H as [|? ? H1 H2]; subst.
  cbn [app discard_blank]. rewrite (proj2 (isblank_spec c) H1). apply IH. exact H2.
Qed.

Lemma discard_blank_stop : forall c f, c <> 32 -> c <> 9 -> discard_blank (c :: f) = c :: f.
Proof. intros c f A B. cbn [discard_blank]. rewrite isblank_false by assumption. reflexivity. Qed.

Lemma discard_line_app : forall t f, ~ In 10 t -> discard_line (t ++ 10 :: f) = f.
Proof.
  induction t as [|c t IH]; intros f H; cbn [app discard_line]; [reflexivity|].
  destruct (Z.eqb_spec c 10) as [-> |N]; [contradiction H; left; reflexivity|].
  apply IH. intros K. apply H. right. exact K.
Qed.

Lemma read_block_app : forall n f i, ~ In 93 n -> i + Z.of_nat (length n) < 1024 ->
  read_block (n ++ 93 :: f) i = (Some n, f).
Proof.
  induction n as [|c n IH]; intros f i H Hl; cbn [app read_block length] in *.
  - destruct (Z.ltb_spec i BUFMAX) as [_|Ge]; [reflexivity|unfold BUFMAX in Ge; lia].
  - destruct (Z.ltb_spec i BUFMAX) as [_|Ge]; [|unfold BUFMAX in Ge; lia].
    destruct (Z.eqb_spec c 93) as [-> |N]; [contradiction H; left; reflexivity|].
    rewrite IH; [reflexivity|intros K; apply H; right; exact K|lia].
Qed.

Lemma cut0_id : forall s, ~ In 0 s -> cut0 s = s.
Proof.
  induction s as [|c s IH]; intros H; cbn [cut0]; [reflexivity|].
  destruct (Z.eqb_spec c 0) as [-> |N]; [contradiction H; left; reflexivity|].
  rewrite IH; [reflexivity|intros K; apply H; right; exact K].
Qed.

Lemma take_line_app : forall l n f, ~ In 10 l -> (length l < n)%nat -> take_line n (l ++ 10 :: f) = (l ++ [10], f).
Proof.
  induction l as [|c l IH]; intros n f H Hn; cbn [app length] in *.
  - destruct n; [lia|reflexivity].
  - destruct n as [|n]; [lia|]. cbn [take_line].
    destruct (Z.eqb_spec c 10) as [-> |N]; [contradiction H; left; reflexivity|].
    rewrite IH; [reflexivity|intros K; apply H; right; exact K|lia].
Qed.

Lemma name_prefix_app : forall n f, Forall (fun c => name_char c = true) n ->
  (forall c r, f = c :: r -> name_char c = false) -> name_prefix (n ++ f) = n.
Proof.
  induction n as [|c n IH]; intros f H Hf; cbn [app].
  - destruct f as [|c f]; [reflexivity|]. cbn [name_prefix]. rewrite (Hf c f eq_refl). reflexivity.
  - inversion H as [|? ? H1 H2]; subst. cbn [name_prefix]. rewrite H1, IH by assumption. reflexivity.
Qed.

Lemma cut_comment_app : forall v t, (forall c, In c v -> c <> 59 /\ c <> 35) ->
  (t = [] \/ exists m r, t = m :: r /\ comment_mark m) -> cut_comment (v ++ t) = v.
Proof.
  induction v as [|c v IH]; intros t H Ht; cbn [app].
  - destruct Ht as [-> |(m & r & -> & [-> | ->])]; reflexivity.
  - cbn [cut_comment]. destruct (H c (or_introl eq_refl)) as [A B].
    destruct (Z.eqb_spec c 59); [contradiction|]. destruct (Z.eqb_spec c 35); [contradiction|]. cbn [orb].
    rewrite IH; [reflexivity|intros x K; apply H; right; exact K|exact Ht].
Qed.

Lemma strip_all : forall w, blanks w -> strip_blanks w = [].
Proof.
  induction w as [|c w IH]; intros H; [reflexivity|]. inversion H as [|? ? H1 H2]; subst.
  cbn [strip_blanks]. rewrite IH by exact H2. rewrite (proj2 (isblank_spec c) H1). reflexivity.
Qed.

Lemma strip_app : forall s x w, blanks w -> isblank x = false -> strip_blanks (s ++ x :: w) = s ++ [x].
Proof.
  induction s as [|c s IH]; intros x w H Hx; cbn [app strip_blanks].
  - rewrite strip_all by exact H. rewrite Hx. reflexivity.
  - rewrite IH by assumption. destruct s; reflexivity.
Qed.

Lemma strip_value_ok : forall v w, blanks w -> value_ok v -> strip_value (v ++ w) = v.
Proof.
  intros v w Hw (_ & (c & r & Ev & _) & (q & x & Eq & X1 & X2)). subst v.
  cbn [app strip_value]. f_equal. destruct q as [|c' q]; cbn [app] in Eq; injection Eq as <- Er.
  - subst r. cbn [app]. apply strip_all. exact Hw.
  - subst r. rewrite <- app_assoc. cbn [app]. apply strip_app; [exact Hw|apply isblank_false; assumption].
Qed.

Lemma name_char_range : forall c, name_char c = true ->
  97 <= c <= 122 \/ 65 <= c <= 90 \/ 48 <= c <= 57 \/ c = 95.
Proof.
  intros c. unfold name_char.
  destruct (Z.leb_spec 97 c), (Z.leb_spec c 122), (Z.leb_spec 65 c), (Z.leb_spec c 90),
    (Z.leb_spec 48 c), (Z.leb_spec c 57), (Z.eqb_spec c 95); cbn [andb orb]; intros H9; try discriminate H9; lia.
Qed.

Lemma names_no : forall n x, Forall (fun c => name_char c = true) n ->
  name_char x = false -> ~ In x n.
Proof.
  intros n x H Hx K. rewrite Forall_forall in H. specialize (H x K). congruence.
Qed.

Lemma blanks_no : forall w x, blanks w -> x <> 32 -> x <> 9 -> ~ In x w.
Proof. intros w x H A B K. unfold blanks in H. rewrite Forall_forall in H. specialize (H x K). lia. Qed.

Lemma in_app_not : forall (x : Z) a b, ~ In x a -> ~ In x b -> ~ In x (a ++ b).
Proof. intros x a b A B K. apply in_app_or in K. tauto. Qed.

Lemma name_letters : forall n, Forall name_letter n -> Forall (fun c => name_char c = true) n.
Proof.
  intros n. apply Forall_impl. intros c H. unfold name_letter in H. unfold name_char.
  destruct (Z.leb_spec 97 c), (Z.leb_spec c 122), (Z.leb_spec 65 c), (Z.leb_spec c 90),
    (Z.leb_spec 48 c), (Z.leb_spec c 57), (Z.eqb_spec c 95); cbn [andb orb]; try reflexivity; lia.
Qed.

Lemma parse_line_ok : forall n a b v c t rest, line_ok (LAssign n a b v c t) ->
  parse_line (render_line (LAssign n a b v c t) ++ rest) = Ok (Some (n, v), rest).
Proof.
  intros n a b v c t rest (Nn & Fn & Ba & Bb & Bc & Vok & Ht & Hl). apply name_letters in Fn.
  set (body := n ++ a ++ 61 :: b ++ v ++ c ++ t).
  assert (Eb : render_line (LAssign n a b v c t) = body ++ [10]).
  { unfold body. cbn [render_line]. rewrite <- !app_assoc. cbn [app]. rewrite <- !app_assoc. reflexivity. }
  rewrite Eb in *. rewrite <- app_assoc. cbn [app].
  assert (Vno : forall x, x = 10 \/ x = 0 -> ~ In x v).
  { intros x Hx K. destruct (proj1 Vok x K) as (_ & _ & A & B). destruct Hx; contradiction. }
  assert (Tno : forall x, x = 10 \/ x = 0 -> ~ In x t).
  { intros x Hx. destruct Ht as [-> |(m & r & -> & Hm & R1 & R2)]; [intros []|].
    intros [K|K]; [destruct Hm; subst m; destruct Hx; lia|]. destruct Hx; subst x; contradiction. }
  assert (Bno : forall x, x = 10 \/ x = 0 -> ~ In x body).
  { intros x Hx. unfold body.
    assert (Nx : x <> 32 /\ x <> 9 /\ name_char x = false) by (destruct Hx; subst x; repeat split; try lia).
    destruct Nx as (N1 & N2 & N3).
    apply in_app_not; [apply names_no; assumption|].
    apply in_app_not; [apply blanks_no; assumption|].
    intros [K|K]; [destruct Hx; lia|]. revert K.
    apply in_app_not; [apply blanks_no; assumption|].
    apply in_app_not; [apply Vno; exact Hx|].
    apply in_app_not; [apply blanks_no; assumption|apply Tno; exact Hx]. }
  assert (Eq61 : ~ In equal (n ++ a)).
  { apply in_app_not; [apply names_no; [exact Fn|reflexivity]|apply blanks_no; [exact Ba|discriminate|discriminate]]. }
  unfold parse_line.
  rewrite take_line_app.
  2:{ apply Bno. left. reflexivity. }
  2:{ rewrite app_length in Hl. cbn [length] in Hl. unfold BUFMAX. lia. }
  rewrite cut0_id.
  2:{ apply in_app_not; [apply Bno; right; reflexivity|]. intros [K|[]]. discriminate K. }
  assert (Es : body ++ [10] = (n ++ a) ++ equal :: (b ++ v ++ c ++ t) ++ [10]).
  { unfold body, equal. rewrite <- !app_assoc. cbn [app]. rewrite <- !app_assoc. reflexivity. }
  rewrite Es at 1. rewrite after_equal_some by exact Eq61.
  assert (En : ends_newline (body ++ [10]) = true).
  { unfold ends_newline. rewrite last_last. reflexivity. }
  rewrite En. cbn [negb andb]. cbv zeta.
  rewrite removelast_last.
  assert (Ep : name_prefix (body ++ [10]) = n).
  { unfold body. rewrite <- app_assoc. apply name_prefix_app; [exact Fn|].
    intros x r E. destruct a as [|x0 a]; cbn [app] in E; injection E as <- _; [reflexivity|].
    inversion Ba as [|? ? [-> | ->] _]; reflexivity. }
  rewrite Ep. rewrite discard_blank_app by exact Bb.
  destruct Vok as (V1 & (vc & vr & Ev & V2 & V3) & V4).
  assert (Ed : discard_blank (v ++ c ++ t) = v ++ c ++ t).
  { rewrite Ev. cbn [app]. apply discard_blank_stop; assumption. }
  rewrite Ed. rewrite app_assoc. rewrite cut_comment_app.
  - rewrite Ev at 1. cbn [app].
    rewrite strip_value_ok; [reflexivity|exact Bc|]. split; [exact V1|]. split; [|exact V4].
    exists vc, vr. split; [exact Ev|]. split; assumption.
  - intros x K. apply in_app_or in K as [K|K]; [destruct (V1 x K) as (A & B & _); split; assumption|].
    unfold blanks in Bc. rewrite Forall_forall in Bc. specialize (Bc x K). lia.
  - destruct Ht as [-> |(m & r & -> & Hm & _)]; [left; reflexivity|right; exists m, r; split; [reflexivity|exact Hm]].
Qed.

(** a last line without newline *)
Lemma take_line_end : forall l n, ~ In 10 l -> (length l <= n)%nat -> take_line n l = (l, []).
Proof.
  induction l as [|c l IH]; intros n H Hn; cbn [length] in *; [destruct n; reflexivity|].
  destruct n as [|n]; [lia|]. cbn [take_line]. destruct (Z.eqb_spec c 10) as [-> |N]; [contradiction H; left; reflexivity|].
  rewrite IH; [reflexivity|intros K; apply H; right; exact K|lia].
Qed.
Lemma last_in : forall (l : text) d, l <> [] -> In (last l d) l.
Proof. induction l as [|x l IH]; intros d N; [congruence|]. destruct l; [left; reflexivity|]. right. apply IH. discriminate. Qed.
Definition last_line (n a b v c t : text) : text := n ++ a ++ 61 :: b ++ v ++ c ++ t.
Lemma parse_last_ok : forall n a b v c t, n <> [] -> Forall name_letter n -> blanks a -> blanks b -> blanks c -> value_ok v ->
  (t = [] \/ exists m r, t = m :: r /\ comment_mark m /\ ~ In 10 r /\ ~ In 0 r) ->
  Z.of_nat (length (last_line n a b v c t)) < 1024 -> (2 <= length (v ++ c ++ t))%nat ->
  parse_line (last_line n a b v c t) = Ok (Some (n, v), []).
Proof.
  intros n a b v c t Nn Fn Ba Bb Bc Vok Ht Hl H2. apply name_letters in Fn.
  set (body := last_line n a b v c t) in *. unfold last_line in body.
  assert (Vno : forall x, x = 10 \/ x = 0 -> ~ In x v).
  { intros x Hx K. destruct (proj1 Vok x K) as (_ & _ & A & B). destruct Hx; contradiction. }
  assert (Tno : forall x, x = 10 \/ x = 0 -> ~ In x t).
  { intros x Hx. destruct Ht as [-> |(m & r & -> & Hm & R1 & R2)]; [intros []|].
    intros [K|K]; [destruct Hm; subst m; destruct Hx; lia|]. destruct Hx; subst x; contradiction. }
  assert (Bno : forall x, x = 10 \/ x = 0 -> ~ In x body).
  { intros x Hx. unfold body.
    assert (Nx : x <> 32 /\ x <> 9 /\ name_char x = false) by (destruct Hx; subst x; repeat split; try lia).
    destruct Nx as (N1 & N2 & N3).
    apply in_app_not; [apply names_no; assumption|].
    apply in_app_not; [apply blanks_no; assumption|].
    intros [K|K]; [destruct Hx; lia|]. revert K.
    apply in_app_not; [apply blanks_no; assumption|].
    apply in_app_not; [apply Vno; exact Hx|].
    apply in_app_not; [apply blanks_no; assumption|apply Tno; exact Hx]. }
  assert (Eq61 : ~ In equal (n ++ a)).
  { apply in_app_not; [apply names_no; [exact Fn|reflexivity]|apply blanks_no; [exact Ba|discriminate|discriminate]]. }
  unfold parse_line. rewrite take_line_end; [|apply Bno; left; reflexivity|unfold BUFMAX; lia].
  rewrite cut0_id by (apply Bno; right; reflexivity).
  assert (Es : body = (n ++ a) ++ equal :: (b ++ v ++ c ++ t)) by (unfold body, equal; rewrite <- !app_assoc; reflexivity).
  rewrite Es at 1. rewrite after_equal_some by exact Eq61.
  assert (En : ends_newline body = false).
  { unfold ends_newline. apply Z.eqb_neq. intros E. apply (Bno 10 (or_introl eq_refl)). rewrite <- E. apply last_in.
    unfold body. destruct n; [congruence|discriminate]. }
  rewrite En. cbn [negb andb]. cbv zeta.
  assert (Ep : name_prefix body = n).
  { unfold body. apply name_prefix_app; [exact Fn|].
    intros x r E. destruct a as [|x0 a]; cbn [app] in E; injection E as <- _; [reflexivity|].
    inversion Ba as [|? ? [-> | ->] _]; reflexivity. }
  rewrite Ep. rewrite discard_blank_app by exact Bb.
  destruct Vok as (V1 & (vc & vr & Ev & V2 & V3) & V4).
  assert (Ed : discard_blank (v ++ c ++ t) = v ++ c ++ t).
  { rewrite Ev. cbn [app]. apply discard_blank_stop; assumption. }
  rewrite Ed. replace (length (v ++ c ++ t) <=? 1)%nat with false by (symmetry; apply Nat.leb_gt; lia).
  rewrite app_assoc. rewrite cut_comment_app.
  - rewrite Ev at 1. cbn [app].
    rewrite strip_value_ok; [reflexivity|exact Bc|]. split; [exact V1|]. split; [|exact V4].
    exists vc, vr. split; [exact Ev|]. split; assumption.
  - intros x K. apply in_app_or in K as [K|K]; [destruct (V1 x K) as (A & B & _); split; assumption|].
    unfold blanks in Bc. rewrite Forall_forall in Bc. specialize (Bc x K). lia.
  - destruct Ht as [-> |(m & r & -> & Hm & _)]; [left; reflexivity|right; exists m, r; split; [reflexivity|exact Hm]].
Qed.

Lemma line_head : forall l, line_ok l -> exists c r, render_line l = c :: r /\ c <> 32 /\ c <> 9 /\
  match l with
  | LEmpty => c = 10
  | LComment _ _ => c = 59 \/ c = 35
  | LHeader _ _ => c = 91
  | LAssign _ _ _ _ _ _ => c <> 10 /\ c <> 91 /\ c <> 59 /\ c <> 35
  end.
Proof.
  intros [|m t|n j|n a b v c t] H; cbn [render_line line_ok] in *.
  - exists 10, []. repeat split; lia.
  - destruct H as [Hm _]. exists m, (t ++ [10]). split; [reflexivity|]. destruct Hm as [-> | ->]; repeat split; try lia.
  - exists 91, (n ++ 93 :: j ++ [10]). repeat split; lia.
  - destruct H as (Nn & Fn & _). destruct n as [|x n]; [contradiction Nn; reflexivity|].
    inversion Fn as [|? ? Hx _]; subst. unfold name_letter in Hx.
    exists x, (n ++ a ++ 61 :: b ++ v ++ c ++ t ++ [10]). split; [reflexivity|]. repeat split; lia.
Qed.

Section Parse.
Variable isfloat : text -> bool.

Definition assign_to (st : store) (l : list assignment) : store :=
  fold_left (fun st a => insert isfloat st (fst (fst a)) (snd (fst a)) (snd a)) l st.

Lemma parse_line_step : forall l rest blk st fuel, line_ok l -> (length (render_line l ++ rest) < fuel)%nat ->
  exists fuel', (length rest < fuel')%nat /\
  parse_from isfloat fuel (render_line l ++ rest) (Some blk) st =
  match l with
  | LHeader n _ => parse_from isfloat fuel' rest (Some n) st
  | LAssign n _ _ v _ _ => parse_from isfloat fuel' rest (Some blk) (insert isfloat st blk n v)
  | _ => parse_from isfloat fuel' rest (Some blk) st
  end.
Proof.
  intros l rest blk st fuel Hl Hf. destruct fuel as [|fuel]; [lia|].
  assert (Hr : (length rest < fuel)%nat).
  { destruct (line_head l Hl) as (c & r & E & _). rewrite E, app_length in Hf. cbn [length] in Hf. lia. }
  exists fuel. split; [exact Hr|].
  destruct (line_head l Hl) as (c & r & E & B1 & B2 & K).
  destruct l as [|m t|n j|n a b v w t].
  - reflexivity.
  - cbn [render_line line_ok] in *. destruct Hl as [Hm Ht]. cbn [app].
    assert (Em : m = c) by congruence. subst m.
    cbn [parse_from]. destruct (Z.eqb_spec c 10); [lia|]. destruct (Z.eqb_spec c 91); [lia|].
    replace ((c =? 59) || (c =? 35)) with true by (destruct K as [-> | ->]; reflexivity).
    rewrite <- app_assoc. cbn [app]. rewrite discard_line_app by exact Ht. reflexivity.
  - cbn [render_line line_ok] in *. destruct Hl as (N1 & N2 & N3 & N4). cbn [app].
    cbn [parse_from]. cbn [Z.eqb Pos.eqb].
    rewrite <- app_assoc. cbn [app]. rewrite read_block_app by (try exact N1; lia).
    rewrite <- app_assoc. cbn [app]. rewrite discard_line_app by exact N4. rewrite cut0_id by exact N2. reflexivity.
  - pose proof (parse_line_ok n a b v w t rest Hl) as P.
    rewrite E in P |- *. cbn [app] in *.
    cbn [parse_from]. destruct K as (K1 & K2 & K3 & K4).
    destruct (Z.eqb_spec c 10); [lia|]. destruct (Z.eqb_spec c 91); [lia|].
    destruct (Z.eqb_spec c 59); [lia|]. destruct (Z.eqb_spec c 35); [lia|]. cbn [orb].
    rewrite isblank_false by assumption. rewrite P. reflexivity.
Qed.

Lemma parse_iline_step : forall l rest blk st fuel, blanks (indent l) -> line_ok (what l) ->
  (length (render_iline l ++ rest) < fuel)%nat ->
  exists fuel', (length rest < fuel')%nat /\
  parse_from isfloat fuel (render_iline l ++ rest) (Some blk) st =
  match what l with
  | LHeader n _ => parse_from isfloat fuel' rest (Some n) st
  | LAssign n _ _ v _ _ => parse_from isfloat fuel' rest (Some blk) (insert isfloat st blk n v)
  | _ => parse_from isfloat fuel' rest (Some blk) st
  end.
Proof.
  intros [ind l] rest blk st fuel Hi Hl Hf. cbn [indent what] in *.
  unfold render_iline in *. cbn [indent what] in *. rewrite <- app_assoc in *.
  destruct ind as [|c ind].
  - cbn [app] in *. apply parse_line_step; assumption.
  - inversion Hi as [|? ? Hc Hi2]; subst. cbn [app length] in *.
    destruct fuel as [|fuel]; [lia|]. cbn [parse_from].
    destruct (Z.eqb_spec c 10); [lia|]. destruct (Z.eqb_spec c 91); [lia|].
    destruct (Z.eqb_spec c 59); [lia|]. destruct (Z.eqb_spec c 35); [lia|]. cbn [orb].
    rewrite (proj2 (isblank_spec c) Hc). rewrite discard_blank_app by exact Hi2.
    destruct (line_head l Hl) as (x & r & E & B1 & B2 & _).
    assert (Ed : discard_blank (render_line l ++ rest) = render_line l ++ rest).
    { rewrite E. cbn [app]. apply discard_blank_stop; assumption. }
    rewrite Ed. apply parse_line_step; [exact Hl|]. rewrite app_length in Hf. lia.
Qed.

Lemma parse_file_ok : forall ls blk st fuel, Forall (fun l => blanks (indent l) /\ line_ok (what l)) ls ->
  (length (file ls) < fuel)%nat ->
  parse_from isfloat fuel (file ls) (Some blk) st = Ok (0, assign_to st (assignments blk ls)).
Proof.
  induction ls as [|l ls IH]; intros blk st fuel H Hf.
  - destruct fuel; reflexivity.
  - inversion H as [|? ? [H1 H2] H3]; subst. cbn [file flat_map] in *.
    change (flat_map render_iline ls) with (file ls) in *.
    destruct (parse_iline_step l (file ls) blk st fuel H1 H2 Hf) as (f & Hlt & E). rewrite E.
    cbn [assignments]. destruct (what l) as [|m t|n j|n a b v c t]; rewrite IH by assumption; reflexivity.
Qed.

(** lines followed by anything *)
Lemma parse_file_prefix : forall ls blk st fuel rest, Forall (fun l => blanks (indent l) /\ line_ok (what l)) ls ->
  (length (file ls ++ rest) < fuel)%nat ->
  exists fuel', (length rest < fuel')%nat /\
  parse_from isfloat fuel (file ls ++ rest) (Some blk) st = parse_from isfloat fuel' rest (Some (current blk ls)) (assign_to st (assignments blk ls)).
Proof.
  induction ls as [|l ls IH]; intros blk st fuel rest H Hf.
  - exists fuel. split; [exact Hf|reflexivity].
  - inversion H as [|? ? [H1 H2] H3]; subst. cbn [file flat_map] in *.
    change (flat_map render_iline ls) with (file ls) in *. rewrite <- app_assoc in *.
    destruct (parse_iline_step l (file ls ++ rest) blk st fuel H1 H2 Hf) as (f & Hlt & E). rewrite E.
    cbn [assignments current]. destruct (what l) as [|m t|n j|n a b v c t]; apply IH; assumption.
Qed.

(** ** Any file *)
Lemma take_line_shorter : forall n f, (0 < n)%nat -> f <> [] -> (length (snd (take_line n f)) < length f)%nat.
Proof.
  assert (L : forall n f, (length (snd (take_line n f)) <= length f)%nat).
  { induction n as [|n IH]; intros f; [cbn; lia|]. destruct f as [|c r]; [cbn; lia|]. cbn [take_line].
    destruct (c =? 10); [cbn [snd length]; lia|]. specialize (IH r). destruct (take_line n r). cbn [snd length] in *. lia. }
  intros [|n] [|c r] Hn Hf; try lia; [contradiction Hf; reflexivity|]. cbn [take_line].
  destruct (c =? 10); [cbn [snd length]; lia|]. specialize (L n r). destruct (take_line n r). cbn [snd length] in *. lia.
Qed.

Lemma discard_line_le : forall f, (length (discard_line f) <= length f)%nat.
Proof. induction f as [|c f IH]; cbn [discard_line length]; [lia|]. destruct (c =? 10); lia. Qed.
Lemma discard_blank_le : forall f, (length (discard_blank f) <= length f)%nat.
Proof. induction f as [|c f IH]; cbn [discard_blank length]; [lia|]. destruct (isblank c); cbn [length]; lia. Qed.
Lemma read_block_le : forall f i, (length (snd (read_block f i)) <= length f)%nat.
Proof.
  induction f as [|c f IH]; intros i; cbn [read_block length]; [destruct (i <? BUFMAX); cbn; lia|].
  destruct (i <? BUFMAX); [|cbn [snd]; lia]. destruct (c =? 93); [cbn [snd]; lia|].
  specialize (IH (i + 1)). destruct (read_block f (i + 1)). cbn [snd] in *. lia.
Qed.

Lemma parse_line_shorter : forall f kv r, f <> [] -> parse_line f = Ok (kv, r) -> (length r < length f)%nat.
Proof.
  intros f kv r Hf. unfold parse_line.
  pose proof (take_line_shorter (Z.to_nat (BUFMAX - 1)) f ltac:(unfold BUFMAX; lia) Hf) as L.
  destruct (take_line (Z.to_nat (BUFMAX - 1)) f) as [raw rest]. cbn [snd] in L.
  destruct (after_equal (cut0 raw)) as [v0|]; [|intros E; congruence].
  destruct (negb (ends_newline (cut0 raw)) && match rest with [] => false | _ => true end); [intros E; congruence|].
  cbv zeta. destruct (cut_comment _); [discriminate|].
  destruct (negb (ends_newline (cut0 raw)) && _); intros E; congruence.
Qed.

Lemma parse_from_ends : forall fuel f blk st, (length f < fuel)%nat -> parse_from isfloat fuel f blk st <> Loop /\
  parse_from isfloat fuel f blk st <> Abort.
Proof.
  induction fuel as [|fuel IH]; intros f blk st Hf; [lia|].
  destruct f as [|c r]; [split; discriminate|]. cbn [length] in Hf.
  cbn [parse_from]. destruct (c =? 10); [apply IH; lia|]. destruct (c =? 91).
  { pose proof (read_block_le r 0) as L. destruct (read_block r 0) as [n r1]. cbn [snd] in L.
    pose proof (discard_line_le r1). apply IH. lia. }
  destruct ((c =? 59) || (c =? 35)); [pose proof (discard_line_le r); apply IH; lia|].
  destruct (isblank c); [pose proof (discard_blank_le r); apply IH; lia|].
  destruct (parse_line (c :: r)) as [[kv r1]| | |] eqn:P; cbn [obind].
  - destruct kv as [[var val]|]; [|split; discriminate]. destruct blk as [b|]; [|split; discriminate].
    apply parse_line_shorter in P; [|discriminate]. cbn [length] in P. apply IH. lia.
  - exfalso. unfold parse_line in P. destruct (take_line _ _) as [raw rest].
    destruct (after_equal (cut0 raw)); [|discriminate P].
    destruct (negb (ends_newline (cut0 raw)) && _); [discriminate P|].
    cbv zeta in P. destruct (cut_comment _); [discriminate P|]. destruct (negb _ && _); discriminate P.
  - split; discriminate.
  - exfalso. unfold parse_line in P. destruct (take_line _ _) as [raw rest].
    destruct (after_equal (cut0 raw)); [|discriminate P].
    destruct (negb (ends_newline (cut0 raw)) && _); [discriminate P|].
    cbv zeta in P. destruct (cut_comment _); [discriminate P|]. destruct (negb _ && _); discriminate P.
Qed.
End Parse.
