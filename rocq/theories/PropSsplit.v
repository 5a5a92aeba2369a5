(** C85: str_split (zt_unit.c).  Specification: [fields ds str] (SepProofs.v, characterised by C84_fields): the string cut at every separator; [text_at b p]: the C
    string at offset p of the block b.  [nonul]: a C string has no NUL inside. *)
From Verif Require Import Prelude SepModel SepProofs SsplitModel SsplitProofs UnitModel CstrSpec.
Local Open Scope nat_scope.

Lemma kept_le : forall fs p, length (kept p fs) <= length fs.
Proof. induction fs as [|f fs IH]; intros p; cbn [kept length]; [lia|]. rewrite app_length. specialize (IH (p + S (length f))). destruct f; cbn [length] in *; lia. Qed.

(** for every string and every set of separators: no undefined access; *elts is the number of fields; the vector has one slot more; it holds the non-empty fields
    in order and NULL after them; what the pointers show at the end is exactly those fields; only separators of the copy are overwritten *)
Theorem C85_split : forall ds str fuel, nonul ds -> nonul str -> length str + 2 <= fuel ->
  exists toks, SsplitModel.str_split fuel (Some str) (Some ds) =
      Ok (Some (length (SepProofs.fields ds str), map Some toks ++ repeat None (length (SepProofs.fields ds str) + 1 - length toks), cut ds str ++ [0%Z])) /\
    length toks <= length (SepProofs.fields ds str) /\
    map (text_at (cut ds str ++ [0%Z])) toks = filter (fun f => match f with [] => false | _ => true end) (SepProofs.fields ds str).
Proof.
  intros ds str fuel ND NT FU. exists (kept 0 (SepProofs.fields ds str)). split; [|split].
  - rewrite (split_ok ds str fuel ND NT FU). now rewrite Nat.add_comm.
  - apply kept_le.
  - exact (kept_texts ds [] (length str) str [] (le_n _) NT).
Qed.
Print Assumptions C85_split.
(** NULL for NULL *)
Theorem C85_null : forall fuel str delim, SsplitModel.str_split fuel None delim = Ok None /\ SsplitModel.str_split fuel str None = Ok None.
Proof. intros fuel [str|] [delim|]; split; reflexivity. Qed.
Print Assumptions C85_null.
(** the claim "there are *elts strings" holds exactly when no field is empty: if the string is empty, begins or ends with a separator or has two in a row,
    the last of the *elts slots is NULL *)
Theorem C85_count_refuted : forall ds str fuel, nonul ds -> nonul str -> length str + 2 <= fuel ->
  exists n slots copy, SsplitModel.str_split fuel (Some str) (Some ds) = Ok (Some (n, slots, copy)) /\ 1 <= n /\
    (nth (n - 1) slots None = None <-> In [] (SepProofs.fields ds str)).
Proof.
  intros ds str fuel ND NT FU. destruct (C85_split ds str fuel ND NT FU) as (toks & E & LE & MT). eexists _, _, _. split; [exact E|]. pose proof (SsplitProofs.fields_ne ds str) as FN. split; [exact FN|].
  assert (LT : length toks = length (filter (fun f : list Z => match f with [] => false | _ => true end) (SepProofs.fields ds str))) by (rewrite <- MT; now rewrite map_length).
  assert (FL : length toks = length (SepProofs.fields ds str) <-> ~ In [] (SepProofs.fields ds str)).
  { rewrite LT. clear. assert (K : forall fs : list (list Z), length (filter (fun f : list Z => match f with [] => false | _ => true end) fs) <= length fs).
    { induction fs as [|[|c f] fs IH]; cbn [filter length]; lia. }
    induction (SepProofs.fields ds str) as [|[|c f] fs IH]; cbn [filter length In]; [tauto| |].
    - specialize (K fs). split; [lia|tauto].
    - split; [intros H [J|J]; [discriminate|]; apply (proj1 IH); [lia|exact J]|intros H; f_equal; apply IH; tauto]. }
  destruct (Nat.eq_dec (length toks) (length (SepProofs.fields ds str))) as [Q|Q].
  - split; [|intros J; exfalso; now apply (proj1 FL Q)]. intros H. exfalso. rewrite app_nth1 in H by (rewrite map_length; lia).
    rewrite (nth_indep _ None (Some 0)) in H by (rewrite map_length; lia). rewrite map_nth in H. discriminate.
  - split; [|intros _; rewrite app_nth2 by (rewrite map_length; lia); apply nth_repeat].
    intros _. destruct (in_dec (list_eq_dec Z.eq_dec) [] (SepProofs.fields ds str)) as [J|J]; [exact J|]. exfalso. apply Q, FL, J.
Qed.
Print Assumptions C85_count_refuted.

(** the abstract str_split that zt_unit_run_by_name is modelled with (UnitModel.v, C43) is this one, with what the pointers show in place of the pointers *)
Lemma same_fields ds : forall s, CstrSpec.fields ds s = SepProofs.fields ds s.
Proof.
  induction s as [|c s IH]; [reflexivity|]. cbn [CstrSpec.fields SepProofs.fields]. rewrite IH. unfold isin. replace (existsb (Z.eqb c) ds) with (existsb (fun d => d =? c)%Z ds).
  - destruct (existsb _ ds); [reflexivity|]. destruct (SepProofs.fields ds s) eqn:EF; [|reflexivity]. pose proof (SsplitProofs.fields_ne ds s) as FN. rewrite EF in FN. cbn [length] in FN. lia.
  - clear. induction ds as [|d ds IH]; [reflexivity|]. cbn [existsb]. now rewrite IH, Z.eqb_sym.
Qed.
Lemma dots_fields : forall s, (1 + dots s)%Z = Z.of_nat (length (SepProofs.fields [46%Z] s)).
Proof.
  induction s as [|c s IH]; [reflexivity|]. cbn [dots SepProofs.fields isin existsb]. rewrite (Z.eqb_sym c 46). destruct (46 =? c)%Z; cbn [orb length]; [lia|].
  pose proof (SsplitProofs.fields_ne [46%Z] s). destruct (SepProofs.fields [46%Z] s); cbn [length] in *; lia.
Qed.
Theorem C85_by_name : forall s fuel, nonul s -> length s + 2 <= fuel ->
  exists n slots copy, SsplitModel.str_split fuel (Some s) (Some [46%Z]) = Ok (Some (n, slots, copy)) /\
    UnitModel.str_split s = (Z.of_nat n, map (option_map (text_at copy)) slots).
Proof.
  intros s fuel NT FU. destruct (C85_split [46%Z] s fuel) as (toks & E & LE & MT); [intros [J|[]]; discriminate|exact NT|exact FU|]. eexists _, _, _. split; [exact E|].
  unfold UnitModel.str_split. rewrite dots_fields, same_fields, Nat2Z.id. f_equal.
  assert (MT' : filter nonempty (SepProofs.fields [46%Z] s) = map (text_at (cut [46%Z] s ++ [0%Z])) toks) by (rewrite MT; reflexivity).
  rewrite MT', map_app, !map_map, map_length. f_equal. generalize (length (SepProofs.fields [46%Z] s) + 1 - length toks). clear. induction n as [|n IH]; [reflexivity|]. cbn [repeat map option_map]. now rewrite <- IH.
Qed.
Print Assumptions C85_by_name.

(** non-vacuity: "a.bc", and ".a..b" cut at "." *)
Example split_case : SsplitModel.str_split 8 (Some [97; 46; 98; 99]%Z) (Some [46%Z]) = Ok (Some (2, [Some 0; Some 2; None], [97; 0; 98; 99; 0]%Z)) /\
  SsplitModel.str_split 8 (Some [46; 97; 46; 46; 98]%Z) (Some [46%Z]) = Ok (Some (4, [Some 1; Some 4; None; None; None], [0; 97; 0; 0; 98; 0]%Z)).
Proof. split; reflexivity. Qed.
Example nonul_case : nonul [46%Z] /\ nonul [97; 46; 98; 99]%Z.
Proof. unfold nonul. cbn [In]. split; lia. Qed.
