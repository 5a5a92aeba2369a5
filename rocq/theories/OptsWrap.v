(** Proofs about the layout of help texts. *)
From Verif Require Import Prelude OptsModel OptsSpec OptsProofs.
Local Open Scope Z_scope.

Lemma words_acc_prefix : forall a w r, ~ In 32 a -> words_acc w (a ++ r) = words_acc (w ++ a) r.
Proof.
  induction a as [|c a IH]; intros w r H; cbn [app words_acc].
  - rewrite app_nil_r. reflexivity.
  - destruct (Z.eqb_spec c 32) as [-> |N]; [contradiction H; left; reflexivity|].
    rewrite IH by (intros K; apply H; right; exact K). rewrite <- app_assoc. reflexivity.
Qed.

Lemma words_acc_blank : forall w r, words_acc w (32 :: r) = match w with [] => [] | _ => [w] end ++ words r.
Proof. intros [|x w] r; reflexivity. Qed.

Lemma words_acc_cut : forall a w b, words_acc w (a ++ 32 :: b) = words_acc w a ++ words b.
Proof.
  induction a as [|c a IH]; intros w b; cbn [app].
  - rewrite words_acc_blank. destruct w; reflexivity.
  - cbn [words_acc]. destruct (Z.eqb_spec c 32) as [-> |N].
    + destruct w as [|x w]; rewrite IH; reflexivity.
    + apply IH.
Qed.

Lemma words_cut : forall a b, words (a ++ 32 :: b) = words a ++ words b.
Proof. intros. apply words_acc_cut. Qed.

Lemma words_one : forall a, a <> [] -> ~ In 32 a -> words a = [a].
Proof.
  intros a Ne H. unfold words. pose proof (words_acc_prefix a [] [] H) as E. rewrite app_nil_r in E.
  rewrite E. cbn [app words_acc]. destruct a; [contradiction Ne; reflexivity|reflexivity].
Qed.

Lemma blank_split : forall p : text, ~ In 32 p \/ exists a b, p = a ++ 32 :: b /\ ~ In 32 a.
Proof.
  induction p as [|c p [IH|(a & b & -> & IH)]].
  - left. intros [].
  - destruct (Z.eq_dec c 32) as [-> |N].
    + right. exists [], p. split; [reflexivity|intros []].
    + left. intros [K|K]; [exact (N K)|exact (IH K)].
  - destruct (Z.eq_dec c 32) as [-> |N].
    + right. exists [], (a ++ 32 :: b). split; [reflexivity|intros []].
    + right. exists (c :: a), b. split; [reflexivity|]. intros [K|K]; [exact (N K)|exact (IH K)].
Qed.

Lemma skip_words : forall r, words (skipn (skip_blanks r) r) = words r /\
  (forall q, skipn (skip_blanks r) r <> 32 :: q).
Proof.
  induction r as [|c r [IH1 IH2]]; cbn [skip_blanks].
  - split; [reflexivity|discriminate].
  - destruct (Z.eqb_spec c 32) as [-> |N].
    + cbn [skipn]. split; [exact IH1|exact IH2].
    + cbn [skipn]. split; [reflexivity|]. intros q E. injection E as E _. exact (N E).
Qed.

Lemma break_at_32 : forall (p : text) w, nth_error p w = Some 32 -> break_at p w = Some w.
Proof. intros p [|w] H; unfold break_at; fold break_at; rewrite H; reflexivity. Qed.

Lemma break_at_other : forall (p : text) w, nth_error p w <> Some 32 ->
  break_at p w = match w with O => None | S w => break_at p w end.
Proof.
  intros p w H. destruct w as [|w]; unfold break_at; fold break_at;
  match goal with |- context [nth_error ?a ?b] => destruct (nth_error a b) as [c|]; [|reflexivity] end;
  assert (N : c <> 32) by congruence; clear H;
  repeat (match goal with |- context [match ?c with _ => _ end] => is_var c; destruct c; try reflexivity; try (contradiction N; reflexivity) end).
Qed.

Lemma break_at_spec : forall (p : text) w k, (k <= w)%nat -> nth_error p k = Some 32 ->
  exists j, break_at p w = Some j /\ (k <= j <= w)%nat /\ nth_error p j = Some 32.
Proof.
  intros p w; induction w as [|w IH]; intros k Hk H.
  - assert (k = O) by lia. subst k. exists O. split; [apply break_at_32; exact H|]. split; [lia|exact H].
  - destruct (nth_error p (S w)) as [c|] eqn:E.
    + destruct (Z.eq_dec c 32) as [-> |N].
      * exists (S w). split; [apply break_at_32; exact E|]. split; [lia|exact E].
      * rewrite break_at_other by congruence.
        destruct (Nat.eq_dec k (S w)) as [-> |Nk]; [congruence|].
        destruct (IH k ltac:(lia) H) as (j & A & B & C). exists j. split; [exact A|]. split; [lia|exact C].
    + rewrite break_at_other by congruence.
      destruct (Nat.eq_dec k (S w)) as [-> |Nk]; [congruence|].
      destruct (IH k ltac:(lia) H) as (j & A & B & C). exists j. split; [exact A|]. split; [lia|exact C].
Qed.

Lemma wrap_from_ok : forall fuel first rest, (length rest <= fuel)%nat ->
  Forall (fun w => (length w < base_width)%nat) (words rest) ->
  exists lines, wrap_from fuel first rest = Ok lines /\
    Forall (fun l => (length l <= base_width)%nat) lines /\ flat_map words lines = words rest.
Proof.
  induction fuel as [|fuel IH]; intros first rest Hf Hw.
  - destruct rest; [|cbn [length] in Hf; lia]. exists []. split; [reflexivity|]. split; [constructor|reflexivity].
  - destruct rest as [|c0 rest0]; [exists []; split; [reflexivity|]; split; [constructor|reflexivity]|].
    set (rest := c0 :: rest0) in *.
    assert (Eq : wrap_from (S fuel) first rest =
      let p := skipn (skip_blanks rest) rest in
      if (length p <? base_width)%nat then Ok [p]
      else match break_at p base_width with
           | Some w => ls <- wrap_from fuel false (skipn w p) ;; Ok (firstn w p :: ls)
           | None => if first && (skip_blanks rest =? 0)%nat then UB else Loop
           end) by reflexivity.
    rewrite Eq. clear Eq. cbv zeta. destruct (skip_words rest) as [Sw Sb].
    assert (Lp : (length (skipn (skip_blanks rest) rest) <= length rest)%nat) by (rewrite skipn_length; lia).
    set (p := skipn (skip_blanks rest) rest) in *.
    rewrite <- Sw in Hw |- *. clearbody p.
    destruct (Nat.ltb_spec (length p) base_width) as [Lt|Ge].
    + exists [p]. split; [reflexivity|]. split; [constructor; [lia|constructor]|]. cbn [flat_map]. apply app_nil_r.
    + assert (Bk : exists k, (1 <= k <= base_width)%nat /\ nth_error p k = Some 32).
      { destruct (blank_split p) as [Nb|(a & b & -> & Nb)].
        - assert (Ne : p <> []) by (intros ->; cbn in Ge; unfold base_width in Ge; lia).
          rewrite (words_one p Ne Nb) in Hw. inversion Hw; subst. lia.
        - assert (Ne : a <> []) by (intros ->; exact (Sb b eq_refl)).
          rewrite words_cut, (words_one a Ne Nb) in Hw. cbn [app] in Hw. inversion Hw; subst.
          exists (length a). split.
          + destruct a; [contradiction Ne; reflexivity|]. cbn [length] in *. lia.
          + rewrite nth_error_app2 by lia. rewrite Nat.sub_diag. reflexivity. }
      destruct Bk as (k & Hk & Ek).
      destruct (break_at_spec p base_width k ltac:(lia) Ek) as (j & Ej & Hj & Nj). rewrite Ej.
      destruct (nth_error_split p j Nj) as (a & b & Ep & La).
      assert (F1 : firstn j p = a) by (rewrite Ep, <- La, firstn_app, firstn_all, Nat.sub_diag; cbn [firstn]; apply app_nil_r).
      assert (F2 : skipn j p = 32 :: b) by (rewrite Ep, <- La, skipn_app, skipn_all, Nat.sub_diag; reflexivity).
      rewrite F1, F2.
      assert (Wc : words p = words a ++ words (32 :: b)) by (rewrite Ep, words_cut; reflexivity).
      rewrite Wc in Hw |- *. apply Forall_app in Hw as [_ Hw2].
      destruct (IH false (32 :: b)) as (ls & E & A & B); [|exact Hw2|].
      { rewrite Ep in Lp. rewrite app_length in Lp. cbn [length] in *. lia. }
      rewrite E. cbn [obind]. exists (a :: ls). split; [reflexivity|]. split.
      * constructor; [lia|exact A].
      * cbn [flat_map]. rewrite B. reflexivity.
Qed.
