(** Proofs about option parsing. *)
From Verif Require Import Prelude OptsModel OptsSpec.
Local Open Scope Z_scope.

Lemma text_eqb_spec : forall a b, text_eqb a b = true <-> a = b.
Proof.
  induction a as [|x a IH]; intros [|y b]; cbn [text_eqb]; split; intros H; try discriminate; try reflexivity.
  - apply andb_true_iff in H as [A B]. apply Z.eqb_eq in A. apply IH in B. congruence.
  - injection H as -> ->. rewrite Z.eqb_refl. apply IH. reflexivity.
Qed.

Lemma text_eqb_refl : forall a, text_eqb a a = true.
Proof. intros. apply text_eqb_spec. reflexivity. Qed.

(** ** Numbers *)
Lemma digit_dec : forall c, dec_digit c -> digit_of 10 c = Some (digit_value c) /\ 0 <= digit_value c.
Proof.
  intros c H. unfold dec_digit in H. unfold digit_of, digit_value.
  destruct (Z.leb_spec 48 c); [|lia]. destruct (Z.leb_spec c 57); [|lia]. cbn [andb].
  destruct (Z.ltb_spec (c - 48) 10); [|lia]. split; [reflexivity|lia].
Qed.

Lemma digit_oct : forall c, oct_digit c -> digit_of 8 c = Some (digit_value c) /\ 0 <= digit_value c.
Proof.
  intros c H. unfold oct_digit in H. unfold digit_of, digit_value.
  destruct (Z.leb_spec 48 c); [|lia]. destruct (Z.leb_spec c 57); [|lia]. cbn [andb].
  destruct (Z.ltb_spec (c - 48) 8); [|lia]. split; [reflexivity|lia].
Qed.

Lemma digit_hex : forall c, hex_digit c -> digit_of 16 c = Some (digit_value c) /\ 0 <= digit_value c.
Proof.
  intros c H. unfold hex_digit in H. unfold digit_of, digit_value.
  destruct (Z.leb_spec 48 c); [|lia]. destruct (Z.leb_spec c 57); cbn [andb].
  - destruct (Z.ltb_spec (c - 48) 16); [|lia]. split; [reflexivity|lia].
  - destruct (Z.leb_spec 97 c); cbn [andb].
    + destruct (Z.leb_spec c 122); [|lia]. destruct (Z.leb_spec c 70); [lia|].
      destruct (Z.ltb_spec (c - 87) 16); [|lia]. split; [reflexivity|lia].
    + destruct (Z.leb_spec 65 c); [|lia]. destruct (Z.leb_spec c 90); [|lia]. cbn [andb].
      destruct (Z.leb_spec c 70); [|lia].
      destruct (Z.ltb_spec (c - 55) 16); [|lia]. split; [reflexivity|lia].
Qed.

Lemma read_all : forall base ds acc n, 0 <= base -> 0 <= acc ->
  Forall (fun c => digit_of base c = Some (digit_value c) /\ 0 <= digit_value c) ds ->
  read_digits base acc n ds = (fold_left (fun a c => a * base + digit_value c) ds acc, (n + length ds)%nat, [])
  /\ 0 <= fold_left (fun a c => a * base + digit_value c) ds acc.
Proof.
  intros base ds; induction ds as [|c ds IH]; intros acc n Hb Ha H; cbn [read_digits fold_left length].
  - rewrite Nat.add_0_r. split; [reflexivity|exact Ha].
  - inversion H as [|? ? [H1 H2] H3]; subst. rewrite H1.
    assert (Ha2 : 0 <= acc * base + digit_value c)
      by (pose proof (Z.mul_nonneg_nonneg acc base Ha Hb); apply Z.add_nonneg_nonneg; assumption).
    destruct (IH (acc * base + digit_value c) (S n) Hb Ha2 H3) as [A B].
    rewrite A. split; [|exact B]. replace (n + S (length ds))%nat with (S n + length ds)%nat by lia. reflexivity.
Qed.

Definition finish (neg : bool) (arg : text) (r : Z * nat * text) : Z * text * bool :=
  let '(v, n, rest) := r in
  match n with
  | O => (0, arg, false)
  | _ => let v := if neg then - v else v in
         if v <? LONG_MIN then (LONG_MIN, rest, true)
         else if LONG_MAX <? v then (LONG_MAX, rest, true)
         else (v, rest, false)
  end.
Definition pick_base (p : text) : Z * text :=
  match p with
  | 48 :: x :: h :: r =>
      if ((x =? 120) || (x =? 88)) && match digit_of 16 h with Some _ => true | None => false end
      then (16, h :: r) else (8, p)
  | 48 :: _ => (8, p)
  | _ => (10, p)
  end.
Definition pick_sign (p : text) : bool * text :=
  match p with 45 :: r => (true, r) | 43 :: r => (false, r) | _ => (false, p) end.

Lemma strtol0_eq : forall arg, strtol0 arg =
  let '(neg, p) := pick_sign (skip_space arg) in
  let '(base, q) := pick_base p in finish neg arg (read_digits base 0 0 q).
Proof. reflexivity. Qed.

Lemma unsigned_read : forall t n, unsigned t n ->
  0 <= n /\ exists b q k, pick_base t = (b, q) /\ read_digits b 0 0 q = (n, S k, []).
Proof.
  intros t n H. destruct H as [c ds Hc Nz Hd|ds Hd|x ds Hx Ne Hd].
  - assert (F : Forall (fun c => digit_of 10 c = Some (digit_value c) /\ 0 <= digit_value c) (c :: ds)).
    { constructor; [apply digit_dec; exact Hc|]. eapply Forall_impl; [|exact Hd]. apply digit_dec. }
    destruct (read_all 10 (c :: ds) 0 0 ltac:(lia) ltac:(lia) F) as [A B].
    split; [exact B|]. exists 10, (c :: ds), (length ds). split; [|exact A].
    unfold pick_base. unfold dec_digit in Hc.
    repeat (match goal with |- context [match ?c with _ => _ end] => is_var c; destruct c; try reflexivity; try lia end).
    
  - assert (F : Forall (fun c => digit_of 8 c = Some (digit_value c) /\ 0 <= digit_value c) (48 :: ds)).
    { constructor; [apply digit_oct; unfold oct_digit; lia|]. eapply Forall_impl; [|exact Hd]. apply digit_oct. }
    destruct (read_all 8 (48 :: ds) 0 0 ltac:(lia) ltac:(lia) F) as [A B].
    split; [exact B|]. exists 8, (48 :: ds), (length ds). split; [|exact A].
    unfold pick_base. destruct ds as [|x [|h r]]; try reflexivity.
    inversion Hd; subst. unfold oct_digit in *.
    destruct (Z.eqb_spec x 120); [lia|]. destruct (Z.eqb_spec x 88); [lia|]. reflexivity.
  - destruct ds as [|h r]; [contradiction Ne; reflexivity|].
    assert (F : Forall (fun c => digit_of 16 c = Some (digit_value c) /\ 0 <= digit_value c) (h :: r)).
    { eapply Forall_impl; [|exact Hd]. apply digit_hex. }
    destruct (read_all 16 (h :: r) 0 0 ltac:(lia) ltac:(lia) F) as [A B].
    split; [exact B|]. exists 16, (h :: r), (length r). split; [|exact A].
    unfold pick_base. inversion F as [|? ? [F1 _] _]; subst. rewrite F1.
    destruct Hx as [-> | -> ]; reflexivity.
Qed.

Lemma unsigned_head : forall t n, unsigned t n -> exists c r, t = c :: r /\ 48 <= c <= 57.
Proof.
  intros t n H. destruct H as [c ds Hc _ _|ds _|x ds _ _ _].
  - exists c, ds. split; [reflexivity|exact Hc].
  - exists 48, ds. split; [reflexivity|lia].
  - exists 48, (x :: ds). split; [reflexivity|lia].
Qed.

Lemma isspace_head : forall c, 33 <= c -> isspace c = false.
Proof.
  intros c H. unfold isspace. destruct (Z.eqb_spec c 32); [lia|].
  destruct (Z.leb_spec 9 c); [|lia]. destruct (Z.leb_spec c 13); [lia|]. reflexivity.
Qed.

Lemma skip_space_head : forall c r, 33 <= c -> skip_space (c :: r) = c :: r.
Proof. intros c r H. cbn [skip_space]. rewrite isspace_head by exact H. reflexivity. Qed.

Lemma pick_sign_digit : forall c r, 48 <= c <= 57 -> pick_sign (c :: r) = (false, c :: r).
Proof.
  intros c r H. assert (K : c = 48 \/ c = 49 \/ c = 50 \/ c = 51 \/ c = 52 \/ c = 53 \/ c = 54 \/
                            c = 55 \/ c = 56 \/ c = 57) by lia.
  repeat (destruct K as [-> | K]; [reflexivity|]). subst. reflexivity.
Qed.

Lemma finish_ok : forall (neg : bool) arg n k rest,
  LONG_MIN <= (if neg then - n else n) <= LONG_MAX ->
  finish neg arg (n, S k, rest) = ((if neg then - n else n), rest, false).
Proof.
  intros neg arg n k rest H. unfold finish. cbv zeta.
  destruct (Z.ltb_spec (if neg then - n else n) LONG_MIN); [lia|].
  destruct (Z.ltb_spec LONG_MAX (if neg then - n else n)); [lia|]. reflexivity.
Qed.

Lemma strtol0_numeral : forall t n, numeral t n -> strtol0 t = (n, [], false).
Proof.
  intros t n H. rewrite strtol0_eq.
  assert (L1 : LONG_MIN = - 2 ^ 63) by reflexivity.
  assert (L2 : LONG_MAX = 2 ^ 63 - 1) by reflexivity.
  destruct H as [t n U B|t n U B|t n U B];
    destruct (unsigned_read t n U) as (P0 & b & q & k & Hb & Hr);
    destruct (unsigned_head t n U) as (c & r & -> & Hc).
  - rewrite skip_space_head by lia. rewrite pick_sign_digit by lia. rewrite Hb, Hr.
    apply (finish_ok false). lia.
  - rewrite skip_space_head by lia. cbn [pick_sign]. rewrite Hb, Hr. apply (finish_ok false). lia.
  - rewrite skip_space_head by lia. cbn [pick_sign]. rewrite Hb, Hr. apply (finish_ok true). lia.
Qed.

Lemma strtol0_overflow : forall t n, overflows t n -> strtol0 t = (n, [], true).
Proof.
  intros t n H. rewrite strtol0_eq.
  assert (L1 : LONG_MIN = - 2 ^ 63) by reflexivity. assert (L2 : LONG_MAX = 2 ^ 63 - 1) by reflexivity.
  destruct H as [t n U B|t n U B|t n U B];
    destruct (unsigned_read t n U) as (P0 & b & q & k & Hb & Hr);
    destruct (unsigned_head t n U) as (c & r & -> & Hc).
  - rewrite skip_space_head by lia. rewrite pick_sign_digit by lia. rewrite Hb, Hr. unfold finish. cbv zeta.
    destruct (Z.ltb_spec n LONG_MIN); [lia|]. destruct (Z.ltb_spec LONG_MAX n); [|lia]. now rewrite L2.
  - rewrite skip_space_head by lia. cbn [pick_sign]. rewrite Hb, Hr. unfold finish. cbv zeta.
    destruct (Z.ltb_spec n LONG_MIN); [lia|]. destruct (Z.ltb_spec LONG_MAX n); [|lia]. now rewrite L2.
  - rewrite skip_space_head by lia. cbn [pick_sign]. rewrite Hb, Hr. unfold finish. cbv zeta.
    destruct (Z.ltb_spec (- n) LONG_MIN); [|lia]. now rewrite L1.
Qed.

(** and conversely *)
Lemma digit_of_inv : forall base c v, (base = 8 \/ base = 10 \/ base = 16) ->
  digit_of base c = Some v ->
  v = digit_value c /\ (base = 8 -> oct_digit c) /\ (base = 10 -> dec_digit c) /\ (base = 16 -> hex_digit c).
Proof.
  intros base c v Hb. unfold digit_of, digit_value, oct_digit, dec_digit, hex_digit.
  destruct (Z.leb_spec 48 c), (Z.leb_spec c 57), (Z.leb_spec 97 c), (Z.leb_spec c 122),
    (Z.leb_spec 65 c), (Z.leb_spec c 90), (Z.leb_spec c 70); cbn [andb]; cbv zeta;
  match goal with |- (if ?a <? ?b then _ else _) = _ -> _ => destruct (Z.ltb_spec a b) end;
  intros E; try discriminate; injection E as <-; lia.
Qed.

Lemma read_inv : forall base ds acc n v m, (base = 8 \/ base = 10 \/ base = 16) ->
  read_digits base acc n ds = (v, m, []) ->
  v = fold_left (fun a c => a * base + digit_value c) ds acc /\ m = (n + length ds)%nat /\
  Forall (fun c => (base = 8 -> oct_digit c) /\ (base = 10 -> dec_digit c) /\ (base = 16 -> hex_digit c)) ds.
Proof.
  intros base ds; induction ds as [|c ds IH]; intros acc n v m Hb; cbn [read_digits fold_left length].
  - intros E. injection E as <- <-. split; [reflexivity|]. split; [lia|constructor].
  - destruct (digit_of base c) as [x|] eqn:Ed; [|discriminate].
    intros E. destruct (digit_of_inv base c x Hb Ed) as [-> Hx].
    destruct (IH _ _ _ _ Hb E) as (A & B & C). split; [exact A|]. split; [lia|].
    constructor; assumption.
Qed.

Lemma pick_base_cases : forall p, 
  (exists x h r, p = 48 :: x :: h :: r /\ (x = 120 \/ x = 88) /\ pick_base p = (16, h :: r)) \/
  (exists r, p = 48 :: r /\ pick_base p = (8, p)) \/
  ((forall r, p <> 48 :: r) /\ pick_base p = (10, p)).
Proof.
  intros p. destruct p as [|c p].
  { right; right. split; [discriminate|reflexivity]. }
  destruct (Z.eq_dec c 48) as [-> |Hc].
  - destruct p as [|x [|h r]].
    + right; left. exists []. split; reflexivity.
    + right; left. exists [x]. split; reflexivity.
    + unfold pick_base.
      destruct (Z.eqb_spec x 120), (Z.eqb_spec x 88); cbn [orb andb];
        try (right; left; exists (x :: h :: r); split; reflexivity);
        (destruct (digit_of 16 h);
         [left; exists x, h, r; split; [reflexivity|split; [lia|reflexivity]]
         |right; left; exists (x :: h :: r); split; reflexivity]).
  - right; right. split; [intros r E; injection E as E _; exact (Hc E)|].
    unfold pick_base.
    repeat (match goal with |- context [match ?c with _ => _ end] => is_var c; destruct c; try reflexivity; try (contradiction Hc; reflexivity) end).
Qed.

Lemma read_unsigned : forall p v k, 
  (let '(b, q) := pick_base p in read_digits b 0 0 q) = (v, S k, []) -> unsigned p v.
Proof.
  intros p v k H. destruct (pick_base_cases p) as [(x & h & r & -> & Hx & E)|[(r & -> & E)|[Hn E]]];
    rewrite E in H; apply read_inv in H; try tauto; destruct H as (-> & Hl & F).
  - apply u_hex; [exact Hx|discriminate|]. eapply Forall_impl; [|exact F]. cbn beta. tauto.
  - assert (V : fold_left (fun a c => a * 8 + digit_value c) (48 :: r) 0 = value 8 r) by reflexivity.
    rewrite V. apply u_oct. inversion F as [|? ? _ F2]; subst.
    eapply Forall_impl; [|exact F2]. cbn beta. tauto.
  - destruct p as [|c p]; [discriminate|].
    inversion F as [|? ? F1 F2]; subst. apply u_dec; [tauto| |].
    + intros ->. exact (Hn p eq_refl).
    + eapply Forall_impl; [|exact F2]. cbn beta. tauto.
Qed.

Lemma pick_sign_cases : forall p,
  (exists r, p = 45 :: r /\ pick_sign p = (true, r)) \/
  (exists r, p = 43 :: r /\ pick_sign p = (false, r)) \/
  ((forall r, p <> 45 :: r) /\ (forall r, p <> 43 :: r) /\ pick_sign p = (false, p)).
Proof.
  intros [|c p]; [right; right; repeat split; discriminate|].
  destruct (Z.eq_dec c 45) as [-> |N1]; [left; exists p; split; reflexivity|].
  destruct (Z.eq_dec c 43) as [-> |N2]; [right; left; exists p; split; reflexivity|].
  right; right. split; [intros r E; injection E as E _; exact (N1 E)|].
  split; [intros r E; injection E as E _; exact (N2 E)|].
  unfold pick_sign.
  repeat (match goal with |- context [match ?c with _ => _ end] => is_var c; destruct c; try reflexivity; try (contradiction N1; reflexivity); try (contradiction N2; reflexivity) end).
Qed.

Lemma skip_space_id : forall t, (forall c r, t = c :: r -> isspace c = false) -> skip_space t = t.
Proof.
  intros [|c r] H; [reflexivity|]. cbn [skip_space]. rewrite (H c r eq_refl). reflexivity.
Qed.

Lemma strtol0_numeral_inv : forall t n, t <> [] -> (forall c r, t = c :: r -> isspace c = false) ->
  strtol0 t = (n, [], false) -> numeral t n.
Proof.
  intros t n Ne Hs. rewrite strtol0_eq. rewrite skip_space_id by exact Hs.
  assert (L1 : LONG_MIN = - 2 ^ 63) by reflexivity.
  assert (L2 : LONG_MAX = 2 ^ 63 - 1) by reflexivity.
  assert (G : forall (neg : bool) p, (let '(b, q) := pick_base p in finish neg t (read_digits b 0 0 q)) = (n, [], false) ->
             exists v, unsigned p v /\ n = (if neg then - v else v) /\ LONG_MIN <= n <= LONG_MAX).
  { intros neg p E.
    pose proof (read_unsigned p) as R. destruct (pick_base p) as [b q].
    destruct (read_digits b 0 0 q) as [[v m] rest] eqn:Er. unfold finish in E.
    destruct m as [|m]; [injection E as _ E2; congruence|]. cbv zeta in E.
    destruct (Z.ltb_spec (if neg then - v else v) LONG_MIN); [discriminate|].
    destruct (Z.ltb_spec LONG_MAX (if neg then - v else v)); [discriminate|].
    assert (E1 : n = (if neg then - v else v)) by congruence.
    assert (E2 : rest = []) by congruence. subst rest.
    exists v. split; [apply (R v m); reflexivity|]. split; [exact E1|lia]. }
  destruct (pick_sign_cases t) as [(r & E0 & E)|[(r & E0 & E)|(N1 & N2 & E)]]; rewrite E; intros H;
    destruct (G _ _ H) as (v & U & -> & B); rewrite ?E0.
  - apply n_minus; [exact U|]. rewrite L1 in B. lia.
  - apply n_plus; [exact U|lia].
  - apply n_plain; [exact U|lia].
Qed.

(** ** Booleans *)
Lemma lower_cases : forall c x, 97 <= x <= 122 -> lower c = x <-> (c = x \/ c = x - 32).
Proof.
  intros c x H. unfold lower. destruct (Z.leb_spec 65 c), (Z.leb_spec c 90); cbn [andb]; lia.
Qed.

Lemma case_eqb_spec : forall a b, case_eqb a b = true <-> map lower a = map lower b.
Proof. intros. unfold case_eqb. apply text_eqb_spec. Qed.

Lemma bool_of_truth : forall t b, bool_of t = Some b <-> truth t b.
Proof.
  intros t b. unfold truth. cbv zeta. change lower_case with lower. change [116; 114; 117; 101] with w_true. change [121; 101; 115] with w_yes. change [102; 97; 108; 115; 101] with w_false. change [110; 111] with w_no.
  assert (Wt : map lower w_true = w_true) by reflexivity.
  assert (Wy : map lower w_yes = w_yes) by reflexivity.
  assert (Wf : map lower w_false = w_false) by reflexivity.
  assert (Wn : map lower w_no = w_no) by reflexivity.
  assert (long : (forall c, t <> [c]) -> 
    (if case_eqb t w_true || case_eqb t w_yes then Some 1
     else if case_eqb t w_false || case_eqb t w_no then Some 0 else None) = Some b <-> truth t b).
  { intros Hl. unfold truth. cbv zeta. change lower_case with lower. change [116; 114; 117; 101] with w_true. change [121; 101; 115] with w_yes. change [102; 97; 108; 115; 101] with w_false. change [110; 111] with w_no.
    assert (H1 : forall x, map lower t <> [x]).
    { intros x E. destruct t as [|c [|d r]]; try discriminate. exact (Hl c eq_refl). }
    destruct (case_eqb t w_true) eqn:E1; [apply case_eqb_spec in E1; rewrite Wt in E1|
      assert (N1 : map lower t <> w_true) by (intros E; rewrite <- Wt in E; apply case_eqb_spec in E; congruence)];
    (destruct (case_eqb t w_yes) eqn:E2; [apply case_eqb_spec in E2; rewrite Wy in E2|
      assert (N2 : map lower t <> w_yes) by (intros E; rewrite <- Wy in E; apply case_eqb_spec in E; congruence)]);
    (destruct (case_eqb t w_false) eqn:E3; [apply case_eqb_spec in E3; rewrite Wf in E3|
      assert (N3 : map lower t <> w_false) by (intros E; rewrite <- Wf in E; apply case_eqb_spec in E; congruence)]);
    (destruct (case_eqb t w_no) eqn:E4; [apply case_eqb_spec in E4; rewrite Wn in E4|
      assert (N4 : map lower t <> w_no) by (intros E; rewrite <- Wn in E; apply case_eqb_spec in E; congruence)]);
    cbn [orb]; (split;
      [intros E; try discriminate; injection E as <-; tauto
      |intros [[-> K]|[-> K]]; try reflexivity; exfalso;
       destruct K as [K|[K|[K|K]]]; try (exact (H1 _ K)); try congruence;
       match goal with
       | A : map lower t = ?x, B : map lower t = ?y |- _ => rewrite A in B; discriminate B
       end]). }
  destruct t as [|c [|d r]]; [apply long; discriminate| |apply long; discriminate].
  cbn [bool_of map]. clear long.
  assert (S1 : forall x, 97 <= x <= 122 -> [lower c] = [x] <-> c = x \/ c = x - 32).
  { intros x Hx. rewrite <- (lower_cases c x Hx). split; [intros E; injection E as E; exact E|intros ->; reflexivity]. }
  rewrite !S1 by lia. unfold w_true, w_yes, w_false, w_no.
  destruct (Z.eqb_spec c 116), (Z.eqb_spec c 84), (Z.eqb_spec c 121), (Z.eqb_spec c 89); cbn [orb];
    try (split; [intros E; injection E as <-; left; split; [reflexivity|lia]
                |intros [[-> _]|[_ [K|[K|[K|K]]]]]; [reflexivity|lia|lia|discriminate K|discriminate K]]).
  destruct (Z.eqb_spec c 102), (Z.eqb_spec c 70), (Z.eqb_spec c 110), (Z.eqb_spec c 78); cbn [orb];
    try (split; [intros E; injection E as <-; right; split; [reflexivity|lia]
                |intros [[_ [K|[K|[K|K]]]]|[-> _]]; [lia|lia|discriminate K|discriminate K|reflexivity]]).
  split; [discriminate|].
  intros [[_ [K|[K|[K|K]]]]|[_ [K|[K|[K|K]]]]]; try discriminate K; lia.
Qed.
