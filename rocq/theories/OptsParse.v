(** Proofs about option parsing: the table check and the argument loop. *)
From Verif Require Import Prelude OptsModel OptsSpec OptsProofs.
Local Open Scope Z_scope.

(** ** Table check *)
Lemma same_short_spec : forall a b, same_short a b = true <-> sopt a <> None /\ sopt a = sopt b.
Proof.
  intros a b. unfold same_short. destruct (sopt b) as [x|], (sopt a) as [y|];
    (split; [intros H; try discriminate|intros [H1 H2]; try discriminate; try congruence]).
  - apply Z.eqb_eq in H. split; congruence.
  - injection H2 as ->. apply Z.eqb_refl.
Qed.

Lemma same_long_spec : forall a b, same_long a b = true <-> lopt a <> None /\ lopt a = lopt b.
Proof.
  intros a b. unfold same_long. destruct (lopt b) as [x|], (lopt a) as [y|];
    (split; [intros H; try discriminate|intros [H1 H2]; try discriminate; try congruence]).
  - apply text_eqb_spec in H. split; congruence.
  - injection H2 as ->. apply text_eqb_refl.
Qed.

Definition distinct (a b : def) : Prop :=
  (sopt a <> None -> sopt a <> sopt b) /\ (lopt a <> None -> lopt a <> lopt b).

Lemma distinct_dec : forall a b, 
  (distinct a b /\ same_short a b = false /\ same_long a b = false) \/
  (~ distinct a b /\ (same_short a b = true \/ same_long a b = true)).
Proof.
  intros a b. destruct (same_short a b) eqn:E1, (same_long a b) eqn:E2.
  - right. split; [|left; reflexivity]. apply same_short_spec in E1. unfold distinct. tauto.
  - right. split; [|left; reflexivity]. apply same_short_spec in E1. unfold distinct. tauto.
  - right. split; [|right; reflexivity]. apply same_long_spec in E2. unfold distinct. tauto.
  - left. split; [|split; reflexivity]. split; intros H K.
    + assert (same_short a b = true) by (apply same_short_spec; split; assumption). congruence.
    + assert (same_long a b = true) by (apply same_long_spec; split; assumption). congruence.
Qed.

Lemma validate_pairs_spec : forall i d rest x e,
  (validate_pairs true i x d rest e = Ok e /\
   forall k d2, nth_error rest k = Some d2 -> (x + k)%nat <> i -> distinct d d2) \/
  (validate_pairs true i x d rest e = Abort /\
   exists k d2, nth_error rest k = Some d2 /\ (x + k)%nat <> i /\ ~ distinct d d2).
Proof.
  intros i d rest; induction rest as [|d2 r IH]; intros x e; cbn [validate_pairs].
  - left. split; [reflexivity|]. intros [|k] d2 H; discriminate H.
  - destruct (Nat.eqb_spec x i) as [Ex|Ex].
    + cbn [obind]. destruct (IH (S x) e) as [[A B]|[A (k & d3 & B & C & D)]].
      * left. split; [exact A|]. intros [|k] d3 H Hk; [lia|]. apply (B k d3 H). lia.
      * right. split; [exact A|]. exists (S k), d3. split; [exact B|]. split; [lia|exact D].
    + destruct (distinct_dec d d2) as [(D & -> & ->)|[D K]].
      * unfold check. cbn [obind]. destruct (IH (S x) e) as [[A B]|[A (k & d3 & B & C & D')]].
        -- left. split; [exact A|]. intros [|k] d3 H Hk; [injection H as <-; exact D|]. apply (B k d3 H). lia.
        -- right. split; [exact A|]. exists (S k), d3. split; [exact B|]. split; [lia|exact D'].
      * right. split.
        -- unfold check, error. destruct (same_short d d2); [reflexivity|].
           destruct K as [K|K]; [discriminate|]. rewrite K. reflexivity.
        -- exists 0%nat, d2. split; [reflexivity|]. split; [lia|exact D].
Qed.

Definition entry_ok (d : def) : Prop :=
  (sopt d <> None \/ lopt d <> None) /\ help d <> None /\
  (forall c, sopt d = Some c -> 48 <= c <= 57 \/ 65 <= c <= 90 \/ 97 <= c <= 122).

Lemma alnum_spec : forall c, alnum c = true <-> 48 <= c <= 57 \/ 65 <= c <= 90 \/ 97 <= c <= 122.
Proof.
  intros c. unfold alnum.
  destruct (Z.leb_spec 48 c), (Z.leb_spec c 57), (Z.leb_spec 65 c), (Z.leb_spec c 90),
    (Z.leb_spec 97 c), (Z.leb_spec c 122); cbn [andb orb]; split; intros; try discriminate; try reflexivity; lia.
Qed.

Lemma validate_from_spec : forall all rest i e,
  (validate_from true all i rest e = Ok e /\
   forall k d, nth_error rest k = Some d -> entry_ok d /\
     forall j d2, nth_error all j = Some d2 -> j <> (i + k)%nat -> distinct d d2) \/
  (validate_from true all i rest e = Abort /\
   exists k d, nth_error rest k = Some d /\
     (~ entry_ok d \/ exists j d2, nth_error all j = Some d2 /\ j <> (i + k)%nat /\ ~ distinct d d2)).
Proof.
  intros all rest; induction rest as [|d r IH]; intros i e; cbn [validate_from].
  - left. split; [reflexivity|]. intros [|k] d H; discriminate H.
  - assert (Ab : forall X : Prop, ~ entry_ok d -> X \/ (@Abort env = Abort /\ exists k d0,
        nth_error (d :: r) k = Some d0 /\ (~ entry_ok d0 \/ 
        exists j d2, nth_error all j = Some d2 /\ j <> (i + k)%nat /\ ~ distinct d0 d2))).
    { intros X H. right. split; [reflexivity|]. exists 0%nat, d. split; [reflexivity|]. left. exact H. }
    unfold check, error.
    destruct (help d) as [h|] eqn:Eh.
    2:{ destruct (sopt d), (lopt d); cbn [obind]; apply Ab; intros (_ & K & _); congruence. }
    destruct (sopt d) as [c|] eqn:Es.
    + cbn [obind]. destruct (alnum c) eqn:Ea; cbn [negb obind].
      2:{ apply Ab. intros (_ & _ & K). specialize (K c Es). apply alnum_spec in K. congruence. }
      assert (Eok : entry_ok d).
      { unfold entry_ok. rewrite Es, Eh. split; [left; discriminate|]. split; [discriminate|].
        intros c0 E. injection E as <-. apply alnum_spec. exact Ea. }
      destruct (validate_pairs_spec i d all 0 e) as [[A B]|[A (k & d2 & B & C & D)]]; rewrite A; cbn [obind].
      * destruct (IH (S i) e) as [[P Q]|[P (k & d3 & Q & R)]].
        -- left. split; [exact P|]. intros [|k] d3 H.
           ++ injection H as <-. split; [exact Eok|]. intros j d2 Hj Nj. apply (B j d2 Hj). lia.
           ++ destruct (Q k d3 H) as [Q1 Q2]. split; [exact Q1|]. intros j d2 Hj Nj. apply (Q2 j d2 Hj). lia.
        -- right. split; [exact P|]. exists (S k), d3. split; [exact Q|].
           destruct R as [R|(j & d2 & R1 & R2 & R3)]; [left; exact R|]. right. exists j, d2. repeat split; [exact R1|lia|exact R3].
      * right. split; [reflexivity|]. exists 0%nat, d. split; [reflexivity|]. right. exists k, d2. repeat split; [exact B|lia|exact D].
    + destruct (lopt d) as [l|] eqn:El.
      2:{ cbn [obind]. apply Ab. intros ([K|K] & _); congruence. }
      cbn [obind].
      assert (Eok : entry_ok d).
      { unfold entry_ok. rewrite Es, Eh, El. split; [right; discriminate|]. split; [discriminate|]. discriminate. }
      destruct (validate_pairs_spec i d all 0 e) as [[A B]|[A (k & d2 & B & C & D)]]; rewrite A; cbn [obind].
      * destruct (IH (S i) e) as [[P Q]|[P (k & d3 & Q & R)]].
        -- left. split; [exact P|]. intros [|k] d3 H.
           ++ injection H as <-. split; [exact Eok|]. intros j d2 Hj Nj. apply (B j d2 Hj). lia.
           ++ destruct (Q k d3 H) as [Q1 Q2]. split; [exact Q1|]. intros j d2 Hj Nj. apply (Q2 j d2 Hj). lia.
        -- right. split; [exact P|]. exists (S k), d3. split; [exact Q|].
           destruct R as [R|(j & d2 & R1 & R2 & R3)]; [left; exact R|]. right. exists j, d2. repeat split; [exact R1|lia|exact R3].
      * right. split; [reflexivity|]. exists 0%nat, d. split; [reflexivity|]. right. exists k, d2. repeat split; [exact B|lia|exact D].
Qed.

Lemma validate_spec : forall defs e,
  (valid_table defs /\ validate true defs e = Ok e) \/ (~ valid_table defs /\ validate true defs e = Abort).
Proof.
  intros defs e. unfold validate.
  destruct (validate_from_spec defs defs 0 e) as [[A B]|[A (k & d & K & R)]].
  - left. split; [|exact A]. split.
    + intros d H. apply In_nth_error in H as [k H]. exact (proj1 (B k d H)).
    + intros i j d1 d2 Hi Hj Nij. destruct (B i d1 Hi) as [_ Q]. apply (Q j d2 Hj). cbn. lia.
  - right. split; [|exact A]. intros [V1 V2]. destruct R as [R|(j & d2 & R1 & R2 & R3)].
    + apply R. apply V1. eapply nth_error_In. exact K.
    + apply R3. cbn in R2. apply (V2 k j d d2 K R1). lia.
Qed.

Lemma check_any : forall s b e, check true b e = Ok e -> check s b e = Ok e.
Proof. intros s [] e H; [discriminate H|reflexivity]. Qed.

Lemma check_same : forall b e e1, check true b e = Ok e1 -> e1 = e.
Proof. intros [] e e1 H; [discriminate H|]. unfold check in H. congruence. Qed.

Lemma validate_pairs_any : forall s i d rest x e, validate_pairs true i x d rest e = Ok e ->
  validate_pairs s i x d rest e = Ok e.
Proof.
  intros s i d rest; induction rest as [|d2 r IH]; intros x e H; cbn [validate_pairs] in *; [reflexivity|].
  destruct (Nat.eqb x i); cbn [obind] in *; [apply IH; exact H|].
  destruct (check true (same_short d d2) e) as [e1| | |] eqn:E1; try discriminate H.
  pose proof (check_same _ _ _ E1) as ->. cbn [obind] in H.
  destruct (check true (same_long d d2) e) as [e1| | |] eqn:E2; try discriminate H.
  pose proof (check_same _ _ _ E2) as ->. cbn [obind] in H.
  rewrite (check_any s _ _ E1). cbn [obind]. rewrite (check_any s _ _ E2). cbn [obind]. apply IH. exact H.
Qed.

Lemma validate_from_any : forall s all rest i e, validate_from true all i rest e = Ok e ->
  validate_from s all i rest e = Ok e.
Proof.
  intros s all rest; induction rest as [|d r IH]; intros i e H; cbn [validate_from] in *; [reflexivity|].
  destruct (check true (match sopt d, lopt d with None, None => true | _, _ => false end) e) as [e1| | |] eqn:E1; try discriminate H.
  pose proof (check_same _ _ _ E1) as ->. cbn [obind] in H. rewrite (check_any s _ _ E1). cbn [obind].
  destruct (check true (match help d with None => true | Some _ => false end) e) as [e1| | |] eqn:E2; try discriminate H.
  pose proof (check_same _ _ _ E2) as ->. cbn [obind] in H. rewrite (check_any s _ _ E2). cbn [obind].
  destruct (check true (match sopt d with Some c => negb (alnum c) | None => false end) e) as [e1| | |] eqn:E3; try discriminate H.
  pose proof (check_same _ _ _ E3) as ->. cbn [obind] in H. rewrite (check_any s _ _ E3). cbn [obind].
  destruct (validate_pairs_spec i d all 0 e) as [[P _]|[P _]]; rewrite P in H; [|discriminate H].
  rewrite (validate_pairs_any s i d all 0 e P). cbn [obind] in *. apply IH. exact H.
Qed.

Lemma validate_any : forall s defs e, valid_table defs -> validate s defs e = Ok e.
Proof.
  intros s defs e V. apply validate_from_any.
  destruct (validate_spec defs e) as [[_ E]|[N _]]; [exact E|contradiction (N V)].
Qed.

(** ** Looking an option up *)
Section Table.
Variable defs : list def.
Hypothesis V : valid_table defs.
Hypothesis G : good_names defs.

Lemma same_entry : forall a b, In a defs -> In b defs ->
  (exists c, sopt a = Some c /\ sopt b = Some c) \/ (exists l, lopt a = Some l /\ lopt b = Some l) -> a = b.
Proof.
  intros a b Ha Hb K. apply In_nth_error in Ha as [i Hi]. apply In_nth_error in Hb as [j Hj].
  destruct (Nat.eq_dec i j) as [-> |N]; [congruence|]. exfalso.
  destruct (proj2 V i j a b Hi Hj N) as [A B]. destruct K as [(c & K1 & K2)|(l & K1 & K2)].
  - apply A; congruence.
  - apply B; congruence.
Qed.

Lemma find_opt_some : forall p len ds d, find_opt p len ds = Some d -> In d ds /\ matches p len d = true.
Proof.
  intros p len ds; induction ds as [|x ds IH]; intros d; cbn [find_opt]; [discriminate|].
  destruct (matches p len x) eqn:E.
  - intros H. injection H as ->. split; [left; reflexivity|exact E].
  - intros H. destruct (IH d H) as [A B]. split; [right; exact A|exact B].
Qed.

Lemma find_opt_none : forall p len ds, find_opt p len ds = None -> forall d, In d ds -> matches p len d = false.
Proof.
  intros p len ds; induction ds as [|x ds IH]; cbn [find_opt]; [intros _ d []|].
  destruct (matches p len x) eqn:E; [discriminate|].
  intros H d [-> |K]; [exact E|apply (IH H d K)].
Qed.

Lemma matches_short : forall p d, In d defs -> matches p 0 d = true ->
  exists c r, p = c :: r /\ sopt d = Some c.
Proof.
  intros p d Hd. unfold matches. cbn [Nat.eqb andb].
  assert (N : match lopt d with Some l => (length l =? 0)%nat && text_eqb (firstn 0 p) l | None => false end = false).
  { destruct (lopt d) as [l|] eqn:El; [|reflexivity].
    destruct (G d l Hd El) as (c & r & -> & _ & _). reflexivity. }
  rewrite N, orb_false_r. destruct (sopt d) as [c|] eqn:Es; [|discriminate].
  destruct p as [|h p]; intros H; apply Z.eqb_eq in H.
  - subst c. destruct (proj1 V d Hd) as (_ & _ & K). specialize (K _ Es). lia.
  - subst. exists c, p. split; reflexivity.
Qed.

Lemma find_short : forall d c r, In d defs -> sopt d = Some c -> find_opt (c :: r) 0 defs = Some d.
Proof.
  intros d c r Hd Hs. destruct (find_opt (c :: r) 0 defs) as [x|] eqn:E.
  - apply find_opt_some in E as [Hx M]. apply matches_short in M as (c' & r' & Ep & Es); [|exact Hx].
    injection Ep as <- <-. f_equal. apply same_entry; [exact Hx|exact Hd|]. left. exists c. split; assumption.
  - exfalso. pose proof (find_opt_none _ _ _ E d Hd) as M. unfold matches in M. rewrite Hs, Z.eqb_refl in M. discriminate M.
Qed.

Lemma find_short_none : forall c r, (forall d, In d defs -> sopt d <> Some c) -> find_opt (c :: r) 0 defs = None.
Proof.
  intros c r H. destruct (find_opt (c :: r) 0 defs) as [x|] eqn:E; [|reflexivity]. exfalso.
  apply find_opt_some in E as [Hx M]. apply matches_short in M as (c' & r' & Ep & Es); [|exact Hx].
  injection Ep as <- <-. exact (H x Hx Es).
Qed.

Lemma find_short_empty : find_opt [] 0 defs = None.
Proof.
  destruct (find_opt [] 0 defs) as [x|] eqn:E; [|reflexivity]. exfalso.
  apply find_opt_some in E as [Hx M]. apply matches_short in M as (c' & r' & Ep & Es); [|exact Hx]. discriminate Ep.
Qed.

Lemma matches_long : forall p len d, len <> O -> matches p len d = true ->
  lopt d = Some (firstn len p) /\ length (firstn len p) = len.
Proof.
  intros p len d Hl. unfold matches. destruct (Nat.eqb_spec len 0); [lia|]. cbn [andb orb].
  destruct (lopt d) as [l|]; [|discriminate]. intros H. apply andb_true_iff in H as [A B].
  apply Nat.eqb_eq in A. apply text_eqb_spec in B. rewrite B. split; [reflexivity|exact A].
Qed.

Lemma name_len_plain : forall l, ~ In equal l -> name_len l = length l.
Proof.
  induction l as [|c l IH]; intros H; cbn [name_len length]; [reflexivity|].
  destruct (Z.eqb_spec c equal) as [-> |N]; [contradiction H; left; reflexivity|].
  rewrite IH; [reflexivity|]. intros K. apply H. right. exact K.
Qed.

Lemma name_len_equal : forall l v, ~ In equal l -> name_len (l ++ equal :: v) = length l.
Proof.
  induction l as [|c l IH]; intros v H; cbn [name_len length app]; [reflexivity|].
  destruct (Z.eqb_spec c equal) as [-> |N]; [contradiction H; left; reflexivity|].
  rewrite IH; [reflexivity|]. intros K. apply H. right. exact K.
Qed.

Lemma name_len_le : forall p, (name_len p <= length p)%nat /\ ~ In equal (firstn (name_len p) p).
Proof.
  induction p as [|c p [IH1 IH2]]; cbn [name_len length]; [split; [lia|intros []]|].
  destruct (Z.eqb_spec c equal) as [E|N]; [split; [lia|intros []]|].
  split; [lia|]. cbn [firstn]. intros [K|K]; [exact (N K)|exact (IH2 K)].
Qed.

Lemma find_long : forall d l q, In d defs -> lopt d = Some l -> 
  find_opt (l ++ q) (length l) defs = Some d.
Proof.
  intros d l q Hd Hl.
  assert (F : firstn (length l) (l ++ q) = l) by (rewrite firstn_app, firstn_all, Nat.sub_diag; cbn; apply app_nil_r).
  destruct (find_opt (l ++ q) (length l) defs) as [x|] eqn:E.
  - apply find_opt_some in E as [Hx M].
    assert (Hn : length l <> O). { destruct (G d l Hd Hl) as (c & r & -> & _ & _). discriminate. }
    apply matches_long in M as [M _]; [|exact Hn]. rewrite F in M.
    f_equal. apply same_entry; [exact Hx|exact Hd|]. right. exists l. split; assumption.
  - exfalso. pose proof (find_opt_none _ _ _ E d Hd) as M. unfold matches in M.
    rewrite Hl, F, Nat.eqb_refl, text_eqb_refl, orb_true_r in M. discriminate M.
Qed.

(** ** Values *)
Lemma skip_name : forall l q, good_name l -> skip_dashes (dash :: dash :: l ++ q) = l ++ q.
Proof.
  intros l q (c & r & -> & N & _). change ((if c =? dash then skip_dashes (r ++ q) else c :: r ++ q) = c :: r ++ q). destruct (Z.eqb_spec c dash) as [E|_]; [contradiction (N E)|reflexivity].
Qed.

Lemma after_equal_none : forall p, ~ In equal p -> after_equal p = None.
Proof.
  induction p as [|c p IH]; intros H; cbn [after_equal]; [reflexivity|].
  destruct (Z.eqb_spec c equal) as [-> |N]; [contradiction H; left; reflexivity|].
  apply IH. intros K. apply H. right. exact K.
Qed.

Lemma after_equal_some : forall l v, ~ In equal l -> after_equal (l ++ equal :: v) = Some v.
Proof.
  induction l as [|c l IH]; intros v H; cbn [after_equal app]; [reflexivity|].
  destruct (Z.eqb_spec c equal) as [-> |N]; [contradiction H; left; reflexivity|].
  apply IH. intros K. apply H. right. exact K.
Qed.

Variable stops : bool.

Lemma get_value_long : forall (argv : list text) i d l v e, lopt d = Some l -> good_name l ->
  nth_error argv i = Some (dash :: dash :: l) -> nth_error argv (S i) = Some v ->
  get_value stops i d argv e = Ok (Some v, 1, e).
Proof.
  intros argv i d l v e Hl Hg A B. unfold get_value. rewrite A. cbv zeta.
  pose proof (skip_name l [] Hg) as S1. rewrite app_nil_r in S1. rewrite S1.
  destruct Hg as (c & r & El & N & Ne). rewrite after_equal_none by (exact Ne).
  rewrite Hl, text_eqb_refl. cbn [obind]. rewrite B. reflexivity.
Qed.

Lemma get_value_equal : forall (argv : list text) i d l v e, lopt d = Some l -> good_name l ->
  nth_error argv i = Some (dash :: dash :: l ++ equal :: v) ->
  get_value stops i d argv e = Ok (Some v, 0, e).
Proof.
  intros argv i d l v e Hl Hg A. unfold get_value. rewrite A. cbv zeta.
  rewrite skip_name by exact Hg. destruct Hg as (c & r & El & N & Ne).
  rewrite after_equal_some by exact Ne. reflexivity.
Qed.

Lemma alnum_not : forall c, 48 <= c <= 57 \/ 65 <= c <= 90 \/ 97 <= c <= 122 -> c <> dash /\ c <> equal.
Proof. intros c H. unfold dash, equal. lia. Qed.

Lemma get_value_short : forall (argv : list text) i d c v e l, lopt d = Some l -> c <> dash -> c <> equal ->
  nth_error argv i = Some [dash; c] -> nth_error argv (S i) = Some v ->
  get_value stops i d argv e = Ok (Some v, 1, e).
Proof.
  intros argv i d c v e l Hl N1 N2 A B. unfold get_value. rewrite A. cbv zeta.
  assert (S1 : skip_dashes [dash; c] = [c]).
  { cbn. destruct (Z.eqb_spec c dash) as [E|_]; [contradiction (N1 E)|reflexivity]. }
  rewrite S1. rewrite after_equal_none by (intros [K|[]]; exact (N2 K)).
  rewrite Hl. destruct (text_eqb l [c]); cbn [obind]; rewrite B; reflexivity.
Qed.

Lemma get_value_attached : forall (argv : list text) i d c x v e l, lopt d = Some l -> c <> dash -> c <> equal ->
  ~ In equal (x :: v) -> l <> c :: x :: v ->
  nth_error argv i = Some (dash :: c :: x :: v) ->
  get_value stops i d argv e = Ok (Some (x :: v), 0, e).
Proof.
  intros argv i d c x v e l Hl N1 N2 Ne Nl A. unfold get_value. rewrite A. cbv zeta.
  assert (S1 : skip_dashes (dash :: c :: x :: v) = c :: x :: v).
  { cbn. destruct (Z.eqb_spec c dash) as [E|_]; [contradiction (N1 E)|reflexivity]. }
  rewrite S1. rewrite after_equal_none by (intros [K|K]; [exact (N2 K)|exact (Ne K)]).
  rewrite Hl. destruct (text_eqb l (c :: x :: v)) eqn:E; [apply text_eqb_spec in E; contradiction (Nl E)|].
  reflexivity.
Qed.

(** the callback, given its value *)
Lemma call_value : forall (argv : list text) i d v n e e', takes_value d = true -> 0 <= n ->
  get_value stops i d argv e = Ok (Some v, n, e) -> applies d (Some v) e e' ->
  call stops argv d i e = Ok (n, e').
Proof.
  intros argv i d v n e e' T Hn Gv A. unfold call.
  inversion A; subst;
    match goal with H : cb d = _ |- _ => rewrite H end; rewrite Gv; cbn [obind];
    try match goal with H : slot d = _ |- _ => rewrite H end;
    try match goal with H : numeral _ _ |- _ => rewrite (strtol0_numeral _ _ H); cbn [obind]; reflexivity end;
    try match goal with H : truth _ _ |- _ => apply bool_of_truth in H; rewrite H; reflexivity end;
    reflexivity.
Qed.

Lemma call_flag : forall (argv : list text) i d e e', applies d None e e' -> call stops argv d i e = Ok (0, e').
Proof.
  intros argv i d e e' A. unfold call.
  inversion A; subst; match goal with H : cb d = _ |- _ => rewrite H end;
    try match goal with H : slot d = _ |- _ => rewrite H end; reflexivity.
Qed.

(** ** One item of the command line *)
Lemma letters_flags : forall (argv : list text) i ds e e' found, 
  ds <> [] -> Forall (fun d => In d defs /\ is_flag d = true /\ sopt d <> None) ds -> flags_apply ds e e' ->
  letters stops argv defs (map letter ds) i found e = Ok (Next i, e').
Proof.
  intros argv i ds; induction ds as [|d ds IH]; intros e e' found Ne F A; [contradiction Ne; reflexivity|].
  inversion A as [|? ? ? e1 ? A1 A2]; subst. inversion F as [|? ? (Hd & Hf & Hs) F2]; subst.
  destruct (sopt d) as [c|] eqn:Es; [|contradiction Hs; reflexivity].
  cbn [map letters]. replace (letter d) with c by (unfold letter; rewrite Es; reflexivity).
  rewrite (find_short d c _ Hd Es). rewrite (call_flag argv i d e e1 A1). cbn [obind].
  cbn [Z.ltb Z.compare Z.eqb]. destruct ds as [|d2 ds].
  - cbn [map]. inversion A2; subst. reflexivity.
  - cbn [map]. exact (IH e1 e' true ltac:(discriminate) F2 A2).
Qed.

Lemma head_dash : forall (l : text), good_name l -> forall r, l <> 45 :: r.
Proof. intros l (c & q & -> & N & _) r E. injection E as E _. exact (N E). Qed.

Lemma one_short : forall (argv : list text) i c r e, nth_error argv i = Some (dash :: c :: r) -> c <> dash ->
  one_arg stops argv defs i e =
  (' (v, e1) <- letters stops argv defs (c :: r) i false e ;; Ok (Some v, e1)).
Proof.
  intros argv i c r e A N. unfold one_arg. rewrite A. unfold dash in *.
  repeat (match goal with |- context [match ?c with _ => _ end] => is_var c; destruct c; try reflexivity; try (contradiction N; reflexivity) end).
Qed.

Lemma one_long : forall (argv : list text) i p e, nth_error argv i = Some (dash :: dash :: p) ->
  one_arg stops argv defs i e =
  (' (v, e1) <- long_name stops argv defs p i e ;; Ok (Some v, e1)).
Proof. intros argv i p e A. unfold one_arg. rewrite A. reflexivity. Qed.

Lemma nth_mid : forall (A : Type) (pre : list A) x post, nth_error (pre ++ x :: post) (length pre) = Some x.
Proof. intros. rewrite nth_error_app2 by lia. rewrite Nat.sub_diag. reflexivity. Qed.
Lemma nth_mid2 : forall (A : Type) (pre : list A) x y post, nth_error (pre ++ x :: y :: post) (S (length pre)) = Some y.
Proof.
  intros. rewrite nth_error_app2 by lia. replace (S (length pre) - length pre)%nat with 1%nat by lia. reflexivity.
Qed.

Lemma sopt_alnum : forall d c, In d defs -> sopt d = Some c -> c <> dash /\ c <> equal.
Proof. intros d c Hd Hs. apply alnum_not. apply (proj1 V d Hd). exact Hs. Qed.

Lemma one_item : forall it pre post e e', item_ok defs it -> item_applies it e e' ->
  one_arg stops (pre ++ render it ++ post) defs (length pre) e =
  Ok (Some (Next (length pre + (length (render it) - 1))%nat), e') /\ (1 <= length (render it))%nat.
Proof.
  intros it pre post e e' K A. destruct it as [ds|d|d v|d v|d v|d v]; cbn [item_ok item_applies render length app] in *.
  - destruct K as [Ne F]. destruct ds as [|d ds]; [contradiction Ne; reflexivity|].
    inversion F as [|? ? (Hd & _ & Hs) _]; subst.
    destruct (sopt d) as [c|] eqn:Es; [|contradiction Hs; reflexivity].
    assert (El : letter d = c) by (unfold letter; rewrite Es; reflexivity).
    split; [|lia]. 
    assert (A0 : nth_error (pre ++ (dash :: map letter (d :: ds)) :: post) (length pre) = Some (dash :: c :: map letter ds)).
    { rewrite nth_mid. cbn [map]. rewrite El. reflexivity. }
    rewrite (one_short _ _ _ _ _ A0) by (apply (sopt_alnum d c Hd Es)).
    pose proof (letters_flags (pre ++ (dash :: map letter (d :: ds)) :: post) (length pre) (d :: ds) e e' false
                  ltac:(discriminate) F A) as L.
    replace (map letter (d :: ds)) with (c :: map letter ds) in L |- * by (cbn [map]; rewrite El; reflexivity).
    rewrite L. cbn [obind]. rewrite Nat.sub_diag, Nat.add_0_r. reflexivity.
  - destruct K as (Hd & Hf & Hl). destruct (lopt d) as [l|] eqn:El; [|contradiction Hl; reflexivity].
    replace (name d) with l by (unfold name; rewrite El; reflexivity).
    split; [|lia]. rewrite (one_long _ _ _ _ (nth_mid _ _ _ _)). unfold long_name.
    destruct (G d l Hd El) as (c & r & El2 & N1 & N2). rewrite name_len_plain by exact N2. cbv zeta.
    pose proof (find_long d l [] Hd El) as Fl. rewrite app_nil_r in Fl. rewrite Fl.
    rewrite (call_flag _ _ d e e' A). cbn [obind].
    replace (nth_error l (length l)) with (@None Z) by (symmetry; apply nth_error_None; lia).
    reflexivity.
  - destruct K as (Hd & Hf & Hl). destruct (lopt d) as [l|] eqn:El; [|contradiction Hl; reflexivity].
    replace (name d) with l by (unfold name; rewrite El; reflexivity).
    split; [|lia]. rewrite (one_long _ _ _ _ (nth_mid _ _ _ _)). unfold long_name.
    pose proof (G d l Hd El) as Gl.
    destruct (G d l Hd El) as (c & r & El2 & N1 & N2). rewrite name_len_plain by exact N2. cbv zeta.
    pose proof (find_long d l [] Hd El) as Fl. rewrite app_nil_r in Fl. rewrite Fl.
    rewrite (call_value _ _ d v 1 e e' Hf ltac:(lia)
      (get_value_long _ _ d l v e El Gl (nth_mid _ _ _ _) (nth_mid2 _ _ _ _ _)) A). cbn [obind].
    replace (nth_error l (length l)) with (@None Z) by (symmetry; apply nth_error_None; lia).
    reflexivity.
  - destruct K as (Hd & Hf & Hl). destruct (lopt d) as [l|] eqn:El; [|contradiction Hl; reflexivity].
    replace (name d) with l by (unfold name; rewrite El; reflexivity).
    split; [|lia]. rewrite (one_long _ _ _ _ (nth_mid _ _ _ _)). unfold long_name.
    pose proof (G d l Hd El) as Gl.
    destruct (G d l Hd El) as (c & r & El2 & N1 & N2). rewrite name_len_equal by exact N2. cbv zeta.
    rewrite (find_long d l (equal :: v) Hd El).
    rewrite (call_value _ _ d v 0 e e' Hf ltac:(lia)
      (get_value_equal _ _ d l v e El Gl (nth_mid _ _ _ _)) A). cbn [obind].
    rewrite nth_error_app2 by lia. rewrite Nat.sub_diag. cbn [nth_error Z.ltb Z.compare].
    rewrite Nat.add_0_r. reflexivity.
  - destruct K as (Hd & Hf & Hs & Hl). destruct (lopt d) as [l|] eqn:El; [|contradiction Hl; reflexivity].
    destruct (sopt d) as [c|] eqn:Es; [|contradiction Hs; reflexivity].
    replace (letter d) with c by (unfold letter; rewrite Es; reflexivity).
    destruct (sopt_alnum d c Hd Es) as [N1 N2].
    split; [|lia]. rewrite (one_short _ _ _ _ _ (nth_mid _ _ _ _) N1). cbn [letters].
    rewrite (find_short d c [] Hd Es).
    rewrite (call_value _ _ d v 1 e e' Hf ltac:(lia)
      (get_value_short _ _ d c v e l El N1 N2 (nth_mid _ _ _ _) (nth_mid2 _ _ _ _ _)) A). cbn [obind].
    cbn [Z.ltb Z.compare Z.eqb]. reflexivity.
  - destruct K as (Hd & Hf & Hs & Hl & Ne & Nl & x & w & -> & Hx).
    destruct (lopt d) as [l|] eqn:El; [|contradiction Hl; reflexivity].
    destruct (sopt d) as [c|] eqn:Es; [|contradiction Hs; reflexivity].
    assert (Elt : letter d = c) by (unfold letter; rewrite Es; reflexivity). rewrite Elt in *.
    destruct (sopt_alnum d c Hd Es) as [N1 N2].
    split; [|lia]. rewrite (one_short _ _ _ _ _ (nth_mid _ _ _ _) N1). cbn [letters].
    rewrite (find_short d c _ Hd Es).
    rewrite (call_value _ _ d (x :: w) 0 e e' Hf ltac:(lia)
      (get_value_attached _ _ d c x w e l El N1 N2 Ne (fun E => Nl (f_equal Some E)) (nth_mid _ _ _ _)) A). cbn [obind].
    cbn [Z.ltb Z.compare Z.eqb].
    rewrite (find_short_none x w Hx). cbn [obind]. rewrite Nat.add_0_r. reflexivity.
Qed.

Lemma loop_prefix : forall items pre rest e e' fuel, Forall (item_ok defs) items -> all_apply items e e' ->
  (length (flat_map render items ++ rest) <= fuel)%nat ->
  exists fuel', (length rest <= fuel')%nat /\
  args_loop stops (pre ++ flat_map render items ++ rest) defs fuel (length pre) e =
  args_loop stops (pre ++ flat_map render items ++ rest) defs fuel'
    (length pre + length (flat_map render items)) e'.
Proof.
  induction items as [|it items IH]; intros pre rest e e' fuel F A Hf.
  - inversion A; subst. cbn [flat_map app length] in *. rewrite Nat.add_0_r.
    exists fuel. split; [exact Hf|reflexivity].
  - inversion F as [|? ? Hit F2]; subst. inversion A as [|? ? ? e1 ? A1 A2]; subst.
    cbn [flat_map] in *. rewrite <- app_assoc in *.
    destruct (one_item it pre (flat_map render items ++ rest) e e1 Hit A1) as [One Len].
    rewrite app_length in Hf.
    destruct fuel as [|fuel]; [lia|].
    destruct (IH (pre ++ render it) rest e1 e' fuel F2 A2 ltac:(lia)) as (f' & Hf' & E).
    exists f'. split; [exact Hf'|].
    cbn [args_loop].
    assert (Lt : (length pre <? length (pre ++ render it ++ flat_map render items ++ rest))%nat = true).
    { apply Nat.ltb_lt. rewrite !app_length. lia. }
    rewrite Lt, One. cbn [obind].
    replace (S (length pre + (length (render it) - 1)))%nat with (length (pre ++ render it)) by (rewrite app_length; lia).
    replace (pre ++ render it ++ flat_map render items ++ rest)
      with ((pre ++ render it) ++ flat_map render items ++ rest) by (rewrite <- app_assoc; reflexivity).
    rewrite E. f_equal. rewrite !app_length. lia.
Qed.

Lemma one_plain : forall (argv : list text) i a e, nth_error argv i = Some a -> ~ starts_with_dash a ->
  one_arg stops argv defs i e = Ok (None, e).
Proof.
  intros argv i a e Ha Na. unfold one_arg. rewrite Ha.
  destruct a as [|c a']; [reflexivity|].
  assert (Nc : c <> 45) by (intros ->; apply Na; exists a'; reflexivity).
  repeat (match goal with |- context [match ?c with _ => _ end] => is_var c; destruct c; try reflexivity; try (contradiction Nc; reflexivity) end).
Qed.

Lemma loop_items : forall items pre rest e e' fuel, Forall (item_ok defs) items -> all_apply items e e' ->
  (rest = [] \/ exists a r, rest = a :: r /\ ~ starts_with_dash a) ->
  (length (flat_map render items ++ rest) <= fuel)%nat ->
  args_loop stops (pre ++ flat_map render items ++ rest) defs fuel (length pre) e =
  Ok (0, Some (length pre + length (flat_map render items))%nat, e').
Proof.
  intros items pre rest e e' fuel F A R Hf.
  destruct (loop_prefix items pre rest e e' fuel F A Hf) as (f & Hr & ->).
  rewrite app_assoc, <- app_length.
  destruct R as [-> |(a & r & -> & Na)].
  - rewrite app_nil_r. destruct f; cbn [args_loop]; rewrite Nat.ltb_irrefl; reflexivity.
  - destruct f as [|f]; [cbn [length] in Hr; lia|]. cbn [args_loop].
    match goal with |- context [Nat.ltb ?x ?y] => assert (Lt : Nat.ltb x y = true) end.
    { apply Nat.ltb_lt. rewrite (app_length (pre ++ _)). cbn [length]. lia. }
    rewrite Lt. rewrite (one_plain _ _ a _ (nth_mid _ _ _ _) Na). reflexivity.
Qed.
End Table.

(** ** The default (terminating) error handler *)
Section Stops.
Variable defs : list def.
Hypothesis V : valid_table defs.
Hypothesis G : good_names defs.

Lemma call_safe : forall (argv : list text) i a d e, usable defs -> In d defs -> nth_error argv i = Some a ->
  skip_dashes a <> [] ->
  call true argv d i e = Abort \/
  exists n e', call true argv d i e = Ok (n, e') /\ (n = 0 \/ n = 1 /\ (S i < length argv)%nat).
Proof.
  intros argv i a d e U Hd Ha Hs. destruct (U d Hd) as [U1 U2].
  assert (Gv : takes_value d = true ->
    get_value true i d argv e = Abort \/
    exists v n, get_value true i d argv e = Ok (Some v, n, e) /\ (n = 0 \/ n = 1 /\ (S i < length argv)%nat)).
  { intros T. specialize (U1 T). unfold get_value. rewrite Ha. cbv zeta.
    destruct (after_equal (skip_dashes a)) as [v|]; [right; exists v, 0; split; [reflexivity|left; reflexivity]|].
    destruct (lopt d) as [l|]; [|contradiction U1; reflexivity].
    assert (Nx : (' (result, consumed) <- Ok (nth_error argv (S i), 1) ;;
       match result with Some v => Ok (Some v, consumed, e)
       | None => e1 <- error true EINVAL e ;; Ok (None, consumed, e1) end) = Abort \/
      exists v n, (' (result, consumed) <- Ok (nth_error argv (S i), 1) ;;
       match result with Some v => Ok (Some v, consumed, e)
       | None => e1 <- error true EINVAL e ;; Ok (None, consumed, e1) end) = Ok (Some v, n, e)
       /\ (n = 0 \/ n = 1 /\ (S i < length argv)%nat)).
    { cbn [obind]. destruct (nth_error argv (S i)) as [v|] eqn:En; [|left; reflexivity].
      right. exists v, 1. split; [reflexivity|]. right. split; [reflexivity|].
      apply nth_error_Some. congruence. }
    destruct (text_eqb l (skip_dashes a)); [exact Nx|].
    destruct (skip_dashes a) as [|c [|c2 r]]; [contradiction Hs; reflexivity|exact Nx|].
    right. exists (c2 :: r), 0. split; [reflexivity|left; reflexivity]. }
  unfold call. destruct (cb d) eqn:Ec; try (right; eexists _, _; split; [reflexivity|left; reflexivity]);
    try (left; reflexivity);
    (destruct Gv as [Gv|(v & n & Gv & Hn)]; [unfold takes_value; rewrite Ec; reflexivity|rewrite Gv; left; reflexivity|rewrite Gv; cbn [obind]]).
  - destruct (strtol0 v) as [[r rest] range].
    destruct range; [left; reflexivity|]. cbn [obind].
    destruct rest; [|left; reflexivity]. cbn [obind]. right. eexists _, _. split; [reflexivity|exact Hn].
  - destruct (bool_of v); [|left; reflexivity]. right. eexists _, _. split; [reflexivity|exact Hn].
  - destruct (slot d) as [k|]; [|contradiction U2; [left; reflexivity|reflexivity]].
    right. eexists _, _. split; [reflexivity|exact Hn].
  - destruct (slot d) as [k|]; [|contradiction U2; [right; reflexivity|reflexivity]].
    right. eexists _, _. split; [reflexivity|exact Hn].
Qed.

Lemma letters_safe : forall (argv : list text) i a, usable defs -> nth_error argv i = Some a -> skip_dashes a <> [] ->
  forall p found e,
  letters true argv defs p i found e = Abort \/
  exists j e', letters true argv defs p i found e = Ok (Next j, e') /\ (i <= j < length argv)%nat.
Proof.
  intros argv i a U Ha Hs. assert (Li : (i < length argv)%nat) by (apply nth_error_Some; congruence).
  induction p as [|c p IH]; intros found e.
  - cbn [letters]. rewrite (find_short_empty defs V G).
    destruct found; [right; exists i, e; split; [reflexivity|lia]|left; reflexivity].
  - cbn [letters]. destruct (find_opt (c :: p) 0 defs) as [d|] eqn:Ef.
    + apply find_opt_some in Ef as [Hd _].
      destruct (call_safe argv i a d e U Hd Ha Hs) as [E|(n & e' & E & Hn)]; rewrite E; [left; reflexivity|].
      cbn [obind]. destruct Hn as [-> |[-> Hl]].
      * cbn [Z.ltb Z.compare Z.eqb]. destruct p as [|c2 p]; [right; exists i, e'; split; [reflexivity|lia]|].
        apply IH.
      * cbn [Z.ltb Z.compare Z.eqb]. right. exists (i + Z.to_nat 1)%nat, e'. split; [reflexivity|].
        change (Z.to_nat 1) with 1%nat. lia.
    + destruct found; [right; exists i, e; split; [reflexivity|lia]|left; reflexivity].
Qed.

Lemma long_safe : forall (argv : list text) i p e, usable defs -> nth_error argv i = Some (dash :: dash :: p) ->
  long_name true argv defs p i e = Abort \/
  exists j e', long_name true argv defs p i e = Ok (Next j, e') /\ (i <= j < length argv)%nat.
Proof.
  intros argv i p e U Ha. assert (Li : (i < length argv)%nat) by (apply nth_error_Some; congruence).
  unfold long_name. cbv zeta. destruct (find_opt p (name_len p) defs) as [d|] eqn:Ef; [|left; reflexivity].
  apply find_opt_some in Ef as [Hd M].
  assert (Hs : skip_dashes (dash :: dash :: p) <> []).
  { destruct (name_len p) as [|k] eqn:El.
    - apply (matches_short defs V G) in M as (c & r & -> & Es); [|exact Hd].
      destruct (sopt_alnum defs V d c Hd Es) as [N1 N2].
      change (skip_dashes (dash :: dash :: c :: r)) with (if c =? dash then skip_dashes r else c :: r).
      destruct (Z.eqb_spec c dash) as [E|_]; [contradiction (N1 E)|discriminate].
    - apply matches_long in M as [M _]; [|discriminate].
      destruct (G d _ Hd M) as (c & r & Ep & N & _). destruct p as [|x p]; [discriminate Ep|].
      cbn [firstn] in Ep. injection Ep as -> _.
      change (skip_dashes (dash :: dash :: c :: p)) with (if c =? dash then skip_dashes p else c :: p).
      destruct (Z.eqb_spec c dash) as [E|_]; [contradiction (N E)|discriminate]. }
  destruct (call_safe argv i _ d e U Hd Ha Hs) as [E|(n & e' & E & Hn)]; rewrite E; [left; reflexivity|].
  cbn [obind]. right. destruct Hn as [-> |[-> Hl]]; cbn [Z.ltb Z.compare].
  - exists i, e'. split; [|lia]. destruct (nth_error p (name_len p)); [reflexivity|].
    change (Z.to_nat 0) with 0%nat. rewrite Nat.add_0_r. reflexivity.
  - change (Z.to_nat 1) with 1%nat. destruct (nth_error p (name_len p)); eexists _, e'; (split; [reflexivity|lia]).
Qed.

Lemma one_safe : forall (argv : list text) i e, usable defs -> (i < length argv)%nat ->
  one_arg true argv defs i e = Abort \/
  (one_arg true argv defs i e = Ok (None, e) /\ forall a, nth_error argv i = Some a -> ~ starts_with_dash a) \/
  exists j e', one_arg true argv defs i e = Ok (Some (Next j), e') /\ (i <= j < length argv)%nat.
Proof.
  intros argv i e U Li. destruct (nth_error argv i) as [a|] eqn:Ha; [|apply nth_error_None in Ha; lia].
  destruct a as [|c a].
  { right; left. split; [apply (one_plain defs true argv i [] e Ha)|]; [intros (r & E); discriminate E|].
    intros a E. injection E as <-. intros (r & E); discriminate E. }
  destruct (Z.eq_dec c dash) as [-> |Nc].
  2:{ right; left. assert (Nd : ~ starts_with_dash (c :: a)) by (intros (r & E); injection E as E _; exact (Nc E)).
      split; [apply (one_plain defs true argv i _ e Ha Nd)|]. intros b E. injection E as <-. exact Nd. }
  destruct a as [|c a].
  { left. unfold one_arg. rewrite Ha. cbn [dash letters]. rewrite (find_short_empty defs V G). reflexivity. }
  destruct (Z.eq_dec c dash) as [-> |Nc].
  - rewrite (one_long defs true argv i a e Ha).
    destruct (long_safe argv i a e U Ha) as [E|(j & e' & E & Hj)]; rewrite E; [left; reflexivity|].
    right; right. exists j, e'. split; [reflexivity|exact Hj].
  - rewrite (one_short defs true argv i c a e Ha Nc).
    assert (Hs : skip_dashes (dash :: c :: a) <> []).
    { change (skip_dashes (dash :: c :: a)) with (if c =? dash then skip_dashes a else c :: a).
      destruct (Z.eqb_spec c dash) as [E|_]; [contradiction (Nc E)|discriminate]. }
    destruct (letters_safe argv i _ U Ha Hs (c :: a) false e) as [E|(j & e' & E & Hj)]; rewrite E; [left; reflexivity|].
    right; right. exists j, e'. split; [reflexivity|exact Hj].
Qed.

Lemma loop_safe : forall (argv : list text) fuel i e, usable defs -> (i <= length argv)%nat -> (length argv - i <= fuel)%nat ->
  args_loop true argv defs fuel i e = Abort \/
  exists j e', args_loop true argv defs fuel i e = Ok (0, Some j, e') /\ (i <= j <= length argv)%nat /\
    forall a, nth_error argv j = Some a -> ~ starts_with_dash a.
Proof.
  intros argv; induction fuel as [|fuel IH]; intros i e U Hi Hf; cbn [args_loop];
    destruct (Nat.ltb_spec i (length argv)) as [Lt|Ge].
  - lia.
  - right. exists i, e. split; [reflexivity|]. split; [lia|]. intros a E.
    assert (nth_error argv i = None) by (apply nth_error_None; lia). congruence.
  - destruct (one_safe argv i e U Lt) as [E|[[E K]|(j & e' & E & Hj)]]; rewrite E; cbn [obind].
    + left; reflexivity.
    + right. exists i, e. split; [reflexivity|]. split; [lia|exact K].
    + destruct (IH (S j) e' U ltac:(lia) ltac:(lia)) as [E2|(k & e2 & E2 & Hk & K)]; [left; exact E2|].
      right. exists k, e2. split; [exact E2|]. split; [lia|exact K].
  - right. exists i, e. split; [reflexivity|]. split; [lia|]. intros a E.
    assert (nth_error argv i = None) by (apply nth_error_None; lia). congruence.
Qed.

(** ** Rejected arguments *)
Lemma find_long_none : forall l q, ~ In equal l -> (q = [] \/ exists v, q = equal :: v) ->
  (forall d, In d defs -> lopt d <> Some l) -> find_opt (l ++ q) (name_len (l ++ q)) defs = None.
Proof.
  intros l q Ne Hq Hn.
  assert (En : name_len (l ++ q) = length l).
  { destruct Hq as [-> |(v & -> )]; [rewrite app_nil_r; apply name_len_plain; exact Ne|apply name_len_equal; exact Ne]. }
  rewrite En. destruct (find_opt (l ++ q) (length l) defs) as [d|] eqn:Ef; [|reflexivity]. exfalso.
  apply find_opt_some in Ef as [Hd M]. destruct l as [|c l].
  - apply (matches_short defs V G) in M as (c & r & Ep & Es); [|exact Hd].
    destruct (sopt_alnum defs V d c Hd Es) as [N1 N2]. cbn [app] in Ep.
    destruct Hq as [-> |(v & -> )]; [discriminate Ep|]. injection Ep as Ep _. exact (N2 (eq_sym Ep)).
  - apply matches_long in M as [M _]; [|discriminate].
    rewrite firstn_app, firstn_all, Nat.sub_diag, firstn_O, app_nil_r in M. exact (Hn d Hd M).
Qed.

Lemma call_bad : forall (argv : list text) i d v n e, bad_value d v -> get_value true i d argv e = Ok (Some v, n, e) ->
  call true argv d i e = Abort.
Proof.
  intros argv i d v n e B Gv. unfold call. destruct B as [[Ec (Ne & Sp & Nn)]|[Ec Nn]]; rewrite Ec, Gv; cbn [obind].
  - destruct (strtol0 v) as [[r rest] range] eqn:Es.
    destruct range; [reflexivity|]. cbn [obind]. destruct rest; [|reflexivity].
    exfalso. apply Nn. exists r. apply strtol0_numeral_inv; [exact Ne| |exact Es].
    intros c q Ev. specialize (Sp c q Ev). unfold isspace.
    destruct (Z.eqb_spec c 32); [lia|]. destruct (Z.leb_spec 9 c); [|reflexivity]. destruct (Z.leb_spec c 13); [lia|reflexivity].
  - destruct (bool_of v) as [b|] eqn:Eb; [|reflexivity].
    exfalso. apply Nn. exists b. apply bool_of_truth. exact Eb.
Qed.

Lemma call_missing : forall (argv : list text) i d e, takes_value d = true -> get_value true i d argv e = Abort ->
  call true argv d i e = Abort.
Proof.
  intros argv i d e T Gv. unfold call. unfold takes_value in T.
  destruct (cb d); try discriminate T; rewrite Gv; reflexivity.
Qed.

Lemma one_rejected : forall pre a rest e, rejected defs a rest ->
  one_arg true (pre ++ a :: rest) defs (length pre) e = Abort.
Proof.
  intros pre a rest e R. pose proof (nth_mid _ pre a rest) as Ha.
  destruct R as [rest|c r rest Nc Nd|l q rest Ne Hq Nd|d l Hd Hl T|d c l Hd Hs Hl T
    |d l v rest Hd Hl B|d l v rest Hd Hl B|d c l v rest Hd Hs Hl B].
  - unfold one_arg. rewrite Ha. cbn [dash letters]. rewrite (find_short_empty defs V G). reflexivity.
  - rewrite (one_short defs true _ _ c r e Ha Nc). cbn [letters].
    rewrite (find_short_none defs V G c r Nd). reflexivity.
  - rewrite (one_long defs true _ _ _ e Ha). unfold long_name. cbv zeta.
    rewrite (find_long_none l q Ne Hq Nd). reflexivity.
  - rewrite (one_long defs true _ _ _ e Ha). unfold long_name. cbv zeta.
    pose proof (G d l Hd Hl) as Gl.
    destruct (G d l Hd Hl) as (c & r & El2 & N1 & N2). rewrite name_len_plain by exact N2.
    pose proof (find_long defs V G d l [] Hd Hl) as Fl. rewrite app_nil_r in Fl. rewrite Fl.
    rewrite call_missing; [reflexivity|exact T|]. unfold get_value. rewrite Ha. cbv zeta.
    pose proof (skip_name l [] Gl) as S1. rewrite app_nil_r in S1. rewrite S1.
    rewrite after_equal_none by exact N2. rewrite Hl, text_eqb_refl. cbn [obind].
    match goal with |- context [nth_error ?a (S ?b)] => assert (En : nth_error a (S b) = None) by (apply nth_error_None; rewrite app_length; cbn [length]; lia); rewrite En end. reflexivity.
  - destruct (sopt_alnum defs V d c Hd Hs) as [N1 N2].
    rewrite (one_short defs true _ _ c [] e Ha N1). cbn [letters].
    rewrite (find_short defs V G d c [] Hd Hs).
    rewrite call_missing; [reflexivity|exact T|]. unfold get_value. rewrite Ha. cbv zeta.
    assert (S1 : skip_dashes [dash; c] = [c]).
    { cbn. destruct (Z.eqb_spec c dash) as [E|_]; [contradiction (N1 E)|reflexivity]. }
    rewrite S1. rewrite after_equal_none by (intros [K|[]]; exact (N2 K)).
    rewrite Hl.
    destruct (text_eqb l [c]); cbn [obind]; match goal with |- context [nth_error ?a (S ?b)] => assert (En : nth_error a (S b) = None) by (apply nth_error_None; rewrite app_length; cbn [length]; lia); rewrite En end; reflexivity.
  - rewrite (one_long defs true _ _ _ e Ha). unfold long_name. cbv zeta.
    pose proof (G d l Hd Hl) as Gl.
    destruct (G d l Hd Hl) as (c & r & El2 & N1 & N2). rewrite name_len_plain by exact N2.
    pose proof (find_long defs V G d l [] Hd Hl) as Fl. rewrite app_nil_r in Fl. rewrite Fl.
    rewrite (call_bad _ _ d v 1 e B); [reflexivity|].
    apply (get_value_long true _ _ d l v e Hl Gl Ha). apply nth_mid2.
  - rewrite (one_long defs true _ _ _ e Ha). unfold long_name. cbv zeta.
    pose proof (G d l Hd Hl) as Gl.
    destruct (G d l Hd Hl) as (c & r & El2 & N1 & N2). rewrite name_len_equal by exact N2.
    rewrite (find_long defs V G d l _ Hd Hl).
    rewrite (call_bad _ _ d v 0 e B); [reflexivity|].
    apply (get_value_equal true _ _ d l v e Hl Gl Ha).
  - destruct (sopt_alnum defs V d c Hd Hs) as [N1 N2].
    rewrite (one_short defs true _ _ c [] e Ha N1). cbn [letters].
    rewrite (find_short defs V G d c [] Hd Hs).
    rewrite (call_bad _ _ d v 1 e B); [reflexivity|].
    apply (get_value_short true _ _ d c v e l Hl N1 N2 Ha). apply nth_mid2.
Qed.
End Stops.
