(** Proofs about configurations: the store. *)
From Verif Require Import Prelude OptsModel OptsSpec OptsProofs CfgModel CfgSpec.
Local Open Scope Z_scope.

Lemma text_eqb_sym : forall a b, text_eqb a b = text_eqb b a.
Proof.
  intros a b. destruct (text_eqb a b) eqn:E, (text_eqb b a) eqn:E2; try reflexivity.
  - apply text_eqb_spec in E. subst. rewrite text_eqb_refl in E2. discriminate.
  - apply text_eqb_spec in E2. subst. rewrite text_eqb_refl in E. discriminate.
Qed.

Lemma text_dec : forall a b : text, a = b \/ a <> b.
Proof.
  intros a b. destruct (text_eqb a b) eqn:E.
  - left. apply text_eqb_spec. exact E.
  - right. intros ->. rewrite text_eqb_refl in E. discriminate.
Qed.

Lemma eqb_neq : forall a b, a <> b -> text_eqb a b = false.
Proof. intros a b H. destruct (text_eqb a b) eqn:E; [apply text_eqb_spec in E; contradiction|reflexivity]. Qed.

Lemma put_variable_get : forall vs n e m, get_variable vs n <> None ->
  get_variable (put_variable vs n e) m = if text_eqb n m then Some e else get_variable vs m.
Proof.
  induction vs as [|[k x] vs IH]; intros n e m H; cbn [get_variable put_variable] in *; [contradiction H; reflexivity|].
  destruct (text_eqb k n) eqn:E.
  - apply text_eqb_spec in E. subst k. cbn [get_variable]. destruct (text_eqb n m); reflexivity.
  - cbn [get_variable]. destruct (text_eqb k m) eqn:E2.
    + apply text_eqb_spec in E2. subst k. rewrite text_eqb_sym, E. reflexivity.
    + apply IH. exact H.
Qed.

Lemma set_variable_get : forall vs n e m,
  get_variable (set_variable vs n e) m = if text_eqb n m then Some e else get_variable vs m.
Proof.
  intros vs n e m. unfold set_variable. destruct (get_variable vs n) as [x|] eqn:E.
  - apply put_variable_get. congruence.
  - cbn [get_variable]. destruct (text_eqb n m); reflexivity.
Qed.

Lemma put_block_lookup : forall st b v e b2 v2, get_block st b <> None ->
  lookup (put_block st b v e) b2 v2 = if text_eqb b b2 && text_eqb v v2 then Some e else lookup st b2 v2.
Proof.
  unfold lookup. induction st as [|[n vs] st IH]; intros b v e b2 v2 H; cbn [get_block put_block] in *; [contradiction H; reflexivity|].
  destruct (text_eqb b n) eqn:E.
  - apply text_eqb_spec in E. subst n. cbn [get_block]. rewrite (text_eqb_sym b2 b).
    destruct (text_eqb b b2); cbn [andb]; [|reflexivity]. apply set_variable_get.
  - cbn [get_block]. destruct (text_eqb b2 n) eqn:E2.
    + apply text_eqb_spec in E2. subst n. rewrite E. reflexivity.
    + apply IH. exact H.
Qed.

Lemma set_entry_lookup : forall st b v e b2 v2,
  lookup (set_entry st b v e) b2 v2 = if text_eqb b b2 && text_eqb v v2 then Some e else lookup st b2 v2.
Proof.
  intros st b v e b2 v2. unfold set_entry. destruct (get_block st b) as [x|] eqn:E.
  - apply put_block_lookup. congruence.
  - unfold lookup. cbn [get_block]. rewrite (text_eqb_sym b2 b).
    destruct (text_eqb b b2) eqn:E2; cbn [andb]; [|reflexivity].
    apply text_eqb_spec in E2. subst b2. rewrite E. cbn [get_variable]. destruct (text_eqb v v2); reflexivity.
Qed.

(** what insert stores *)
Definition entry_for (isfloat : text -> bool) (st : store) (b v t : text) : entry :=
  match get_type isfloat t with
  | EString s =>
      match split_dot s with
      | Some (rb, rv) =>
          match (if text_eqb b rb && text_eqb v rv then Some (EBool 0) else lookup st rb rv) with
          | Some _ => ERef rb rv
          | None => EString s
          end
      | None => EString s
      end
  | e => e
  end.

Lemma insert_lookup : forall isfloat st b v t b2 v2,
  lookup (insert isfloat st b v t) b2 v2 =
  if text_eqb b b2 && text_eqb v v2 then Some (entry_for isfloat st b v t) else lookup st b2 v2.
Proof.
  intros isfloat st b v t b2 v2. unfold insert. cbv zeta. rewrite set_entry_lookup.
  assert (L : forall x y, 
    match lookup (match lookup st b v with Some _ => st | None => set_entry st b v (EBool 0) end) x y with
    | Some _ => true | None => false end =
    match (if text_eqb b x && text_eqb v y then Some (EBool 0) else lookup st x y) with Some _ => true | None => false end /\
    (text_eqb b x && text_eqb v y = false ->
     lookup (match lookup st b v with Some _ => st | None => set_entry st b v (EBool 0) end) x y = lookup st x y)).
  { intros x y. destruct (lookup st b v) as [z|] eqn:E.
    - split; [|reflexivity]. destruct (text_eqb b x && text_eqb v y) eqn:E2; [|reflexivity].
      apply andb_true_iff in E2 as [A B]. apply text_eqb_spec in A, B. subst. rewrite E. reflexivity.
    - rewrite set_entry_lookup. split; [reflexivity|]. intros ->. reflexivity. }
  destruct (text_eqb b b2 && text_eqb v v2) eqn:Ek.
  - f_equal. unfold entry_for. destruct (get_type isfloat t) as [?|?|?|s|? ?]; try reflexivity.
    destruct (split_dot s) as [[rb rv]|]; [|reflexivity].
    destruct (L rb rv) as [A _].
    match type of A with (match ?p with _ => _ end = match ?q with _ => _ end) => destruct p, q; try discriminate A; reflexivity end.
  - apply L. exact Ek.
Qed.

Lemma split_dot_spec : forall s, 
  (exists b v, split_dot s = Some (b, v) /\ dotted s b v) \/ (split_dot s = None /\ ~ In 46 s).
Proof.
  induction s as [|c s [(b & v & E & D1 & D2)|[E N]]]; cbn [split_dot].
  - right. split; [reflexivity|intros []].
  - destruct (Z.eqb_spec c 46) as [-> |Nc].
    + left. exists [], s. split; [reflexivity|]. split; [reflexivity|intros []].
    + left. rewrite E. exists (c :: b), v. split; [reflexivity|]. split; [rewrite D1; reflexivity|].
      intros [K|K]; [exact (Nc K)|exact (D2 K)].
  - destruct (Z.eqb_spec c 46) as [-> |Nc].
    + left. exists [], s. split; [reflexivity|]. split; [reflexivity|intros []].
    + right. rewrite E. split; [reflexivity|]. intros [K|K]; [exact (Nc K)|exact (N K)].
Qed.

Lemma dotted_unique : forall s b v b2 v2, dotted s b v -> dotted s b2 v2 -> b = b2 /\ v = v2.
Proof.
  intros s b; revert s; induction b as [|c b IH]; intros s v b2 v2 [E1 N1] [E2 N2].
  - destruct b2 as [|c2 b2]; [split; [reflexivity|]; cbn [app] in *; congruence|].
    exfalso. apply N2. left. cbn [app] in *. congruence.
  - destruct b2 as [|c2 b2].
    + exfalso. apply N1. left. cbn [app] in *. congruence.
    + subst s. cbn [app] in E2. injection E2 as <- E2.
      destruct (IH (b ++ 46 :: v) v b2 v2) as [-> ->]; [split; [reflexivity|]|split; [exact E2|]|split; reflexivity].
      * intros K. apply N1. right. exact K.
      * intros K. apply N2. right. exact K.
Qed.

(** ** Value texts *)
Lemma word_spec : forall t a b, map lower a = a -> map lower b = b ->
  (case_eqb t a || case_eqb t b = true <-> word t a b).
Proof.
  intros t a b Ha Hb. unfold word. rewrite orb_true_iff, !case_eqb_spec, Ha, Hb. reflexivity.
Qed.

Lemma word_false : forall t a b, map lower a = a -> map lower b = b -> ~ word t a b ->
  case_eqb t a || case_eqb t b = false.
Proof.
  intros t a b Ha Hb N. destruct (case_eqb t a || case_eqb t b) eqn:E; [|reflexivity].
  apply word_spec in E; [contradiction|exact Ha|exact Hb].
Qed.

Definition full (t : text) : bool :=
  let '(_, rest, _) := strtol0 t in match t, rest with _ :: _, [] => true | _, _ => false end.

Lemma get_type_eq : forall isfloat t, get_type isfloat t =
  if full t then EInt (fst (fst (strtol0 t)))
  else if match t with [] => false | _ => isfloat t end then EFloat t
  else if case_eqb t w_yes || case_eqb t w_true then EBool 1
  else if case_eqb t w_no || case_eqb t w_false then EBool 0
  else match t with
       | c :: r => if (c =? 39) || (c =? 34) then EString (removelast r) else EString t
       | [] => EString []
       end.
Proof.
  intros isfloat t. unfold get_type, full. destruct (strtol0 t) as [[n rest] range]. reflexivity.
Qed.

(** a text that does not start like a number is not one *)
Lemma full_plain : forall c r, 32 < c -> c <> 43 -> c <> 45 -> ~ (48 <= c <= 57) -> full (c :: r) = false.
Proof.
  intros c r H1 H2 H3 H4. unfold full. rewrite strtol0_eq.
  assert (Sp : skip_space (c :: r) = c :: r) by (apply skip_space_head; lia). rewrite Sp.
  destruct (pick_sign_cases (c :: r)) as [(q & E & _)|[(q & E & _)|(_ & _ & ->)]];
    [injection E as E _; lia|injection E as E _; lia|].
  destruct (pick_base_cases (c :: r)) as [(x & h & q & E & _)|[(q & E & _)|[_ ->]]];
    [injection E as E _; lia|injection E as E _; lia|].
  assert (D : digit_of 10 c = None).
  { destruct (digit_of 10 c) as [v|] eqn:D; [|reflexivity].
    apply digit_of_inv in D; [|lia]. destruct D as (_ & _ & D & _). specialize (D eq_refl). unfold dec_digit in D. lia. }
  cbn [read_digits]. rewrite D. reflexivity.
Qed.

Lemma full_numeral : forall t n, numeral t n -> full t = true /\ fst (fst (strtol0 t)) = n.
Proof.
  intros t n H. pose proof (strtol0_numeral t n H) as E. unfold full. rewrite E.
  split; [|reflexivity]. destruct t as [|c r]; [|reflexivity].
  exfalso. inversion H as [? ? U| | ]; subst. inversion U.
Qed.

Lemma not_full_nil : full [] = false.
Proof. reflexivity. Qed.

Lemma full_false : forall t, (forall n rest, strtol0 t = (n, rest, false) -> rest <> []) ->
  (forall n rest, strtol0 t = (n, rest, true) -> rest <> []) -> full t = false.
Proof.
  intros t A B. unfold full. destruct (strtol0 t) as [[n rest] range] eqn:E.
  destruct t; [reflexivity|]. destruct rest; [|reflexivity]. exfalso.
  destruct range; [exact (B n [] eq_refl eq_refl)|exact (A n [] eq_refl eq_refl)].
Qed.

Lemma w_lower : map lower w_yes = w_yes /\ map lower w_true = w_true /\ map lower w_no = w_no /\ map lower w_false = w_false.
Proof. repeat split. Qed.

(** a boolean word starts with a letter *)
Lemma word_head : forall t, word t w_yes w_true \/ word t w_no w_false ->
  exists c r, t = c :: r /\ (65 <= c <= 90 \/ 97 <= c <= 122).
Proof.
  intros t H. destruct t as [|c r]; [exfalso; destruct H as [[H|H]|[H|H]]; discriminate H|].
  exists c, r. split; [reflexivity|].
  destruct H as [[H|H]|[H|H]]; cbn [map] in H; injection H as H _; apply lower_cases in H; lia.
Qed.

Lemma word_disjoint : forall t, word t w_yes w_true -> word t w_no w_false -> False.
Proof. intros t [A|A] [B|B]; rewrite A in B; discriminate B. Qed.

Lemma removelast_snoc : forall (s : text) q, removelast (s ++ [q]) = s.
Proof. intros. apply removelast_last. Qed.

Lemma entry_means : forall isfloat st b v t e,
  means isfloat (fun x y => (x = b /\ y = v) \/ lookup st x y <> None) t e ->
  entry_for isfloat st b v t = e.
Proof.
  intros isfloat st b v t e M.
  assert (R : forall s, refers (fun x y => (x = b /\ y = v) \/ lookup st x y <> None) s e ->
     match split_dot s with
      | Some (rb, rv) =>
          match (if text_eqb b rb && text_eqb v rv then Some (EBool 0) else lookup st rb rv) with
          | Some _ => ERef rb rv
          | None => EString s
          end
      | None => EString s
      end = e).
  { intros s [(rb & rv & D & K & ->)|[N ->]].
    - destruct (split_dot_spec s) as [(b' & v' & -> & D')|[_ Nd]].
      + destruct (dotted_unique s _ _ _ _ D D') as [<- <-].
        destruct K as [[-> ->]|K]; [rewrite !text_eqb_refl; reflexivity|].
        destruct (text_eqb b rb && text_eqb v rv); [reflexivity|].
        destruct (lookup st rb rv); [reflexivity|contradiction K; reflexivity].
      + exfalso. destruct D as [-> _]. apply Nd. apply in_or_app. right. left. reflexivity.
    - destruct (split_dot_spec s) as [(b' & v' & -> & D')|[-> Nd]]; [|reflexivity].
      specialize (N b' v' D').
      destruct (text_eqb b b' && text_eqb v v') eqn:E.
      + exfalso. apply N. left. apply andb_true_iff in E as [A B]. apply text_eqb_spec in A, B. split; congruence.
      + destruct (lookup st b' v') as [x|] eqn:L; [|reflexivity]. exfalso. apply N. right. congruence. }
  destruct w_lower as (W1 & W2 & W3 & W4).
  unfold entry_for. rewrite get_type_eq.
  destruct M as [t n Hn|t c r Et A B F|t F Hw|t F Hw|q s e Hq F Hr|t e (F & Nt & Nf & Hc) Hr].
  - destruct (full_numeral t n Hn) as [-> ->]. reflexivity.
  - rewrite (full_false t A B). rewrite F, Et. reflexivity.
  - destruct (word_head t (or_introl Hw)) as (c & r & Et & Hl).
    replace (full t) with false by (symmetry; rewrite Et; apply full_plain; lia).
    rewrite F. replace (match t with [] => false | _ => false end) with false by (destruct t; reflexivity).
    rewrite (proj2 (word_spec t _ _ W1 W2) Hw). reflexivity.
  - destruct (word_head t (or_intror Hw)) as (c & r & Et & Hl).
    replace (full t) with false by (symmetry; rewrite Et; apply full_plain; lia).
    rewrite F. replace (match t with [] => false | _ => false end) with false by (destruct t; reflexivity).
    rewrite (word_false t _ _ W1 W2) by (intros K; exact (word_disjoint t K Hw)).
    rewrite (proj2 (word_spec t _ _ W3 W4) Hw). reflexivity.
  - rewrite (full_plain q _) by (destruct Hq; lia). rewrite F.
    rewrite (word_false _ _ _ W1 W2).
    2:{ intros K. destruct (word_head _ (or_introl K)) as (c & r & Et & Hl). injection Et as Et _. destruct Hq; lia. }
    rewrite (word_false _ _ _ W3 W4).
    2:{ intros K. destruct (word_head _ (or_intror K)) as (c & r & Et & Hl). injection Et as Et _. destruct Hq; lia. }
    replace ((q =? 39) || (q =? 34)) with true by (destruct Hq as [-> | ->]; reflexivity).
    rewrite removelast_snoc. apply R. exact Hr.
  - replace (full t) with false.
    2:{ symmetry. destruct t as [|c r]; [reflexivity|]. destruct (Hc c r eq_refl) as (H1 & H2 & H3 & H4 & _).
        apply full_plain; assumption. }
    rewrite F. replace (match t with [] => false | _ => false end) with false by (destruct t; reflexivity).
    rewrite (word_false t _ _ W1 W2 Nt), (word_false t _ _ W3 W4 Nf).
    destruct t as [|c r]; [apply (R []); exact Hr|].
    destruct (Hc c r eq_refl) as (_ & _ & _ & _ & Q1 & Q2).
    destruct (Z.eqb_spec c 39); [contradiction|]. destruct (Z.eqb_spec c 34); [contradiction|]. cbn [orb].
    apply R. exact Hr.
Qed.

Lemma key_in : forall (k : text * text) l, In k l \/ ~ In k l.
Proof.
  intros [x y] l; induction l as [|[a b] l IH]; [right; intros []|].
  destruct IH as [IH|IH]; [left; right; exact IH|].
  destruct (text_dec a x) as [-> |Na].
  - destruct (text_dec b y) as [-> |Nb]; [left; left; reflexivity|].
    right. intros [K|K]; [congruence|contradiction].
  - right. intros [K|K]; [congruence|contradiction].
Qed.

(** ** Histories *)
Section History.
Variable isfloat : text -> bool.

Lemma run_snoc : forall l b v t, run isfloat (l ++ [(b, v, t)]) = insert isfloat (run isfloat l) b v t.
Proof. intros. unfold run. rewrite fold_left_app. reflexivity. Qed.

Lemma run_lookup_none : forall l b v, lookup (run isfloat l) b v = None <-> ~ In (b, v) (keys l).
Proof.
  induction l as [|[[b1 v1] t1] l IH] using rev_ind; intros b v.
  - split; [intros _ []|reflexivity].
  - rewrite run_snoc, insert_lookup. unfold keys. rewrite map_app, in_app_iff. cbn [map In key fst snd].
    destruct (text_eqb b1 b && text_eqb v1 v) eqn:E.
    + apply andb_true_iff in E as [A B]. apply text_eqb_spec in A, B. subst.
      split; [discriminate|]. intros N. exfalso. apply N. right. left. reflexivity.
    + split.
      * intros H [K|[K|[]]]; [apply IH in H; contradiction|]. injection K as -> ->.
        rewrite !text_eqb_refl in E. discriminate E.
      * intros N. apply IH. intros K. apply N. left. exact K.
Qed.

Lemma run_lookup : forall pre b v t post e, ~ In (b, v) (keys post) ->
  means isfloat (fun x y => In (x, y) (keys (pre ++ [(b, v, t)]))) t e ->
  lookup (run isfloat (pre ++ (b, v, t) :: post)) b v = Some e.
Proof.
  intros pre b v t post; induction post as [|[[b1 v1] t1] post IH] using rev_ind; intros e N M.
  - rewrite run_snoc, insert_lookup, !text_eqb_refl. cbn [andb]. f_equal. apply entry_means.
    assert (Ext : forall x y, In (x, y) (keys (pre ++ [(b, v, t)])) <->
       (x = b /\ y = v) \/ lookup (run isfloat pre) x y <> None).
    { intros x y. rewrite run_lookup_none. unfold keys. rewrite map_app, in_app_iff. cbn [map In key fst snd].
      split.
      - intros [K|[K|[]]]; [right; tauto|]. injection K as <- <-. left. split; reflexivity.
      - intros [[-> ->]|K]; [right; left; reflexivity|]. left.
        destruct (key_in (x, y) (map key pre)); [assumption|contradiction]. }
    assert (Rf : forall s e, refers (fun x y => In (x, y) (keys (pre ++ [(b, v, t)]))) s e ->
       refers (fun x y => (x = b /\ y = v) \/ lookup (run isfloat pre) x y <> None) s e).
    { intros s e0 [(rb & rv & D & K & ->)|[Nk ->]].
      - left. exists rb, rv. split; [exact D|]. split; [apply Ext; exact K|reflexivity].
      - right. split; [|reflexivity]. intros x y D K. apply (Nk x y D). apply Ext. exact K. }
    destruct M; [eapply m_int|eapply m_float|apply m_true|apply m_false|apply m_quoted|apply m_plain]; eauto.
  - rewrite app_comm_cons, app_assoc, run_snoc, insert_lookup.
    unfold keys in N. rewrite map_app, in_app_iff in N. cbn [map In key fst snd] in N.
    destruct (text_eqb b1 b && text_eqb v1 v) eqn:E.
    + exfalso. apply andb_true_iff in E as [A B]. apply text_eqb_spec in A, B. subst. apply N. right. left. reflexivity.
    + apply IH; [|exact M]. intros K. apply N. left. exact K.
Qed.

(** ** References *)
Lemma resolve_mono : forall fuel st e x, resolve fuel st e = Ok x -> forall f2, (fuel <= f2)%nat -> resolve f2 st e = Ok x.
Proof.
  induction fuel as [|fuel IH]; intros st e x H f2 Hf.
  - destruct e; try discriminate H; destruct f2; exact H.
  - destruct e as [?|?|?|?|b v]; try (destruct f2; exact H).
    destruct f2 as [|f2]; [lia|]. cbn [resolve] in *. destruct (lookup st b v) as [e2|]; [|discriminate H].
    apply (IH st e2 x H). lia.
Qed.

(** with each variable assigned once and no reference to itself, a reference points to
    an earlier assignment *)
Lemma resolve_ends : forall l, NoDup (keys l) ->
  (forall b v, lookup (run isfloat l) b v <> Some (ERef b v)) ->
  forall b v, In (b, v) (keys l) ->
  exists e x, lookup (run isfloat l) b v = Some e /\ resolve (length l) (run isfloat l) e = Ok x /\ type_of x <> TRef.
Proof.
  induction l as [|[[b1 v1] t1] l IH] using rev_ind; intros Nd Ns b v Hin; [destruct Hin|].
  unfold keys in Nd. rewrite map_app in Nd. cbn [map key fst snd] in Nd.
  assert (Nd1 : NoDup (keys l)) by (apply NoDup_remove_1 in Nd; rewrite app_nil_r in Nd; exact Nd).
  assert (N1 : ~ In (b1, v1) (keys l)) by (apply NoDup_remove_2 in Nd; rewrite app_nil_r in Nd; exact Nd).
  assert (Old : forall x y, In (x, y) (keys l) -> lookup (run isfloat (l ++ [(b1, v1, t1)])) x y = lookup (run isfloat l) x y).
  { intros x y K. rewrite run_snoc, insert_lookup. destruct (text_eqb b1 x && text_eqb v1 y) eqn:E; [|reflexivity].
    exfalso. apply andb_true_iff in E as [A B]. apply text_eqb_spec in A, B. subst. contradiction. }
  assert (Ns1 : forall b v, lookup (run isfloat l) b v <> Some (ERef b v)).
  { intros x y K. destruct (key_in (x, y) (keys l)) as [I|I].
    - apply (Ns x y). rewrite Old by exact I. exact K.
    - apply run_lookup_none in I. congruence. }
  specialize (IH Nd1 Ns1).
  assert (Res : forall fuel e x, (forall rb rv, e = ERef rb rv -> In (rb, rv) (keys l)) ->
     resolve fuel (run isfloat l) e = Ok x -> resolve fuel (run isfloat (l ++ [(b1, v1, t1)])) e = Ok x).
  { induction fuel as [|fuel IHf]; intros e x Hr H.
    - destruct e; try exact H; discriminate H.
    - destruct e as [?|?|?|?|rb rv]; try exact H. cbn [resolve] in *.
      rewrite Old by (apply Hr; reflexivity).
      destruct (lookup (run isfloat l) rb rv) as [e2|] eqn:El; [|discriminate H].
      apply IHf; [|exact H]. intros b2 v2 ->.
      cbn [resolve] in H. destruct fuel; [discriminate H|]. cbn [resolve] in H.
      destruct (lookup (run isfloat l) b2 v2) eqn:E2; [|discriminate H].
      destruct (key_in (b2, v2) (keys l)) as [I|I]; [exact I|].
      apply run_lookup_none in I. congruence. }
  assert (Chain : forall x y e, lookup (run isfloat l) x y = Some e -> forall rb rv, e = ERef rb rv -> In (rb, rv) (keys l)).
  { intros x y e L rb rv ->.
    destruct (IH x y) as (e & z & Le & R & T).
    - destruct (key_in (x, y) (keys l)) as [I|I]; [exact I|].
      apply run_lookup_none in I. congruence.
    - rewrite L in Le. injection Le as <-. destruct (length l); cbn [resolve] in R; [discriminate R|].
      destruct (lookup (run isfloat l) rb rv) eqn:E2; [|discriminate R].
      destruct (key_in (rb, rv) (keys l)) as [I|I]; [exact I|].
      apply run_lookup_none in I. congruence. }
  rewrite app_length. cbn [length]. rewrite Nat.add_1_r.
  unfold keys in Hin. rewrite map_app, in_app_iff in Hin. destruct Hin as [Hin|[Hin|[]]].
  - destruct (IH b v Hin) as (e & x & L & R & T). exists e, x. split; [rewrite Old by exact Hin; exact L|]. split; [|exact T].
    apply Res; [intros rb rv Er; eapply Chain; [exact L|exact Er]|].
    apply (resolve_mono (length l)); [exact R|lia].
  - cbn [key fst snd] in Hin. injection Hin as <- <-.
    destruct (lookup (run isfloat (l ++ [(b1, v1, t1)])) b1 v1) as [e|] eqn:L.
    2:{ apply run_lookup_none in L. exfalso. apply L. unfold keys. rewrite map_app. apply in_or_app. right. left. reflexivity. }
    destruct e as [z|z|z|z|rb rv];
      [exists (EBool z), (EBool z)|exists (EInt z), (EInt z)|exists (EFloat z), (EFloat z)|exists (EString z), (EString z)|];
      try (split; [exact L|split; [reflexivity|cbn [type_of]; discriminate]]).

    assert (Hr : In (rb, rv) (keys l)).
    { assert (L2 := L). rewrite run_snoc, insert_lookup, !text_eqb_refl in L2. cbn [andb] in L2.
      injection L2 as L2. unfold entry_for in L2.
      assert (Gt : forall x y, get_type isfloat t1 <> ERef x y).
      { intros x y. rewrite get_type_eq. destruct (full t1); [discriminate|].
        destruct (match t1 with [] => false | _ => isfloat t1 end); [discriminate|].
        destruct (case_eqb t1 w_yes || case_eqb t1 w_true); [discriminate|].
        destruct (case_eqb t1 w_no || case_eqb t1 w_false); [discriminate|].
        destruct t1 as [|c r]; [discriminate|]. destruct ((c =? 39) || (c =? 34)); discriminate. }
      destruct (get_type isfloat t1) as [?|?|?|s|x y]; try discriminate L2; [|contradiction (Gt x y eq_refl)].
      destruct (split_dot s) as [[xb xv]|]; [|discriminate L2].
      destruct (text_eqb b1 xb && text_eqb v1 xv) eqn:E.
      - assert (X1 : xb = rb) by congruence. assert (X2 : xv = rv) by congruence.
        apply andb_true_iff in E as [A B]. apply text_eqb_spec in A, B.
        exfalso. apply (Ns b1 v1). etransitivity; [exact L|]. congruence.
      - destruct (lookup (run isfloat l) xb xv) eqn:E2; [|discriminate L2].
        assert (X1 : xb = rb) by congruence. assert (X2 : xv = rv) by congruence. subst xb xv.
        destruct (key_in (rb, rv) (keys l)) as [I|I]; [exact I|].
        apply run_lookup_none in I. congruence. }
    destruct (IH rb rv Hr) as (e2 & x & L2 & R2 & T2). exists (ERef rb rv), x.
    split; [exact L|]. split; [|exact T2].
    cbn [resolve]. rewrite Old by exact Hr. rewrite L2.
    apply Res; [intros b2 v2 Er; eapply Chain; [exact L2|exact Er]|exact R2].
Qed.
End History.
