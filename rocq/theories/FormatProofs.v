From Verif Require Import Prelude CstrModel FormatModel FormatSpec.
Open Scope Z_scope.

(** ** feeding *)
Section Feed.
Context {S : Type}.
Implicit Types (put : put_f S) (cl : S).

Lemma feed_app : forall put a b n cl,
  feed put (a ++ b) n cl = (x <- feed put a n cl ;; feed put b (fst x) (snd x)).
Proof.
  intros put a. induction a as [|c a IH]; intros b n cl; cbn [app feed]; [reflexivity|].
  destruct (put c cl) as [[k s]| | |]; cbn [obind]; try reflexivity. apply IH.
Qed.
Lemma emit_feed : forall put c n cl, emit put c (n, cl) = feed put [c] n cl.
Proof. intros. unfold emit. cbn [feed fst snd]. destruct (put c cl) as [[k s]| | |]; reflexivity. Qed.
Lemma emit_feed' : forall put c x, emit put c x = feed put [c] (fst x) (snd x).
Proof. intros put c [n s]. apply emit_feed. Qed.
Lemma pad_loop_feed : forall k put c x, pad_loop k put c x = feed put (repeat c k) (fst x) (snd x).
Proof.
  induction k as [|k IH]; intros put c [n cl]; cbn [pad_loop repeat]; [reflexivity|].
  rewrite emit_feed. change (c :: repeat c k) with ([c] ++ repeat c k). rewrite feed_app.
  cbn [fst snd]. destruct (feed put [c] n cl) as [x| | |]; cbn [obind]; try reflexivity. apply IH.
Qed.
Lemma pad_feed : forall put n c x, pad put n c x = feed put (repeat c (Z.to_nat n)) (fst x) (snd x).
Proof. intros. apply pad_loop_feed. Qed.
Lemma emit_str_feed : forall k put str x, (k <= length str)%nat -> Forall (fun c => 0 <= c < 256) str ->
  emit_str k put str x = feed put (firstn k str) (fst x) (snd x).
Proof.
  induction k as [|k IH]; intros put str [n cl] L B; [reflexivity|].
  destruct str as [|c str]; [cbn [length] in L; lia|]. cbn [emit_str firstn].
  inversion B as [|? ? Bc Br]; subst. rewrite Z.mod_small by exact Bc. rewrite emit_feed.
  change (c :: firstn k str) with ([c] ++ firstn k str). rewrite feed_app. cbn [fst snd].
  destruct (feed put [c] n cl) as [x| | |]; cbn [obind]; try reflexivity.
  apply IH; [cbn [length] in L; lia|exact Br].
Qed.
(** results are below 2^64, and a local count can be added afterwards *)
Lemma feed_shift : forall put l n m cl, 0 <= n + m < two64 \/ l <> [] ->
  (x <- feed put l m cl ;; Ok ((n + fst x) mod two64, snd x)) = feed put l ((n + m) mod two64) cl.
Proof.
  intros put l. induction l as [|c l IH]; intros n m cl H; cbn [feed obind].
  - reflexivity.
  - destruct (put c cl) as [[k s]| | |]; cbn [obind]; try reflexivity.
    destruct l as [|c' l].
    + cbn [feed obind fst snd]. f_equal. f_equal. rewrite Zplus_mod_idemp_r, Zplus_mod_idemp_l. f_equal. lia.
    + rewrite IH by (right; discriminate). f_equal. rewrite Zplus_mod_idemp_r, Zplus_mod_idemp_l. f_equal. lia.
Qed.
End Feed.

(** ** flags *)
Definition flags_are (d : dir) (fl : flagset) : Prop := forall c, (fl c =? 0) = negb (has d c).
Definition size_code (s : size) : Z := match size_value s with Some w => w | None => INT_MIN end.
Definition prec_code (p : option size) : Z := match p with Some s => size_code s | None => INT_MIN end.

Lemma reads_app : forall b l c, reads b (l ++ [c]) = b * reads b l + undigit c.
Proof. intros. unfold reads. rewrite fold_left_app. reflexivity. Qed.
Lemma reads_nonneg : forall ds, all_digits ds -> 0 <= reads 10 ds.
Proof.
  intros ds. induction ds as [|c ds IH] using rev_ind; intros A; [unfold reads; cbn; lia|].
  apply Forall_app in A as [A B]. inversion B; subst. rewrite reads_app. specialize (IH A).
  unfold undigit. destruct (c <? 58) eqn:E; lia.
Qed.
Lemma size_code_ok : forall s, size_ok s ->
  (size_value s = None /\ size_code s = INT_MIN) \/
  (exists w, size_value s = Some w /\ size_code s = w /\ INT_MIN < w <= INT_MAX).
Proof.
  intros [|ds|n] H; unfold size_code; cbn [size_value size_ok] in *.
  - left. auto.
  - right. destruct H as (_ & A & L). pose proof (reads_nonneg ds A). exists (reads 10 ds). unfold INT_MIN, INT_MAX in *. split; [reflexivity|]. split; [reflexivity|lia].
  - right. exists n. auto.
Qed.

Lemma normalize_width_spec : forall d fl, flags_are d fl -> size_ok (width d) ->
  exists fl', normalize_width (size_code (width d)) fl = (field_width d, fl') /\
    (fl' 45 =? 0) = negb (left d) /\ forall c, c <> 45 -> (fl' c =? 0) = negb (has d c).
Proof.
  intros d fl F Ok. unfold normalize_width, field_width, left.
  destruct (size_code_ok _ Ok) as [(-> & ->)|(w & -> & -> & B)].
  - rewrite Z.eqb_refl. exists fl. rewrite orb_false_r. auto.
  - replace (w =? INT_MIN) with false by lia. destruct (w <? 0) eqn:E.
    + exists (set_flag fl 45 1). replace (Z.abs w) with (- w) by lia. rewrite orb_true_r.
      split; [reflexivity|]. split; [reflexivity|]. intros c Hc. unfold set_flag.
      replace (c =? 45) with false by lia. apply F.
    + exists fl. replace (Z.abs w) with w by lia. rewrite orb_false_r. auto.
Qed.
Lemma normalize_spec : forall d fl p, flags_are d fl -> size_ok (width d) ->
  exists fl', normalize (size_code (width d)) fl p = (field_width d, fl') /\
    (fl' 45 =? 0) = negb (left d) /\ (fl' 48 =? 0) = negb (has d 48 && (p <? 0)) /\
    (fl' 32 =? 0) = negb (has d 32).
Proof.
  intros d fl p F Ok. destruct (normalize_width_spec d fl F Ok) as (fl' & E & A & B).
  unfold normalize. rewrite E. destruct (0 <=? p) eqn:Ep.
  - eexists. split; [reflexivity|]. unfold set_flag. cbn [Z.eqb].
    change (45 =? 48) with false. change (32 =? 48) with false. change (48 =? 48) with true. cbv iota.
    replace (p <? 0) with false by lia. rewrite andb_false_r. split; [exact A|]. split; [reflexivity|apply B; lia].
  - exists fl'. replace (p <? 0) with true by lia. rewrite andb_true_r. split; [reflexivity|]. split; [exact A|].
    split; apply B; lia.
Qed.

(** ** numbers *)
Definition as_prec (p : Z) : option Z := if p <? 0 then None else Some p.
Lemma len_zlen : forall l, len l = zlen l. Proof. reflexivity. Qed.
Lemma len_repeat : forall c n, len (repeat c (Z.to_nat n)) = Z.max 0 n.
Proof. intros. unfold len. rewrite repeat_length. lia. Qed.
Lemma len_app : forall a b, len (a ++ b) = len a + len b.
Proof. intros. unfold len. rewrite app_length. lia. Qed.
Lemma len_nonneg : forall a, 0 <= len a. Proof. intros. unfold len. lia. Qed.

Lemma firstn_len : forall (l : text), firstn (Z.to_nat (len l)) l = l.
Proof. intros. unfold len. rewrite Nat2Z.id. apply firstn_all. Qed.

Definition count (p : option Z) (s ds : text) : Z :=
  len s + match p, ds with Some 0, [48] => 0 | _, _ => len (zeros (match p with Some k => k | None => 1 end - len ds) ++ ds) end.

Lemma putd_tail : forall {S} (put : put_f S) cl d fl p s ds, (fl 45 =? 0) = negb (left d) ->
  (fl 48 =? 0) = negb (has d 48 && (p <? 0)) -> Forall (fun c => 0 <= c < 256) ds ->
  let pv := if p <? 0 then 1 else p in
  let n := count (as_prec p) s ds in
  (x <- (if negb (fl 45 =? 0) then feed put s 0 cl
         else if negb (fl 48 =? 0) then x <- feed put s 0 cl ;; pad put (field_width d - n) 48 x
         else x <- feed put s 0 cl ;; pad put (field_width d - n) 32 x) ;;
   x <- pad put (pv - len ds) 48 x ;;
   x <- emit_str (Z.to_nat (len ds)) put ds x ;;
   if negb (fl 45 =? 0) then pad put (field_width d - n) 32 x else Ok x) =
  feed put (number d (as_prec p) s ds) 0 cl.
Proof.
  intros S put cl d fl p s ds H1 H2 B pv n.
  assert (Ez : pv = match as_prec p with Some k => k | None => 1 end) by (unfold pv, as_prec; destruct (p <? 0); reflexivity).
  assert (En : n = count (as_prec p) s ds) by reflexivity.
  assert (Ep : (p <? 0) = match as_prec p with None => true | Some _ => false end) by (unfold as_prec; destruct (p <? 0); reflexivity).
  unfold number. cbv zeta. fold (count (as_prec p) s ds). rewrite <- En, <- Ez, <- Ep. clearbody pv n.
  rewrite H1, H2, !negb_involutive.
  assert (E3 : forall x : st S, emit_str (Z.to_nat (len ds)) put ds x = feed put ds (fst x) (snd x)).
  { intros x. rewrite emit_str_feed; [rewrite firstn_len; reflexivity|unfold len; lia|exact B]. }
  destruct (left d).
  - rewrite !feed_app. destruct (feed put s 0 cl) as [[a b]| | |]; cbn [obind fst snd]; try reflexivity.
    rewrite pad_feed, !feed_app. unfold zeros. cbn [fst snd].
    destruct (feed put (repeat 48 (Z.to_nat (pv - len ds))) a b) as [[a1 b1]| | |]; cbn [obind fst snd]; try reflexivity.
    rewrite E3. cbn [fst snd]. destruct (feed put ds a1 b1) as [x| | |]; cbn [obind]; try reflexivity. apply pad_feed.
  - assert (G : forall c, (x <- (x <- feed put s 0 cl ;; pad put (field_width d - n) c x) ;;
       x <- pad put (pv - len ds) 48 x ;; x <- emit_str (Z.to_nat (len ds)) put ds x ;; Ok x) =
       feed put (s ++ repeat c (Z.to_nat (field_width d - n)) ++ zeros (pv - len ds) ++ ds) 0 cl).
    { intros c. rewrite !feed_app. destruct (feed put s 0 cl) as [[a b]| | |]; cbn [obind fst snd]; try reflexivity.
      rewrite pad_feed, !feed_app. cbn [fst snd].
      destruct (feed put (repeat c (Z.to_nat (field_width d - n))) a b) as [[a1 b1]| | |]; cbn [obind fst snd]; try reflexivity.
      rewrite pad_feed, !feed_app. unfold zeros. cbn [fst snd].
      destruct (feed put (repeat 48 (Z.to_nat (pv - len ds))) a1 b1) as [[a2 b2]| | |]; cbn [obind fst snd]; try reflexivity.
      rewrite E3. cbn [fst snd]. destruct (feed put ds a2 b2) as [x| | |]; reflexivity. }
    destruct (has d 48 && (p <? 0)); rewrite G; reflexivity.
Qed.

(** the sign character of the text given to zt_fmt_putd *)
Lemma putd_ok : forall {S} (put : put_f S) cl d fl p t, flags_are d fl -> size_ok (width d) ->
  Forall (fun c => 0 <= c < 256) t ->
  zt_fmt_putd t (zlen t) put cl fl (size_code (width d)) p =
  feed put (number d (as_prec p) (sign_of d t) (body_of t)) 0 cl.
Proof.
  intros S put cl d fl p t F Wk B. unfold zt_fmt_putd.
  destruct (normalize_spec d fl p F Wk) as (fl' & -> & H1 & H2 & H3).
  set (pv := if p <? 0 then 1 else p).
  assert (Pv : 0 <= pv) by (unfold pv; destruct (p <? 0) eqn:E; lia).
  assert (Sg : exists sign, (if sign =? 0 then [] else [sign]) = sign_of d t /\
     (if 0 <? zlen t then match t with [] => UB
        | c :: r => if (c =? 45) || (c =? 43) then Ok (c, r, zlen t - 1) else Ok ((if fl' 32 =? 0 then 0 else 32), t, zlen t) end
      else Ok ((if fl' 32 =? 0 then 0 else 32), t, zlen t)) = Ok (sign, body_of t, zlen (body_of t))).
  { unfold sign_of, body_of. destruct t as [|c r].
    - exists (if fl' 32 =? 0 then 0 else 32). rewrite H3. unfold blank. destruct (has d 32); split; reflexivity.
    - replace (0 <? zlen (c :: r)) with true by (unfold zlen; cbn [length]; lia).
      destruct ((c =? 45) || (c =? 43)) eqn:E.
      + exists c. replace (c =? 0) with false by lia. split; [reflexivity|]. f_equal. f_equal. unfold zlen; cbn [length]; lia.
      + exists (if fl' 32 =? 0 then 0 else 32). rewrite H3. unfold blank. destruct (has d 32); split; reflexivity. }
  destruct Sg as (sign & Es & ->). cbn [obind].
  assert (Bd : Forall (fun c => 0 <= c < 256) (body_of t)).
  { unfold body_of. destruct t as [|c r]; [constructor|]. inversion B; subst. destruct (_ || _); assumption. }
  set (ds := body_of t) in *. clearbody ds.
  assert (En : (if zlen ds <? pv then Ok pv
        else if (pv =? 0) && (zlen ds =? 1) then
          match ds with [] => UB | c :: _ => Ok (if c =? 48 then 0 else zlen ds) end
        else Ok (zlen ds)) = Ok (count (as_prec p) [] ds)).
  { unfold count. unfold as_prec. pose proof (len_nonneg ds) as Ln. rewrite len_zlen in Ln.
    assert (G : zlen ds <? pv = true -> len (zeros (pv - len ds) ++ ds) = pv).
    { intros H. rewrite len_app. unfold zeros. rewrite len_repeat, len_zlen. lia. }
    assert (G' : zlen ds <? pv = false -> len (zeros (pv - len ds) ++ ds) = zlen ds).
    { intros H. rewrite len_app. unfold zeros. rewrite len_repeat, len_zlen. lia. }
    change (len []) with 0. rewrite Z.add_0_l.
    unfold pv in *. destruct (p <? 0) eqn:Ep; cbv iota in *.
    - destruct (zlen ds <? 1) eqn:L; [rewrite (G eq_refl); reflexivity|]. change (1 =? 0) with false. cbn [andb].
      rewrite (G' eq_refl). reflexivity.
    - destruct (Z.eq_dec p 0) as [->|Np].
      + replace (zlen ds <? 0) with false in * by lia. change (0 =? 0) with true. cbn [andb].
        destruct ds as [|c [|c' r]].
        * reflexivity.
        * change (zlen [c] =? 1) with true. cbv iota.
          assert (X : (if c =? 48 then 0 else zlen [c]) = match [c] with [48] => 0 | _ => len (zeros (0 - len [c]) ++ [c]) end).
          { destruct (c =? 48) eqn:E; [replace c with 48 by lia; reflexivity|].
            rewrite (G' eq_refl). repeat (match goal with |- context [match ?c with _ => _ end] => is_var c; destruct c; try reflexivity; try lia end). }
          rewrite X. reflexivity.
        * replace (zlen (c :: c' :: r) =? 1) with false by (unfold zlen; cbn [length]; lia).
          assert (X : zlen (c :: c' :: r) = match c :: c' :: r with [48] => 0 | _ => len (zeros (0 - len (c :: c' :: r)) ++ c :: c' :: r) end).
          { rewrite (G' eq_refl). repeat (match goal with |- context [match ?c with _ => _ end] => is_var c; destruct c; try reflexivity; try lia end). }
          rewrite X at 1. reflexivity.
      + replace (p =? 0) with false by lia. cbn [andb].
        assert (X : forall y, match p with 0 => match ds with [48] => 0 | _ => y end | _ => y end = y).
        { intros y. destruct p; [congruence|reflexivity|reflexivity]. }
        destruct (zlen ds <? p) eqn:L.
        * rewrite (G eq_refl). rewrite X. reflexivity.
        * rewrite (G' eq_refl). rewrite X. reflexivity. }
  fold pv. cbv zeta. rewrite En. cbn [obind].
  assert (Ec : (if sign =? 0 then count (as_prec p) [] ds else count (as_prec p) [] ds + 1) = count (as_prec p) (sign_of d t) ds).
  { rewrite <- Es. unfold count. destruct (sign =? 0); [reflexivity|]. change (len []) with 0. change (len [sign]) with 1. lia. }
  rewrite Ec. rewrite <- (putd_tail put cl d fl' p (sign_of d t) ds H1 H2 Bd). cbv zeta. fold pv.
  assert (Ee : (if sign =? 0 then Ok (0, cl) else emit put sign (0, cl)) = feed put (sign_of d t) 0 cl).
  { rewrite <- Es. destruct (sign =? 0); [reflexivity|apply emit_feed]. }
  rewrite Ee. reflexivity.
Qed.

(** ** digits *)
Lemma digit_is : forall k, 0 <= k < 10 -> k + 48 = digit k.
Proof. intros k H. unfold digit. replace (k <? 10) with true by lia. lia. Qed.
Lemma hexdigit_is : forall k, 0 <= k < 16 -> hexdigit k = digit k.
Proof.
  intros k H.
  assert (C : k = 0 \/ k = 1 \/ k = 2 \/ k = 3 \/ k = 4 \/ k = 5 \/ k = 6 \/ k = 7 \/ k = 8 \/ k = 9 \/ k = 10 \/ k = 11 \/ k = 12 \/ k = 13 \/ k = 14 \/ k = 15) by lia.
  repeat (destruct C as [->|C]; [reflexivity|]). subst. reflexivity.
Qed.
Lemma numeral_fuel : forall base f g n, 2 <= base -> 0 <= n -> n < 2 ^ Z.of_nat f -> n < 2 ^ Z.of_nat g -> (0 < f)%nat -> (0 < g)%nat ->
  numeral_ f base n = numeral_ g base n.
Proof.
  intros base f. induction f as [|f IH]; intros g n Hb Hn Lf Lg Pf Pg; [lia|].
  destruct g as [|g]; [lia|]. cbn [numeral_]. destruct (n <? base) eqn:E; [reflexivity|].
  f_equal. assert (B1 : n / base < 2 ^ Z.of_nat f).
  { apply Z.div_lt_upper_bound; [lia|]. rewrite Nat2Z.inj_succ, Z.pow_succ_r in Lf by lia.
    assert (0 < 2 ^ Z.of_nat f) by (apply Z.pow_pos_nonneg; lia). nia. }
  assert (B2 : n / base < 2 ^ Z.of_nat g).
  { apply Z.div_lt_upper_bound; [lia|]. rewrite Nat2Z.inj_succ, Z.pow_succ_r in Lg by lia.
    assert (0 < 2 ^ Z.of_nat g) by (apply Z.pow_pos_nonneg; lia). nia. }
  assert (P : 0 < n / base) by (apply Z.div_str_pos; lia).
  apply IH; try assumption; try lia.
  - destruct f; [|lia]. change (2 ^ Z.of_nat 0) with 1 in B1. lia.
  - destruct g; [|lia]. change (2 ^ Z.of_nat 0) with 1 in B2. lia.
Qed.
Lemma numeral_step : forall base n, 2 <= base -> 0 <= n ->
  numeral base n = (if n <? base then [] else numeral base (n / base)) ++ [digit (n mod base)].
Proof.
  intros base n Hb Hn. unfold numeral at 1. cbn [numeral_]. destruct (n <? base) eqn:E; [reflexivity|].
  f_equal. unfold numeral.
  assert (P : 0 < n / base) by (apply Z.div_str_pos; lia).
  assert (Lg : forall m, 0 < m -> m < 2 ^ Z.of_nat (Datatypes.S (Z.to_nat (Z.log2 m)))).
  { intros m Hm. rewrite Nat2Z.inj_succ, Z2Nat.id by apply Z.log2_nonneg. apply Z.log2_spec. exact Hm. }
  assert (Ln : n < 2 ^ (Z.log2 n + 1)) by (apply Z.log2_spec; lia).
  assert (L2 : 1 <= Z.log2 n) by (apply Z.log2_le_pow2; lia).
  apply numeral_fuel; try lia.
  - rewrite Z2Nat.id by lia. apply Z.div_lt_upper_bound; [lia|].
    rewrite Z.pow_add_r in Ln by lia. change (2 ^ 1) with 2 in Ln.
    assert (0 < 2 ^ Z.log2 n) by (apply Z.pow_pos_nonneg; lia). nia.
  - apply Lg. exact P.
Qed.

Lemma digit_loop_ok : forall base dig next, 2 <= base ->
  (forall m, 0 <= m -> dig m = digit (m mod base)) -> (forall m, 0 <= m -> next m = m / base) ->
  forall fuel m room acc, 0 <= m -> m < 2 ^ Z.of_nat fuel -> m < base ^ room -> (0 < fuel)%nat -> 0 < room ->
  digit_loop fuel room dig next m acc = Ok (numeral base m ++ acc) /\ len (numeral base m) <= room.
Proof.
  intros base dig next Hb Hd Hn. induction fuel as [|fuel IH]; intros m room acc Hm Lf Lr Pf Pr; [lia|].
  cbn [digit_loop]. replace (0 <? room) with true by lia. cbn [safe obind]. cbv zeta.
  rewrite Hd, Hn by exact Hm. rewrite (numeral_step base m Hb Hm).
  destruct (m <? base) eqn:E.
  - rewrite Z.div_small by lia. cbn [Z.eqb app]. split; [reflexivity|]. unfold len; cbn [length]; lia.
  - assert (P : 0 < m / base) by (apply Z.div_str_pos; lia).
    replace (m / base =? 0) with false by lia.
    assert (R1 : 1 < room).
    { destruct (Z_lt_le_dec 1 room) as [|]; [assumption|]. replace room with 1 in Lr by lia. rewrite Z.pow_1_r in Lr. lia. }
    assert (B1 : m / base < 2 ^ Z.of_nat fuel).
    { apply Z.div_lt_upper_bound; [lia|]. rewrite Nat2Z.inj_succ, Z.pow_succ_r in Lf by lia.
      assert (0 < 2 ^ Z.of_nat fuel) by (apply Z.pow_pos_nonneg; lia). nia. }
    destruct (IH (m / base) (room - 1) (digit (m mod base) :: acc)) as (E1 & E2); try lia.
    + apply Z.div_lt_upper_bound; [lia|]. rewrite <- Z.pow_succ_r by lia. replace (Z.succ (room - 1)) with room by lia. exact Lr.
    + destruct fuel; [|lia]. change (2 ^ Z.of_nat 0) with 1 in B1. lia.
    + rewrite E1. split; [rewrite <- app_assoc; reflexivity|]. rewrite len_app. change (len [digit (m mod base)]) with 1. lia.
Qed.

Lemma dec_ok : forall m, 0 <= m < two32 -> dec_loop m = Ok (numeral 10 m) /\ len (numeral 10 m) <= 10.
Proof.
  intros m H. unfold dec_loop.
  assert (A : forall room, 10 <= room -> digit_loop 64 room (fun m => m mod 10 + 48) (fun m => m / 10) m [] = Ok (numeral 10 m ++ []) /\ len (numeral 10 m) <= room).
  { intros room R. apply digit_loop_ok; try lia.
    - intros k Hk. apply digit_is. lia.
    - assert (E : 2 ^ Z.of_nat 64 = two64) by reflexivity. rewrite E. unfold two32, two64 in *. lia.
    - apply Z.lt_le_trans with (10 ^ 10).
      + assert (E : 10 ^ 10 = 10000000000) by reflexivity. rewrite E. unfold two32 in *. lia.
      + apply Z.pow_le_mono_r; lia. }
  split; [destruct (A 43 ltac:(lia)) as (E & _); rewrite E, app_nil_r; reflexivity|apply (A 10); lia].
Qed.
Lemma oct_ok : forall m, 0 <= m < two32 -> oct_loop m = Ok (numeral 8 m).
Proof.
  intros m H. unfold oct_loop.
  destruct (digit_loop_ok 8 (fun m => Z.land m 7 + 48) (fun m => Z.shiftr m 3)) with (fuel := 64%nat) (m := m) (room := 43) (acc := @nil Z) as (E & _); try lia.
  - intros k Hk. change 7 with (Z.ones 3). rewrite Z.land_ones by lia. change (2 ^ 3) with 8. apply digit_is. lia.
  - intros k Hk. rewrite Z.shiftr_div_pow2 by lia. reflexivity.
  - assert (E : 2 ^ Z.of_nat 64 = two64) by reflexivity. rewrite E. unfold two32, two64 in *. lia.
  - apply Z.lt_le_trans with (8 ^ 11).
    + assert (E : 8 ^ 11 = 8589934592) by reflexivity. rewrite E. unfold two32 in *. lia.
    + apply Z.pow_le_mono_r; lia.
  - rewrite E, app_nil_r. reflexivity.
Qed.
Lemma hex_ok : forall m room, 0 <= m < two64 -> 16 <= room -> hex_loop room m = Ok (numeral 16 m).
Proof.
  intros m room H R. unfold hex_loop.
  destruct (digit_loop_ok 16 (fun m => hexdigit (Z.land m 15)) (fun m => Z.shiftr m 4)) with (fuel := 64%nat) (m := m) (room := room) (acc := @nil Z) as (E & _); try lia.
  - intros k Hk. change 15 with (Z.ones 4). rewrite Z.land_ones by lia. change (2 ^ 4) with 16. apply hexdigit_is. lia.
  - intros k Hk. rewrite Z.shiftr_div_pow2 by lia. reflexivity.
  - assert (E : 2 ^ Z.of_nat 64 = two64) by reflexivity. rewrite E. lia.
  - apply Z.lt_le_trans with (16 ^ 16).
    + assert (E : 16 ^ 16 = two64) by reflexivity. rewrite E. lia.
    + apply Z.pow_le_mono_r; lia.
  - rewrite E, app_nil_r. reflexivity.
Qed.

Lemma numeral_digits : forall base n, 2 <= base <= 16 -> 0 <= n ->
  Forall (fun c => exists k, c = digit k /\ 0 <= k < base) (numeral base n).
Proof.
  intros base n Hb. revert n. apply (Zlt_0_ind (fun n => Forall (fun c => exists k, c = digit k /\ 0 <= k < base) (numeral base n))). intros n IH Hn. rewrite numeral_step by lia.
  apply Forall_app. split.
  - destruct (n <? base) eqn:E; [constructor|]. apply IH. split; [apply Z.div_pos; lia|apply Z.div_lt; lia].
  - constructor; [|constructor]. exists (n mod base). split; [reflexivity|apply Z.mod_pos_bound; lia].
Qed.
Lemma digit_range : forall k, 0 <= k < 16 -> 48 <= digit k <= 57 \/ 97 <= digit k <= 102.
Proof. intros k H. unfold digit. destruct (k <? 10) eqn:E; lia. Qed.
Lemma numeral_bytes : forall base n, 2 <= base <= 16 -> 0 <= n -> Forall (fun c => 48 <= c < 103) (numeral base n).
Proof.
  intros base n Hb Hn. eapply Forall_impl; [|apply (numeral_digits base n Hb Hn)].
  intros c (k & -> & Hk). pose proof (digit_range k ltac:(lia)). lia.
Qed.
Lemma unsigned_text : forall d base n, 2 <= base <= 16 -> 0 <= n ->
  sign_of d (numeral base n) = blank d /\ body_of (numeral base n) = numeral base n.
Proof.
  intros d base n Hb Hn. pose proof (numeral_bytes base n Hb Hn) as B.
  unfold sign_of, body_of. destruct (numeral base n) as [|c r]; [auto|]. inversion B; subst.
  replace ((c =? 45) || (c =? 43)) with false by lia. auto.
Qed.
