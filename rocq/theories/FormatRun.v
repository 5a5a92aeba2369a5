From Verif Require Import Prelude CstrModel FormatModel FormatSpec FormatProofs.
Open Scope Z_scope.

(** ** strings and characters *)
Lemma puts_ok : forall {S} (put : put_f S) cl str fl wc p W L fl', normalize_width wc fl = (W, fl') ->
  (fl' 45 =? 0) = negb L -> Forall (fun c => 0 < c < 256) str ->
  zt_fmt_puts str (zlen str) put cl fl wc p =
  feed put (let t := cut_to (as_prec p) str in if L then t else spaces (W - len t) ++ t) 0 cl.
Proof.
  intros S put cl str fl wc p W L fl' En Hl B. unfold zt_fmt_puts, normalize. rewrite En.
  set (n := if (0 <=? p) && (p <? zlen str) then p else zlen str).
  pose proof (len_nonneg str) as Ln. rewrite len_zlen in Ln.
  assert (T : firstn (Z.to_nat n) str = cut_to (as_prec p) str /\ n = len (cut_to (as_prec p) str) /\ (Z.to_nat n <= length str)%nat).
  { unfold n, as_prec, cut_to. destruct (p <? 0) eqn:Ep.
    - replace (0 <=? p) with false by lia. cbn [andb]. rewrite <- len_zlen, firstn_len. unfold len. split; [reflexivity|]. lia.
    - replace (0 <=? p) with true by lia. cbn [andb]. destruct (p <? zlen str) eqn:E.
      + split; [reflexivity|]. unfold len, zlen in *. rewrite firstn_length. lia.
      + rewrite <- len_zlen, firstn_len. unfold zlen in *. rewrite firstn_all2 by lia. unfold len. split; [reflexivity|lia]. }
  destruct T as (T1 & T2 & T3). cbv zeta.
  assert (E45 : ((if 0 <=? p then set_flag fl' 48 0 else fl') 45 =? 0) = negb L).
  { destruct (0 <=? p); [|exact Hl]. unfold set_flag. change (45 =? 48) with false. exact Hl. }
  rewrite E45. rewrite <- T2.
  assert (Es : forall x : st S, emit_str (Z.to_nat n) put str x = feed put (cut_to (as_prec p) str) (fst x) (snd x)).
  { intros x. rewrite emit_str_feed; [rewrite T1; reflexivity|exact T3|]. eapply Forall_impl; [|exact B]. intros a Ha; cbv beta in *; lia. } 
  destruct L; cbn [negb].
  - cbn [obind]. rewrite Es. reflexivity.
  - rewrite pad_feed, feed_app. unfold spaces. cbn [fst snd].
    destruct (feed put (repeat 32 (Z.to_nat (W - n))) 0 cl) as [x| | |]; cbn [obind]; try reflexivity. apply Es.
Qed.

Lemma cvt_s_ok : forall {S} (put : put_f S) cl d fl s, flags_are d fl -> size_ok (width d) ->
  Forall (fun c => 0 < c < 256) s -> len s < INT_MAX ->
  cvt_s (code d) (VStr (Some s)) put cl fl (size_code (width d)) (prec_code (prec d)) =
  feed put (let t := cut_to (as_prec (prec_code (prec d))) (skipped d s) in
            if has d 45 || (negb (has d 35) && left d) then t else spaces (str_gap d t) ++ t) 0 cl.
Proof.
  intros S put cl d fl s F Wk B Ls. unfold cvt_s. rewrite (F 35), negb_involutive.
  destruct (normalize_width_spec d fl F Wk) as (fl' & En & A & _).
  assert (Hash : forall str, has d 35 = true -> Forall (fun c => 0 < c < 256) str ->
    zt_fmt_puts str (zlen str) put cl fl INT_MIN (prec_code (prec d)) =
    feed put (let t := cut_to (as_prec (prec_code (prec d))) str in
            if has d 45 || (negb (has d 35) && left d) then t else spaces (str_gap d t) ++ t) 0 cl).
  { intros str H Bs. rewrite (puts_ok put cl str fl INT_MIN (prec_code (prec d)) 0 (has d 45) fl); [|reflexivity|apply F|exact Bs].
    cbv zeta. rewrite H. cbn [negb andb]. rewrite orb_false_r. unfold str_gap. rewrite H.
    destruct (has d 45); [reflexivity|]. unfold spaces.
    replace (Z.to_nat (0 - len (cut_to (as_prec (prec_code (prec d))) str))) with 0%nat by (unfold len; lia). reflexivity. }
  unfold skipped. destruct (size_code_ok _ Wk) as [(Ev & Ec)|(w & Ev & Ec & Bw)]; rewrite Ev.
  - rewrite Ec, Z.eqb_refl. cbn [negb]. rewrite andb_false_r. cbn [obind].
    destruct (has d 35) eqn:H; [apply Hash; [reflexivity|exact B]|].
    rewrite (puts_ok put cl s fl INT_MIN (prec_code (prec d)) 0 (has d 45) fl); [|reflexivity|apply F|exact B].
    cbv zeta. unfold str_gap, left, field_width. rewrite H, Ev. cbn [negb andb]. rewrite orb_false_r.
    destruct (has d 45); reflexivity.
  - rewrite Ec. replace (w =? INT_MIN) with false by lia. cbn [negb]. rewrite andb_true_r.
    destruct (has d 35) eqn:H.
    + cbn [andb]. change (zlen s) with (len s) at 1. replace (len s <? INT_MAX) with true by lia. cbn [guard obind].
      replace (if w <? 0 then - w else w) with (Z.abs w) by (destruct (w <? 0) eqn:E; lia). fold (len s).
      apply Hash; [reflexivity|].
      destruct (Z.abs w <? len s); [|exact B]. rewrite <- (firstn_skipn (Z.to_nat (Z.abs w)) s) in B. apply Forall_app in B. apply B.
    + cbn [obind andb]. rewrite <- Ec. rewrite (puts_ok put cl s fl _ (prec_code (prec d)) (field_width d) (left d) fl'); [|exact En|exact A|exact B].
      cbv zeta. unfold str_gap. rewrite H. cbn [negb andb].
      assert (E : has d 45 || left d = left d) by (unfold left; destruct (has d 45); reflexivity). rewrite E. reflexivity.
Qed.

Lemma as_char_signed8 c : as_char c = signed8 c.
Proof. unfold as_char, signed8. cbv zeta. destruct (c mod 256 <? 128) eqn:E; Z.to_euclidean_division_equations; lia. Qed.
Lemma cvt_c_ok : forall {S} (put : put_f S) cl d fl v p, flags_are d fl -> size_ok (width d) ->
  cvt_c (code d) (VInt v) put cl fl (size_code (width d)) p = feed put (char_ d v) 0 cl.
Proof.
  intros S put cl d fl v p F Wk. unfold cvt_c.
  destruct (normalize_width_spec d fl F Wk) as (fl' & -> & A & _). rewrite A. unfold char_. rewrite !as_char_signed8. rewrite negb_involutive.
  destruct (left d); cbn [negb].
  - cbn [obind]. change (signed8 v :: spaces (field_width d - 1)) with ([signed8 v] ++ spaces (field_width d - 1)).
    rewrite emit_feed, feed_app. destruct (feed put [signed8 v] 0 cl) as [x| | |]; cbn [obind]; try reflexivity. apply pad_feed.
  - rewrite pad_feed, feed_app. unfold spaces. cbn [fst snd].
    destruct (feed put (repeat 32 (Z.to_nat (field_width d - 1))) 0 cl) as [x| | |]; cbn [obind]; try reflexivity.
    rewrite emit_feed'. destruct (feed put [signed8 v] (fst x) (snd x)); reflexivity.
Qed.

Lemma as_field_prec : forall d, match prec d with Some s => size_ok s | None => True end ->
  as_prec (prec_code (prec d)) = field_prec d.
Proof.
  intros d H. unfold field_prec, prec_code, as_prec. destruct (prec d) as [s|]; [|reflexivity].
  destruct (size_code_ok s H) as [(-> & ->)|(w & -> & -> & B)]; [reflexivity|]. reflexivity.
Qed.

Lemma int32_id : forall n, INT_MIN <= n <= INT_MAX -> int32 n = n.
Proof. intros n H. unfold int32, INT_MIN, INT_MAX, two32 in *. rewrite Z.mod_small by lia. lia. Qed.

(** ** one conversion *)
Lemma conversion : forall {S} (put : put_f S) d fl, piece_ok (Dir d) -> flags_are d fl ->
  exists f ty v, cvt0 (code d) = (Some f, ty) /\ ty <> 0 /\
    (forall ap, read_value ty (value_ d :: ap) = Ok (v, ap)) /\
    forall cl, f (code d) v put cl fl (size_code (width d)) (prec_code (prec d)) = feed put (render_dir d) 0 cl.
Proof.
  intros S put d fl (_ & _ & _ & Wk & _ & Pk & Vk) F.
  pose proof (as_field_prec d Pk) as Ef. unfold value_ok in Vk. change (-2147483648) with INT_MIN in Vk. change 2147483647 with INT_MAX in Vk. change (2 ^ 32) with two32 in Vk. change (2 ^ 64) with two64 in Vk. unfold render_dir.
  destruct (value_ d) as [v|v|[s|]|r] eqn:Ev.
  - destruct Vk as [(Ec & B)|[(Ec & B)|(Ec & B)]].
    + exists cvt_d, 105, (VInt v). rewrite Ec. split; [reflexivity|]. split; [discriminate|].
      split; [intros; cbn [read_value]; unfold read_value; cbn [Z.eqb]; rewrite int32_id by lia; reflexivity|].
      intros cl. change (100 =? 100) with true. cbv iota. rewrite <- Ef.
      assert (M : exists m, (if v =? INT_MAX then Ok (INT_MAX + 1)
            else if v <? 0 then (_ <- safe (negb (v =? INT_MIN)) ;; Ok (- v)) else Ok v) = Ok m /\ m = Z.abs v).
      { replace (v =? INT_MAX) with false by lia. replace (v =? INT_MIN) with false by lia. exists (Z.abs v). split; [|reflexivity].
        destruct (v <? 0) eqn:E; cbn [negb safe obind]; f_equal; lia. }
      destruct M as (m & Em & Hm). unfold cvt_d. rewrite Em. cbn [obind]. subst m.
      destruct (dec_ok (Z.abs v)) as (Ed & Ld); [unfold INT_MIN, INT_MAX, two32 in *; lia|]. rewrite Ed. cbn [obind].
      rewrite <- len_zlen. replace (len (numeral 10 (Z.abs v)) <? 43) with true by lia. cbn [safe obind]. cbv zeta.
      destruct (v <? 0) eqn:E.
      * rewrite putd_ok; [reflexivity|exact F|exact Wk|]. constructor; [lia|].
        eapply Forall_impl; [|apply (numeral_bytes 10 (Z.abs v)); lia]. intros ? ?; cbv beta in *; lia.
      * rewrite putd_ok; [|exact F|exact Wk|eapply Forall_impl; [|apply (numeral_bytes 10 (Z.abs v)); lia]; intros ? ?; cbv beta in *; lia].
        destruct (unsigned_text d 10 (Z.abs v) ltac:(lia) ltac:(lia)) as (-> & ->). reflexivity.
    + assert (Bp : forall base n, 2 <= base <= 16 -> 0 <= n -> Forall (fun c => 0 <= c < 256) (numeral base n)).
      { intros base n Hb Hn. eapply Forall_impl; [|apply (numeral_bytes base n); assumption]. intros ? ?; cbv beta in *; lia. }
      assert (Rv : forall ap, read_value 117 (AInt v :: ap) = Ok (VUint v, ap)).
      { intros ap. unfold read_value. change (117 =? 105) with false. change (117 =? 117) with true. cbv iota. rewrite Z.mod_small by exact B. reflexivity. }
      destruct Ec as [Ec|[Ec|Ec]]; rewrite Ec.
      * exists cvt_u, 117, (VUint v). split; [reflexivity|]. split; [discriminate|]. split; [exact Rv|]. intros cl.
        change (117 =? 100) with false. change (117 =? 117) with true. cbv iota. rewrite <- Ef.
        unfold cvt_u. destruct (dec_ok v B) as (-> & _). cbn [obind].
        rewrite putd_ok; [|exact F|exact Wk|apply Bp; lia].
        destruct (unsigned_text d 10 v ltac:(lia) ltac:(lia)) as (-> & ->). reflexivity.
      * exists cvt_o, 117, (VUint v). split; [reflexivity|]. split; [discriminate|]. split; [exact Rv|]. intros cl.
        change (111 =? 100) with false. change (111 =? 117) with false. change (111 =? 111) with true. cbv iota. rewrite <- Ef.
        unfold cvt_o. rewrite (oct_ok v B). cbn [obind].
        rewrite putd_ok; [|exact F|exact Wk|apply Bp; lia].
        destruct (unsigned_text d 8 v ltac:(lia) ltac:(lia)) as (-> & ->). reflexivity.
      * exists cvt_x, 117, (VUint v). split; [reflexivity|]. split; [discriminate|]. split; [exact Rv|]. intros cl.
        change (120 =? 100) with false. change (120 =? 117) with false. change (120 =? 111) with false. change (120 =? 120) with true. cbv iota. rewrite <- Ef.
        unfold cvt_x. rewrite hex_ok; [|unfold two32, two64 in *; lia|lia]. cbn [obind].
        rewrite putd_ok; [|exact F|exact Wk|apply Bp; lia].
        destruct (unsigned_text d 16 v ltac:(lia) ltac:(lia)) as (-> & ->). reflexivity.
    + exists cvt_c, 105, (VInt v). rewrite Ec. split; [reflexivity|]. split; [discriminate|].
      split; [intros; unfold read_value; cbn [Z.eqb]; change (105 =? 105) with true; cbv iota; rewrite int32_id by exact B; reflexivity|].
      intros cl. change (99 =? 100) with false. change (99 =? 117) with false. change (99 =? 111) with false. change (99 =? 120) with false. cbv iota.
      rewrite <- Ec. apply cvt_c_ok; assumption.
  - destruct Vk as (Ec & B). exists cvt_p, 112, (VPtr v). rewrite Ec. split; [reflexivity|]. split; [discriminate|].
    split; [intros; unfold read_value; change (112 =? 105) with false; change (112 =? 117) with false; change (112 =? 100) with false; change (112 =? 112) with true; cbv iota; rewrite Z.mod_small by exact B; reflexivity|].
    intros cl. unfold cvt_p. rewrite hex_ok; [|exact B|lia]. cbn [obind].
    rewrite putd_ok; [|exact F|exact Wk|].
    + destruct (unsigned_text d 16 v ltac:(lia) ltac:(lia)) as (-> & ->). reflexivity.
    + eapply Forall_impl; [|apply (numeral_bytes 16 v); lia]. intros ? ?; cbv beta in *; lia.
  - destruct Vk as (Ec & B & Ls). exists cvt_s, 115, (VStr (Some s)). split; [rewrite Ec; reflexivity|]. split; [discriminate|].
    split; [intros; reflexivity|]. intros cl. unfold string_. rewrite <- Ef. apply cvt_s_ok; assumption.
  - destruct Vk.
  - destruct Vk as (Ec & Lp & Lt & B). exists cvt_f, 100, (VDbl r).
    split; [destruct Ec as [-> |[-> | ->]]; reflexivity|]. split; [discriminate|]. split; [intros; reflexivity|].
    intros cl. unfold cvt_f.
    assert (Ep : (let p := if prec_code (prec d) <? 0 then 6 else prec_code (prec d) in
                  if (code d =? 103) && (p =? 0) then 1 else p) = float_prec d).
    { unfold float_prec. rewrite <- Ef. unfold as_prec. destruct (prec_code (prec d) <? 0) eqn:E.
      - cbv zeta. change (6 =? 0) with false. rewrite andb_false_r. reflexivity.
      - reflexivity. }
    cbv zeta in Ep. cbv zeta. rewrite Ep. replace (float_prec d <=? 99) with true by lia. cbn [guard obind].
    rewrite <- len_zlen. cbv zeta in Lt. replace (len (r (code d) (float_prec d)) <? 410) with true by lia. cbn [safe obind].
    rewrite len_zlen, putd_ok; [|exact F|exact Wk|eapply Forall_impl; [|exact B]; intros ? ?; cbv beta in *; lia].
    replace (as_prec (float_prec d)) with (Some (float_prec d)); [reflexivity|].
    unfold as_prec. replace (float_prec d <? 0) with false; [reflexivity|]. symmetry.
    unfold float_prec. rewrite <- Ef. unfold as_prec. destruct (prec_code (prec d) <? 0) eqn:E; [reflexivity|].
    destruct (_ && _); [reflexivity|lia].
Qed.

(** ** reading the directive *)
Lemma read_flags_ok : forall fs rest fl, Forall (fun c => In c [43; 45; 32; 48; 35]) fs ->
  (forall c, 0 <= fl c /\ fl c + len fs <= 255) -> (forall c r, rest = c :: r -> inset zt_fmt_flags c = false) ->
  exists fl', read_flags (fs ++ rest) fl = Ok (fl', rest) /\
    forall c, (fl' c =? 0) = (fl c =? 0) && negb (existsb (Z.eqb c) fs).
Proof.
  induction fs as [|f fs IH]; intros rest fl Hf Hc Hr.
  - exists fl. split; [|intros c; cbn [existsb negb]; rewrite andb_true_r; reflexivity].
    cbn [app]. destruct rest as [|c r]; [reflexivity|]. cbn [read_flags]. rewrite (Hr c r eq_refl). reflexivity.
  - inversion Hf as [|? ? Hin Hfs]; subst. cbn [app read_flags].
    replace (inset zt_fmt_flags f) with true.
    2:{ symmetry. unfold inset, zt_fmt_flags. apply existsb_exists. exists f. split; [exact Hin|apply Z.eqb_refl]. }
    assert (Ll : len (f :: fs) = len fs + 1) by (unfold len; cbn [length]; lia).
    pose proof (len_nonneg fs). pose proof (Hc f). replace (fl f <? 255) with true by lia. cbn [guard obind].
    destruct (IH rest (set_flag fl f (fl f + 1)) Hfs) as (fl' & E & X); [|exact Hr|].
    + intros c. unfold set_flag. pose proof (Hc c). destruct (c =? f) eqn:Ec; lia.
    + exists fl'. split; [exact E|]. intros c. rewrite X. unfold set_flag. cbn [existsb]. destruct (c =? f) eqn:Ec.
      * assert (c = f) by lia. subst c. replace (fl f + 1 =? 0) with false by lia. cbn [orb negb]. rewrite andb_false_r. reflexivity.
      * cbn [orb]. reflexivity.
Qed.

Lemma read_digits_ok : forall ds rest n, all_digits ds -> 0 <= n ->
  fold_left (fun a c => 10 * a + undigit c) ds n <= INT_MAX -> (forall c r, rest = c :: r -> isdigit c = false) ->
  read_digits (ds ++ rest) n = Ok (fold_left (fun a c => 10 * a + undigit c) ds n, rest).
Proof.
  induction ds as [|c ds IH]; intros rest n A Hn L Hr.
  - cbn [app fold_left]. destruct rest as [|c r]; [reflexivity|]. cbn [read_digits]. rewrite (Hr c r eq_refl). reflexivity.
  - inversion A as [|? ? Hc Hds]; subst. cbn [app read_digits fold_left].
    replace (isdigit c) with true by (unfold isdigit; lia). cbn [fold_left] in L.
    assert (Eu : undigit c = c - 48) by (unfold undigit; replace (c <? 58) with true by lia; reflexivity).
    rewrite Eu in *.
    assert (Mono : forall l m, all_digits l -> 0 <= m -> m <= fold_left (fun a c => 10 * a + undigit c) l m).
    { induction l as [|x l IHl]; intros m Al Hm; cbn [fold_left]; [lia|]. inversion Al; subst.
      assert (0 <= undigit x) by (unfold undigit; destruct (x <? 58) eqn:?; lia).
      specialize (IHl (10 * m + undigit x) ltac:(assumption) ltac:(lia)). lia. }
    pose proof (Mono ds (10 * n + (c - 48)) Hds ltac:(lia)).
    replace (n <=? (INT_MAX - (c - 48)) / 10) with true.
    2:{ symmetry. apply Z.leb_le. apply Z.div_le_lower_bound; lia. }
    cbn [guard obind]. apply IH; [exact Hds|lia|exact L|exact Hr].
Qed.

Lemma read_number_ok : forall s rest ap, size_ok s ->
  (forall c r, rest = c :: r -> isdigit c = false /\ c <> 42) ->
  read_number (size_text s ++ rest) (size_args s ++ ap) = Ok (size_code s, rest, ap).
Proof.
  intros [|ds|n] rest ap H Hr; cbn [size_text size_args app].
  - unfold size_code. cbn [size_value]. destruct rest as [|c r]; [reflexivity|]. cbn [read_number].
    destruct (Hr c r eq_refl) as (-> & Nc). replace (c =? 42) with false by lia. reflexivity.
  - destruct H as (Ne & A & L). unfold size_code. cbn [size_value].
    pose proof (read_digits_ok ds rest 0 A ltac:(lia) L (fun c r E => proj1 (Hr c r E))) as R.
    destruct ds as [|c ds]; [congruence|]. inversion A; subst. cbn [app] in *. unfold read_number.
    replace (c =? 42) with false by lia. replace (isdigit c) with true by (unfold isdigit; lia).
    rewrite R. reflexivity.
  - cbn [size_ok] in H. cbn [read_number]. change (42 =? 42) with true. cbv iota.
    rewrite int32_id by (unfold INT_MIN, INT_MAX; lia). replace (n =? INT_MIN) with false by (unfold INT_MIN; lia). reflexivity.
Qed.

Lemma code_cases : forall d, value_ok d -> In (code d) [99; 100; 101; 102; 103; 111; 112; 115; 117; 120].
Proof.
  intros d V. unfold value_ok in V. cbn [In]. destruct (value_ d) as [v|v|[s|]|r]; [|lia|lia|destruct V|destruct V as (V & _); lia].
  destruct V as [V|[V|V]]; lia.
Qed.

Lemma directive_ok : forall {S} (t : table) (put : put_f S) d rest ap n cl, piece_ok (Dir d) -> 0 <= n < two64 ->
  t (code d) = cvt0 (code d) ->
  directive t put (flags d ++ size_text (width d) ++ prec_text (prec d) ++ code d :: rest)
    (size_args (width d) ++ prec_args (prec d) ++ value_ d :: ap) (n, cl) =
  (x <- feed put (render_dir d) n cl ;; Ok (rest, ap, x)).
Proof.
  intros S t put d rest ap n cl K Hn Ht.
  pose proof K as (Hl & Hf & Lf & Wk & Wz & Pk & Vk).
  pose proof (code_cases d Vk) as Cc.
  assert (Cl : 99 <= code d <= 120) by (cbn [In] in Cc; lia).
  unfold directive.
  destruct (read_flags_ok (flags d) (size_text (width d) ++ prec_text (prec d) ++ code d :: rest) no_flags Hf) as (fl & Er & Fl).
  { intros c. unfold no_flags. lia. }
  { intros c r E. unfold inset, zt_fmt_flags. cbn [existsb].
    assert (G : c <> 43 /\ c <> 45 /\ c <> 32 /\ c <> 48 /\ c <> 35).
    { destruct (width d) as [|ds|w] eqn:Ew; cbn [size_text app] in E.
      - destruct (prec d) as [s|]; cbn [prec_text app] in E; injection E as <- _; lia.
      - destruct Wk as (Ne & A & _). destruct ds as [|x ds]; [congruence|]. cbn [app] in E. injection E as <- _.
        specialize (Wz _ eq_refl). cbn [hd] in Wz. inversion A; subst. lia.
      - injection E as <- _. lia. }
    lia. }
  rewrite Er. cbn [obind].
  rewrite read_number_ok; [|exact Wk|].
  2:{ intros c r E. destruct (prec d) as [s|]; cbn [prec_text app] in E; injection E as <- _; unfold isdigit; split; try lia. }
  cbn [obind].
  assert (Ep : (match prec_text (prec d) ++ code d :: rest with
                | 46 :: r => read_number r (prec_args (prec d) ++ value_ d :: ap)
                | _ => Ok (INT_MIN, prec_text (prec d) ++ code d :: rest, prec_args (prec d) ++ value_ d :: ap)
                end) = Ok (prec_code (prec d), code d :: rest, value_ d :: ap)).
  { destruct (prec d) as [s|]; cbn [prec_text prec_args app prec_code].
    - apply read_number_ok; [exact Pk|]. intros c r E. injection E as <- _. unfold isdigit. split; lia.
    - cbn [In] in Cc. destruct Cc as [<-|[<-|[<-|[<-|[<-|[<-|[<-|[<-|[<-|[<-|[]]]]]]]]]]]; reflexivity. }
  rewrite Ep. cbn [obind].
  assert (Fa : flags_are d fl).
  { intros c. rewrite Fl. unfold no_flags, has. reflexivity. }
  destruct (conversion put d fl K Fa) as (f & ty & v & Ec & Nt & Rv & Run).
  rewrite Ht, Ec. replace (ty =? 0) with false by lia. cbn [negb guard obind]. rewrite Rv. cbn [obind].
  cbn [snd fst]. rewrite Run.
  assert (Sh := feed_shift put (render_dir d) n 0 cl ltac:(left; lia)).
  rewrite Z.add_0_r, (Z.mod_small n two64 Hn) in Sh. rewrite <- Sh.
  destruct (feed put (render_dir d) 0 cl) as [[a b]| | |]; reflexivity.
Qed.

(** ** whole formats *)
Lemma feed_range : forall {S} (put : put_f S) l n cl x, 0 <= n < two64 -> feed put l n cl = Ok x -> 0 <= fst x < two64.
Proof.
  intros S put l. induction l as [|c l IH]; intros n cl x Hn E; cbn [feed] in E.
  - injection E as <-. exact Hn.
  - destruct (put c cl) as [[k s]| | |]; cbn [obind] in E; try discriminate.
    apply (IH _ _ _ ltac:(apply Z.mod_pos_bound; reflexivity) E).
Qed.
Lemma is_control_b : forall c, is_control c <-> control c = true.
Proof. intros c. unfold is_control, control. lia. Qed.

Lemma vformat_ok : forall {S} (t : table) (put : put_f S) ps fuel extra n cl, Forall piece_ok ps -> 0 <= n < two64 ->
  (forall d, In (Dir d) ps -> t (code d) = cvt0 (code d)) ->
  (length (format_of ps) <= fuel)%nat ->
  vformat_loop fuel t put (format_of ps) (args_of ps ++ extra) (n, cl) =
  feed put (flat_map render ps) n cl.
Proof.
  intros S t put ps. induction ps as [|p ps IH]; intros fuel extra n cl K Hn Ht Lf.
  - destruct fuel; reflexivity.
  - inversion K as [|? ? Kp Kps]; subst. unfold format_of, args_of in *. cbn [flat_map] in *. rewrite app_length in Lf.
    rewrite feed_app. assert (Ht' : forall d, In (Dir d) ps -> t (code d) = cvt0 (code d)) by (intros d0 I0; apply Ht; right; exact I0).
    destruct p as [c|c e|d].
    + cbn [piece_text length] in Lf. destruct fuel as [|fuel]; [lia|]. cbn [piece_text piece_args app vformat_loop render].
      destruct Kp as (B & Nc). replace (control c) with false by (symmetry; apply not_true_is_false; intros E; apply Nc, is_control_b, E).
      cbn [negb]. rewrite emit_feed. destruct (feed put [c] n cl) as [[a b]| | |] eqn:E; cbn [obind fst snd]; try reflexivity.
      apply IH; [exact Kps|apply (feed_range _ _ _ _ _ Hn E)|exact Ht'|lia].
    + cbn [piece_text length] in Lf. destruct fuel as [|fuel]; [lia|]. cbn [piece_text piece_args app vformat_loop render].
      destruct Kp as (Kc & Ke). apply is_control_b in Kc, Ke. rewrite Kc, Ke. cbn [negb].
      rewrite emit_feed. destruct (feed put [e] n cl) as [[a b]| | |] eqn:E; cbn [obind fst snd]; try reflexivity.
      apply IH; [exact Kps|apply (feed_range _ _ _ _ _ Hn E)|exact Ht'|lia].
    + cbn [piece_text length] in Lf. destruct fuel as [|fuel]; [lia|]. cbn [render piece_text piece_args].
      set (tl := flat_map piece_text ps) in *.
      pose proof Kp as (Kc & Hf & Lfl & Wk & Wz & Pk & Vk). pose proof (code_cases d Vk) as Cc. apply is_control_b in Kc.
      assert (Ef : (lead d :: flags d ++ size_text (width d) ++ prec_text (prec d) ++ [code d]) ++ tl =
                   lead d :: (flags d ++ size_text (width d) ++ prec_text (prec d) ++ code d :: tl)).
      { cbn [app]. rewrite <- !app_assoc. reflexivity. }
      assert (Ea : (size_args (width d) ++ prec_args (prec d) ++ [value_ d]) ++ flat_map piece_args ps =
                   size_args (width d) ++ prec_args (prec d) ++ value_ d :: flat_map piece_args ps).
      { rewrite <- !app_assoc. reflexivity. }
      rewrite Ef, Ea, <- !app_assoc. cbn [app].
      pose proof (directive_ok t put d tl (flat_map piece_args ps ++ extra) n cl Kp Hn (Ht d (or_introl eq_refl))) as D.
      cbn [vformat_loop]. rewrite Kc. cbn [negb].
      set (body := flags d ++ size_text (width d) ++ prec_text (prec d) ++ code d :: tl) in *.
      assert (Hd : exists x r, body = x :: r /\ control x = false).
      { unfold body. destruct (flags d) as [|x fs].
        - cbn [app]. destruct (width d) as [|ds|w]; cbn [size_text app].
          + destruct (prec d); cbn [prec_text app]; [eexists; eexists; split; reflexivity|].
            eexists; eexists; split; [reflexivity|]. cbn [In] in Cc.
            destruct Cc as [<-|[<-|[<-|[<-|[<-|[<-|[<-|[<-|[<-|[<-|[]]]]]]]]]]]; reflexivity.
          + destruct Wk as (Ne & A & _). destruct ds as [|x ds]; [congruence|]. cbn [app]. eexists; eexists; split; [reflexivity|].
            inversion A; subst. unfold control. lia.
          + eexists; eexists; split; reflexivity.
        - cbn [app]. eexists; eexists; split; [reflexivity|]. inversion Hf as [|? ? Hx]; subst. cbn [In] in Hx. unfold control. lia. }
      destruct Hd as (x & r & Eb & Ex). rewrite Eb in *. rewrite Ex. rewrite D.
      destruct (feed put (render_dir d) n cl) as [[a b]| | |] eqn:E; cbn [obind fst snd]; try reflexivity.
      apply IH; [exact Kps|apply (feed_range _ _ _ _ _ Hn E)|exact Ht'|].
      fold tl. lia.
Qed.
