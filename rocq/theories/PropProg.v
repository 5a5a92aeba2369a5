(** C47: zt_progname.c.  Texts are byte lists without NUL ([cstr]); the buffers hold pm + 1 bytes of which the last is always 0 ([okbuf]), so what the functions
    return is always a terminated text. [cstring b] is the text in the buffer b. *)
From Verif Require Import Prelude CstrSpec CstrModel CstrProofs CstrSearch CstrText ProgModel.
Open Scope Z_scope.

Definition okbuf (pm : Z) (b : list Z) : Prop := exists w, b = w ++ [0] /\ zlen w = pm.

Lemma okbuf_len pm b : okbuf pm b -> zlen b = pm + 1.
Proof. intros (w & -> & H). rewrite zlen_app, H. reflexivity. Qed.
Lemma okbuf_skip pm b : okbuf pm b -> skipn (Z.to_nat pm) b = [0].
Proof. intros (w & -> & H). unfold zlen in H. replace (Z.to_nat pm) with (length w) by lia. rewrite skipn_app, skipn_all, Nat.sub_diag. reflexivity. Qed.

(** a text written into a cleared buffer *)
Definition filled (pm : Z) (d : text) (b : list Z) : Prop := zlen d <= pm /\ b = d ++ repeat 0 (Z.to_nat pm - length d) ++ [0].
Lemma filled_ok pm d b : filled pm d b -> okbuf pm b.
Proof. intros (L & ->). exists (d ++ repeat 0 (Z.to_nat pm - length d)). rewrite app_assoc. split; [reflexivity|]. rewrite zlen_app. unfold zlen in *. rewrite repeat_length. lia. Qed.
Lemma filled_text pm d b : filled pm d b -> cstr d -> cstring b = d.
Proof. intros (_ & ->) C. destruct (Z.to_nat pm - length d)%nat; cbn [repeat app]; apply cstring_app, C. Qed.

Lemma memset_filled pm b : 0 <= pm -> okbuf pm b -> memset0 b pm = Ok (repeat 0 (Z.to_nat pm) ++ [0]).
Proof. intros P H. rewrite memset0_ok by (rewrite (okbuf_len _ _ H); lia). now rewrite (okbuf_skip _ _ H). Qed.

(** copying over a shorter text *)
Lemma copy_over pm s d b : 0 <= pm -> cstr s -> s <> [] -> zlen s <= pm -> filled pm d b -> zlen d <= zlen s ->
  exists n b', zt_cstr_copy s 0 (-1) b pm = Ok (n, b') /\ filled pm s b'.
Proof.
  intros P C N L F D. pose proof (okbuf_len _ _ (filled_ok _ _ _ F)) as BL. destruct F as (F1 & ->).
  assert (0 < zlen s) by (apply zlen_pos, N).
  rewrite copy_ok by (try (right; unfold zlen in *; lia); lia).
  rewrite piece_ne by exact N. rewrite slice_all. do 2 eexists. split; [reflexivity|]. split; [exact L|].
  rewrite Z.min_l by lia. unfold zlen in *. rewrite Nat2Z.id. rewrite firstn_all2 by lia. f_equal.
  rewrite skipn_app. rewrite skipn_all2 by lia. cbn [app]. rewrite skipn_app, repeat_length.
  replace (length s - length d - (Z.to_nat pm - length d))%nat with 0%nat by lia. cbn [skipn]. f_equal.
  replace (Z.to_nat pm - length d)%nat with ((length s - length d) + (Z.to_nat pm - length s))%nat by lia.
  rewrite repeat_app. rewrite skipn_app, repeat_length, Nat.sub_diag. rewrite skipn_all2 by (rewrite repeat_length; lia). reflexivity.
Qed.

(** the shape of what copy leaves in a cleared buffer *)
Lemma copy_shape pm s i j n b : 0 <= pm -> cstr s -> zt_cstr_copy s i j (repeat 0 (Z.to_nat pm) ++ [0]) pm = Ok (n, b) ->
  exists d, cstr d /\ filled pm d b.
Proof.
  intros P C H. unfold zt_cstr_copy in H.
  destruct (CONVERT s i j) as [[a z]| | |]; cbn [obind] in H; try discriminate.
  destruct (IDXLEN a z) as [fl| | |] eqn:EI; cbn [obind] in H; try discriminate.
  assert (FL : 0 < fl). { unfold IDXLEN in EI. destruct (guard _) eqn:G in EI; cbn [obind] in EI; try discriminate. unfold guard in G. destruct (Z.ltb_spec 0 (if a <? z then z - a + 1 else a - z + 1)); [|discriminate]. congruence. }
  unfold memcpy in H.
  set (mn := Z.min fl pm) in *. set (src := skipn (Z.to_nat a) (s ++ NUL)) in *.
  destruct ((mn <=? zlen (repeat 0 (Z.to_nat pm) ++ [0])) && (mn <=? zlen src)) eqn:G; cbn [obind] in H; [|discriminate].
  match type of H with Ok (_, ?q) = _ => assert (E : b = q) by congruence end. clear H.
  apply andb_prop in G as [_ G]. apply Z.leb_le in G.
  assert (M0 : 0 <= mn <= pm) by lia.
  assert (SK : skipn (Z.to_nat mn) (repeat 0 (Z.to_nat pm) ++ [0]) = repeat 0 (Z.to_nat pm - Z.to_nat mn) ++ [0]).
  { rewrite skipn_app, repeat_length. replace (Z.to_nat mn - Z.to_nat pm)%nat with 0%nat by lia. cbn [skipn]. f_equal.
    replace (Z.to_nat pm) with (Z.to_nat mn + (Z.to_nat pm - Z.to_nat mn))%nat at 1 by lia.
    rewrite repeat_app, skipn_app, repeat_length, Nat.sub_diag. rewrite skipn_all2 by (rewrite repeat_length; lia). reflexivity. }
  rewrite SK in E.
  (* src is a text followed by NUL, or empty *)
  destruct (Nat.le_gt_cases (Z.to_nat a) (length s)) as [LA|GA].
  - assert (ES : src = skipn (Z.to_nat a) s ++ [0]).
    { unfold src, NUL. rewrite skipn_app. replace (Z.to_nat a - length s)%nat with 0%nat by lia. reflexivity. }
    set (x := skipn (Z.to_nat a) s) in *.
    assert (CX : cstr x). { unfold x. rewrite <- (firstn_skipn (Z.to_nat a) s) in C. apply cstr_app in C. tauto. }
    destruct (Nat.le_gt_cases (Z.to_nat mn) (length x)) as [LX|GX].
    + exists (firstn (Z.to_nat mn) x). split; [apply Forall_firstn', CX|].
      assert (LF : length (firstn (Z.to_nat mn) x) = Z.to_nat mn) by (rewrite firstn_length; lia).
      split; [unfold zlen; rewrite LF; lia|]. rewrite LF, E, ES. f_equal. rewrite firstn_app. replace (Z.to_nat mn - length x)%nat with 0%nat by lia. cbn [firstn]. now rewrite app_nil_r.
    + exists x. split; [exact CX|]. assert (length x + 1 = Z.to_nat mn)%nat by (rewrite ES in G; rewrite zlen_app in G; unfold zlen in G; cbn [length] in G; lia).
      split; [unfold zlen; lia|]. rewrite E, ES. rewrite firstn_all2 by (rewrite app_length; cbn [length]; lia). rewrite <- app_assoc. f_equal.
      replace (Z.to_nat pm - length x)%nat with (S (Z.to_nat pm - Z.to_nat mn)) by lia. reflexivity.
  - assert (ES : src = []). { unfold src. apply skipn_all2. unfold NUL. rewrite app_length. cbn [length]. lia. }
    rewrite ES in G. cbn in G. assert (mn = 0) by lia. assert (pm = 0) by lia.
    exists []. split; [constructor|]. split; [cbn; lia|]. rewrite E. rewrite H. cbn [Z.to_nat firstn app length]. now rewrite Nat.sub_0_r.
Qed.

Lemma dirname_filled pm b path m d : 0 <= pm -> okbuf pm b -> cstr path -> zt_cstr_dirname b pm path = Ok m -> cstring m = d -> filled pm d m.
Proof.
  intros P B C H E. unfold zt_cstr_dirname in H. rewrite (memset_filled _ _ P B) in H. cbn [obind] in H.
  destruct (at_ path _) as [tl| | |]; cbn [obind] in H; try discriminate.
  destruct (zt_cstr_rfind path _ _ _) as [e| | |]; cbn [obind] in H; try discriminate.
  assert (X : exists s i j n, cstr s /\ zt_cstr_copy s i j (repeat 0 (Z.to_nat pm) ++ [0]) pm = Ok (n, m)).
  { destruct (e =? -1).
    - destruct (zt_cstr_copy [46] 0 (-1) _ pm) as [[n q]| | |] eqn:EC; cbn [obind] in H; try discriminate.
      assert (q = m) as -> by congruence. exists [46], 0, (-1), n. split; [repeat constructor|exact EC].
    - destruct (zt_cstr_copy path 0 (e - 1) _ pm) as [[n q]| | |] eqn:EC; cbn [obind] in H; try discriminate.
      assert (q = m) as -> by congruence. exists path, 0, (e - 1), n. split; [exact C|exact EC]. }
  destruct X as (s & i & j & n & Cs & EC). destruct (copy_shape _ _ _ _ _ _ P Cs EC) as (d' & C' & F).
  rewrite (filled_text _ _ _ F C') in E. now subst.
Qed.

(** ** zt_progname *)
(** The program name as given, cut to what the buffer holds. *)
Theorem C47_progname : forall pm b nm, 0 <= pm -> okbuf pm b -> cstr nm -> nm <> [] ->
  exists b', progname pm b (Some nm) false = Ok b' /\ okbuf pm b' /\ cstring b' = firstn (Z.to_nat pm) nm.
Proof.
  intros pm b nm P B C N. unfold progname. destruct nm as [|c r]; [congruence|]. rewrite (memset_filled _ _ P B). cbn [obind]. set (nm := c :: r) in *.
  rewrite memcpy_ok by (rewrite ?zlen_app; unfold zlen; rewrite ?repeat_length; cbn [length]; lia).
  assert (F : filled pm (firstn (Z.to_nat pm) nm) (firstn (Z.to_nat (Z.min pm (zlen nm))) nm ++ skipn (Z.to_nat (Z.min pm (zlen nm))) (repeat 0 (Z.to_nat pm) ++ [0]))).
  { assert (LF : length (firstn (Z.to_nat pm) nm) = Z.to_nat (Z.min pm (zlen nm))) by (rewrite firstn_length; unfold zlen; lia).
    split; [unfold zlen at 1; rewrite LF; lia|]. rewrite LF. set (k := Z.to_nat (Z.min pm (zlen nm))) in *.
    assert (K : (k <= Z.to_nat pm)%nat) by (unfold k; lia). f_equal.
    - destruct (Nat.le_gt_cases (length nm) (Z.to_nat pm)); [rewrite !firstn_all2 by (unfold k, zlen; lia); reflexivity|]. f_equal. unfold k, zlen. lia.
    - rewrite skipn_app, repeat_length. replace (k - Z.to_nat pm)%nat with 0%nat by lia. cbn [skipn]. f_equal.
      replace (Z.to_nat pm) with (k + (Z.to_nat pm - k))%nat at 1 by lia. rewrite repeat_app, skipn_app, repeat_length, Nat.sub_diag.
      rewrite skipn_all2 by (rewrite repeat_length; lia). reflexivity. }
  eexists. split; [reflexivity|]. split; [exact (filled_ok _ _ _ F)|]. apply (filled_text _ _ _ F). apply Forall_firstn', C.
Qed.
Print Assumptions C47_progname.

(** STRIP_DIR: what follows the last separator *)
Theorem C47_progname_strip_partial : forall pm b d nm, okbuf pm b -> cstr d -> cstr nm -> ~ In 47 nm -> nm <> [] -> zlen nm < pm ->
  (exists b', progname pm b (Some (d ++ 47 :: nm)) true = Ok b' /\ cstring b' = nm) /\
  (exists b', progname pm b (Some nm) true = Ok b' /\ cstring b' = nm).
Proof.
  intros pm b d nm B Cd Cn NI N L. pose proof (zlen_pos nm N) as LP.
  assert (Z1 : zlen (repeat 0 (Z.to_nat pm) ++ [0]) = pm + 1) by (rewrite zlen_app; unfold zlen; rewrite repeat_length; cbn [length]; lia).
  destruct (basename_ok d nm (repeat 0 (Z.to_nat pm) ++ [0]) pm Cd Cn NI N ltac:(lia)) as (A1 & A2).
  unfold progname. rewrite (memset_filled pm b ltac:(lia) B). cbn [obind].
  split.
  - destruct (d ++ 47 :: nm) eqn:E; [destruct d; discriminate|]. exact A1.
  - destruct nm as [|c r]; [congruence|exact A2].
Qed.
Print Assumptions C47_progname_strip_partial.

(** NULL and the empty text only ask; before anything is set the answer is "*UNKNOWN*" *)
Theorem C47_query : forall pm e b strip, progname pm b None strip = Ok b /\ progname pm b (Some []) strip = Ok b /\
  progpath pm e b None = Ok b /\ progpath pm e b (Some []) = Ok b.
Proof. repeat split. Qed.
Print Assumptions C47_query.
Theorem C47_initial : forall pm, 9 <= pm -> okbuf pm (buf0 pm) /\ cstring (buf0 pm) = [42; 85; 78; 75; 78; 79; 87; 78; 42].
Proof.
  intros pm P. unfold buf0. split.
  - exists (UNKNOWN ++ repeat 0 (Z.to_nat pm - length UNKNOWN)). split.
    + rewrite <- app_assoc. f_equal. replace (Z.to_nat (pm + 1) - length UNKNOWN)%nat with ((Z.to_nat pm - length UNKNOWN) + 1)%nat by (cbn [length UNKNOWN]; lia). rewrite repeat_app. reflexivity.
    + rewrite zlen_app. unfold zlen. rewrite repeat_length. cbn [length UNKNOWN]. lia.
  - destruct (Z.to_nat (pm + 1) - length UNKNOWN)%nat eqn:E; [cbn [length UNKNOWN] in E; lia|]. reflexivity.
Qed.
Print Assumptions C47_initial.

(** ** zt_progpath *)
Lemma text_eqb_spec a b : text_eqb a b = true <-> a = b.
Proof. unfold text_eqb. destruct (list_eq_dec Z.eq_dec a b); split; congruence. Qed.
Lemma text_eqb_no a b : a <> b -> text_eqb a b = false.
Proof. intros H. destruct (text_eqb a b) eqn:E; [|reflexivity]. apply text_eqb_spec in E. congruence. Qed.

Lemma progpath_dir pm e b d nm : okbuf pm b -> cstr d -> cstr nm -> ~ In 47 nm -> nm <> [] -> d <> [] -> d <> [46] -> zlen d < pm ->
  exists m, filled pm d m /\ cstring m = d /\ progpath pm e b (Some (d ++ 47 :: nm)) =
    match e_cwd e with None => Ok m | Some c => if hd 0 d =? 47 then Ok m else
      t <- zt_cstr_path_append c (match d with 46 :: 47 :: r => r | _ => d end) ;; ' (_, b) <- zt_cstr_copy (cstring t) 0 (-1) m pm ;; Ok b end.
Proof.
  intros B Cd Cn NI N Dn Dd L. pose proof (zlen_pos d Dn) as LP.
  assert (OB : okbuf pm (repeat 0 (Z.to_nat pm) ++ [0])) by (exists (repeat 0 (Z.to_nat pm)); split; [reflexivity|unfold zlen; rewrite repeat_length; lia]).
  destruct (dirname_ok d nm (repeat 0 (Z.to_nat pm) ++ [0]) pm Cd Cn NI N Dn ltac:(rewrite (okbuf_len _ _ OB); lia)) as ((m & Em & Tm) & _).
  assert (Cp : cstr (d ++ 47 :: nm)) by (apply cstr_app; split; [exact Cd|constructor; [lia|exact Cn]]).
  exists m. split; [exact (dirname_filled pm _ _ _ _ ltac:(lia) OB Cp Em Tm)|]. split; [exact Tm|].
  unfold progpath. rewrite (memset_filled pm b ltac:(lia) B). cbn [obind].
  destruct (d ++ 47 :: nm) eqn:E; [destruct d; discriminate|]. rewrite Em. cbn [obind]. cbv zeta. rewrite Tm.
  rewrite (text_eqb_no d []) by exact Dn. rewrite (text_eqb_no d [46]) by exact Dd. cbn [orb]. reflexivity.
Qed.

(** An absolute program: its directory. *)
Theorem C47_absolute_partial : forall pm e b d nm, okbuf pm b -> cstr d -> cstr nm -> ~ In 47 nm -> nm <> [] -> hd 0 d = 47 -> zlen d < pm ->
  exists b', progpath pm e b (Some (d ++ 47 :: nm)) = Ok b' /\ okbuf pm b' /\ cstring b' = d.
Proof.
  intros pm e b d nm B Cd Cn NI N H L. assert (D0 : d <> []) by (intros ->; discriminate H). assert (D1 : d <> [46]) by (intros ->; discriminate H).
  destruct (progpath_dir pm e b d nm B Cd Cn NI N D0 D1 L) as (m & F & T & ->). exists m. rewrite H. change (47 =? 47) with true. cbv iota.
  destruct (e_cwd e); (split; [reflexivity|split; [exact (filled_ok _ _ _ F)|exact T]]).
Qed.
Print Assumptions C47_absolute_partial.

(** A relative program with a directory: that directory below the working directory; a leading "./" is dropped. *)
Theorem C47_relative_partial : forall pm e b c dot d nm, okbuf pm b -> cstr d -> cstr nm -> cstr c -> ~ In 47 nm -> nm <> [] ->
  e_cwd e = Some c -> c <> [] -> last c 0 <> 47 -> d <> [] -> hd 0 d <> 47 -> d <> [46] -> (forall r, d <> 46 :: 47 :: r) ->
  zlen c + zlen d + 1 < pm ->
  exists b', progpath pm e b (Some ((if dot : bool then [46; 47] else []) ++ d ++ 47 :: nm)) = Ok b' /\ okbuf pm b' /\ cstring b' = c ++ 47 :: d.
Proof.
  intros pm e b c dot d nm B Cd Cn Cc NI N Ec Nc Lc Nd Hd D1 D2 L. pose proof (zlen_pos c Nc) as Lcp. pose proof (zlen_pos d Nd) as Ldp.
  set (d' := (if dot then [46; 47] else []) ++ d).
  assert (Cd' : cstr d') by (unfold d'; apply cstr_app; split; [destruct dot; repeat constructor; lia|exact Cd]).
  assert (N0 : d' <> []) by (unfold d'; destruct dot; [discriminate|exact Nd]).
  assert (N1 : d' <> [46]) by (unfold d'; destruct dot; [discriminate|exact D1]).
  rewrite app_assoc. fold d'.
  assert (Ld : zlen d' <= zlen d + 2) by (unfold d'; rewrite zlen_app; destruct dot; unfold zlen; cbn [length]; lia).
  destruct (progpath_dir pm e b d' nm B Cd' Cn NI N N0 N1 ltac:(lia)) as (m & F & T & ->). rewrite Ec.
  assert (H47 : hd 0 d' =? 47 = false) by (apply Z.eqb_neq; unfold d'; destruct dot; [discriminate|exact Hd]). rewrite H47.
  assert (PP : match d' with 46 :: 47 :: r => r | _ => d' end = d).
  { unfold d'. destruct dot; [reflexivity|]. cbn [app].
    destruct d as [|x [|y r]]; [reflexivity| |]. { destruct x; try reflexivity. repeat (destruct p; try reflexivity). }
    assert (X : ~ (x = 46 /\ y = 47)) by (intros [-> ->]; apply (D2 r); reflexivity).
    destruct (Z.eq_dec x 46) as [->|Nx]; [|destruct x; try reflexivity; repeat (destruct p; try reflexivity); congruence].
    destruct (Z.eq_dec y 47) as [->|Ny]; [exfalso; apply X; auto|destruct y; try reflexivity; repeat (destruct p; try reflexivity); congruence]. }
  rewrite PP.
  destruct (path_append_ok c 0 0 d Cc Cd Nc Lc Nd Hd) as (t & Et & Tt). cbn [repeat app] in Et. rewrite app_nil_r in Et. rewrite Et. cbn [obind]. rewrite Tt.
  assert (Zt : zlen (c ++ 47 :: d) = zlen c + zlen d + 1) by (rewrite zlen_app; unfold zlen; cbn [length]; lia).
  assert (Ct : cstr (c ++ 47 :: d)) by (apply cstr_app; split; [exact Cc|constructor; [lia|exact Cd]]).
  destruct (copy_over pm (c ++ 47 :: d) d' m ltac:(lia) Ct ltac:(destruct c; discriminate) ltac:(lia) F ltac:(lia)) as (n & b' & Eb & Fb).
  rewrite Eb. cbn [obind]. exists b'. split; [reflexivity|]. split; [exact (filled_ok _ _ _ Fb)|exact (filled_text _ _ _ Fb Ct)].
Qed.
Print Assumptions C47_relative_partial.

(** *** the search along PATH *)
Lemma nth_error_pre {A} (p q : list A) k : nth_error (p ++ q) (length p + k) = nth_error q k.
Proof. rewrite nth_error_app2 by lia. f_equal. lia. Qed.

Lemma any_found pre w r : cstr (pre ++ w ++ 58 :: r) -> ~ In 58 w -> zt_cstr_any (pre ++ w ++ 58 :: r) (zlen pre) (-1) [58] = Ok (zlen pre + zlen w).
Proof.
  intros C NI. set (s := pre ++ w ++ 58 :: r) in *.
  assert (Ls : zlen s = zlen pre + zlen w + 1 + zlen r) by (unfold s, zlen; rewrite !app_length; cbn [length]; lia).
  pose proof (zlen_nonneg pre). pose proof (zlen_nonneg w). pose proof (zlen_nonneg r).
  destruct (any_ok s (zlen pre) (-1) [58] C) as (x & E & F); [right; fold (zlen s); lia|].
  rewrite E. f_equal. unfold first_pos in F. fold (zlen s) in F.
  assert (LO : low (zlen s) (zlen pre) (-1) = zlen pre) by (unfold low, index; replace (zlen pre <? 0) with false by lia; change (-1 <? 0) with true; cbv iota; lia).
  assert (HI : high (zlen s) (zlen pre) (-1) = zlen s - 1) by (unfold high, index; replace (zlen pre <? 0) with false by lia; change (-1 <? 0) with true; cbv iota; lia).
  rewrite LO, HI in F.
  assert (AT : nth_error s (Z.to_nat (zlen pre + zlen w)) = Some 58).
  { unfold s, zlen. replace (Z.to_nat (Z.of_nat (length pre) + Z.of_nat (length w))) with (length pre + (length w + 0))%nat by lia. now rewrite !nth_error_pre. }
  assert (BEFORE : forall k, zlen pre <= k < zlen pre + zlen w -> nth_error s (Z.to_nat k) <> Some 58).
  { intros k K X. apply NI. unfold s, zlen in *. replace (Z.to_nat k) with (length pre + (Z.to_nat k - length pre))%nat in X by lia. rewrite nth_error_pre in X.
    rewrite nth_error_app1 in X by lia. exact (nth_error_In _ _ X). }
  destruct F as [(R & (c & Ec & Ic) & Min)|(-> & Min)].
  - assert (c = 58) as -> by (destruct Ic as [->|[]]; reflexivity).
    destruct (Z.lt_trichotomy x (zlen pre + zlen w)) as [LT|[EQ|GT]]; [|exact EQ|].
    + exfalso. apply (BEFORE x); [lia|exact Ec].
    + exfalso. apply (Min (zlen pre + zlen w) 58); [lia|exact AT|left; reflexivity].
  - exfalso. apply (Min (zlen pre + zlen w) 58); [lia|exact AT|left; reflexivity].
Qed.
Lemma any_none pre w : cstr (pre ++ w) -> w <> [] -> ~ In 58 w -> zt_cstr_any (pre ++ w) (zlen pre) (-1) [58] = Ok (-1).
Proof.
  intros C N NI. set (s := pre ++ w) in *.
  assert (Ls : zlen s = zlen pre + zlen w) by (unfold s, zlen; rewrite !app_length; lia).
  pose proof (zlen_nonneg pre). pose proof (zlen_pos w N).
  destruct (any_ok s (zlen pre) (-1) [58] C) as (x & E & F); [right; fold (zlen s); lia|].
  rewrite E. f_equal. unfold first_pos in F. fold (zlen s) in F.
  assert (LO : low (zlen s) (zlen pre) (-1) = zlen pre) by (unfold low, index; replace (zlen pre <? 0) with false by lia; change (-1 <? 0) with true; cbv iota; lia).
  rewrite LO in F. destruct F as [(R & (c & Ec & Ic) & _)|(-> & _)]; [|reflexivity].
  exfalso. apply NI. assert (c = 58) as -> by (destruct Ic as [->|[]]; reflexivity).
  unfold s, zlen in *. replace (Z.to_nat x) with (length pre + (Z.to_nat x - length pre))%nat in Ec by lia. rewrite nth_error_pre in Ec. exact (nth_error_In _ _ Ec).
Qed.
Lemma fields_colon w r : ~ In 58 w -> fields [58] (w ++ 58 :: r) = w :: fields [58] r.
Proof.
  induction w as [|c w IH]; intros NI; cbn [app fields existsb]; [reflexivity|].
  destruct (Z.eqb_spec c 58) as [->|N]; [exfalso; apply NI; now left|]. cbn [orb]. rewrite IH; [reflexivity|]. intros I. apply NI. now right.
Qed.
Lemma fields_last w : ~ In 58 w -> fields [58] w = [w].
Proof.
  induction w as [|c w IH]; intros NI; cbn [fields existsb]; [reflexivity|].
  destruct (Z.eqb_spec c 58) as [->|N]; [exfalso; apply NI; now left|]. cbn [orb]. rewrite IH; [reflexivity|]. intros I. apply NI. now right.
Qed.
Lemma fields_some s : fields [58] s <> [].
Proof. destruct s; cbn [fields]; [discriminate|]. destruct (existsb _ _); [discriminate|]. destruct (fields [58] s); discriminate. Qed.
Lemma colon_split (s : text) : (exists w r, s = w ++ 58 :: r /\ ~ In 58 w) \/ ~ In 58 s.
Proof.
  induction s as [|c s IH]; [right; intros []|]. destruct (Z.eq_dec c 58) as [->|N]; [left; exists [], s; split; [reflexivity|intros []]|].
  destruct IH as [(w & r & -> & NI)|NI]; [left; exists (c :: w), r; split; [reflexivity|]; intros [X|X]; [congruence|tauto]|right; intros [X|X]; [congruence|tauto]].
Qed.

(** the directories of PATH that are searched: those followed by a separator *)
Definition searched (path : text) : list text := removelast (fields [58] path).

Lemma search_ok pm st pr : cstr pr -> ~ In 47 pr -> pr <> [] -> forall fuel pre rest b,
  cstr (pre ++ rest) -> (length rest < fuel)%nat -> okbuf pm b -> Forall (fun c => c <> [] /\ zlen c < pm) (searched rest) ->
  match find (fun c => st (c ++ 47 :: pr)) (searched rest) with
  | Some c => exists b', search fuel pm st (pre ++ rest) pr (zlen pre) (zlen pre) b = Ok (true, b') /\ filled pm c b' /\ cstring b' = c
  | None => search fuel pm st (pre ++ rest) pr (zlen pre) (zlen pre) b = Ok (false, b)
  end.
Proof.
  intros Cp Np Pp. induction fuel as [|fuel IH]; intros pre rest b C L B F; [lia|].
  destruct rest as [|x rest].
  { cbn [searched fields removelast find search]. rewrite app_nil_r. replace (zlen pre <? zlen pre) with false by lia. reflexivity. }
  assert (LT : zlen pre <? zlen (pre ++ x :: rest) = true) by (apply Z.ltb_lt; rewrite zlen_app; unfold zlen; cbn [length]; lia).
  set (s := x :: rest) in *. assert (Ns : s <> []) by discriminate. clearbody s. clear x rest.
  destruct (colon_split s) as [(w & r & -> & NI)|NI].
  - pose proof (zlen_nonneg pre). pose proof (zlen_nonneg w).
    unfold searched in *. rewrite fields_colon in * by assumption.
    assert (RL : removelast (w :: fields [58] r) = w :: removelast (fields [58] r)) by (cbn [removelast]; pose proof (fields_some r); destruct (fields [58] r); [congruence|reflexivity]).
    rewrite RL in *. inversion F as [|? ? [Nw Lw] F']; subst. pose proof (zlen_pos w Nw).
    destruct (catv_ok [(pre ++ w ++ 58 :: r, zlen pre, zlen pre + zlen w - 1); (PATH_SEPERATOR, 0, -1); (pr, 0, -1)]) as (m & Em & Tm).
    { constructor; [split; [exact C|]|constructor; [split; [repeat constructor; lia|]|constructor; [split; [exact Cp|]|constructor]]].
      - right. fold (zlen (pre ++ w ++ 58 :: r)). rewrite !zlen_app. pose proof (zlen_nonneg (58 :: r)). lia.
      - right. cbn. lia.
      - right. pose proof (zlen_pos pr Pp). unfold zlen in *. lia. }
    { repeat constructor; cbn [fst]; [destruct pre; [destruct w; discriminate|discriminate]|discriminate|exact Pp]. }
    assert (TM : cstring m = w ++ 47 :: pr).
    { rewrite Tm. cbn [map aslice concat]. rewrite app_nil_r. rewrite (slice_mid pre w (58 :: r)) by (auto; lia). rewrite !slice_all. reflexivity. }
    assert (STEP : search (S fuel) pm st (pre ++ w ++ 58 :: r) pr (zlen pre) (zlen pre) b =
      if st (w ++ 47 :: pr) then b <- zt_cstr_dirname b pm (w ++ 47 :: pr) ;; Ok (true, b)
      else search fuel pm st (pre ++ w ++ 58 :: r) pr (zlen pre + zlen w + 1) (zlen pre + zlen w + 1) b).
    { cbn [search]. rewrite LT. unfold ENV_SEPERATOR. rewrite any_found by assumption. cbn [obind].
      replace (zlen pre + zlen w <? 0) with false by lia. cbv iota. unfold text in *. rewrite Em. cbn [obind]. cbv zeta. now rewrite TM. }
    assert (Cw : cstr w) by (apply cstr_app in C as [_ C]; apply cstr_app in C; tauto).
    cbn [find]. destruct (st (w ++ 47 :: pr)).
    + destruct (dirname_ok w pr b pm Cw Cp Np Pp Nw ltac:(rewrite (okbuf_len _ _ B); lia)) as ((m2 & E2 & T2) & _).
      exists m2. split; [rewrite STEP, E2; reflexivity|]. split; [|exact T2]. refine (dirname_filled pm b _ _ _ ltac:(lia) B _ E2 T2). apply cstr_app; split; [exact Cw|constructor; [lia|exact Cp]].
    + assert (EQ : pre ++ w ++ 58 :: r = (pre ++ w ++ [58]) ++ r) by (rewrite <- !app_assoc; reflexivity).
      assert (ZQ : zlen pre + zlen w + 1 = zlen (pre ++ w ++ [58])) by (rewrite !zlen_app; unfold zlen; cbn [length]; lia).
      rewrite EQ, ZQ in STEP. rewrite EQ in C. rewrite app_length in L. cbn [length] in L.
      specialize (IH (pre ++ w ++ [58]) r b C ltac:(lia) B F'). rewrite EQ, STEP. exact IH.
  - assert (STEP : search (S fuel) pm st (pre ++ s) pr (zlen pre) (zlen pre) b = Ok (false, b)).
    { cbn [search]. rewrite LT. unfold ENV_SEPERATOR. rewrite any_none by assumption. reflexivity. }
    unfold searched. rewrite fields_last by assumption. exact STEP.
Qed.

(** A bare program name is looked for in the directories of PATH in order, and the first one holding it is the answer; if there is none, the working directory. *)
Theorem C47_search_partial : forall pm e b path c nm, okbuf pm b -> cstr nm -> ~ In 47 nm -> nm <> [] -> 1 < pm ->
  e_path e = Some path -> cstr path -> Forall (fun d => d <> [] /\ zlen d < pm) (searched path) ->
  e_cwd e = Some c -> cstr c -> c <> [] -> zlen c <= pm ->
  exists b', progpath pm e b (Some nm) = Ok b' /\ okbuf pm b' /\
    cstring b' = match find (fun d => e_stat e (d ++ 47 :: nm)) (searched path) with Some d => d | None => c end.
Proof.
  intros pm e b path c nm B Cn NI N P Ep Cp F Ec Cc Nc Lc.
  assert (OB : okbuf pm (repeat 0 (Z.to_nat pm) ++ [0])) by (exists (repeat 0 (Z.to_nat pm)); split; [reflexivity|unfold zlen; rewrite repeat_length; lia]).
  unfold progpath. destruct nm as [|x r]; [congruence|]. set (nm := x :: r) in *. rewrite (memset_filled pm b ltac:(lia) B). cbn [obind].
  destruct (dirname_none nm (repeat 0 (Z.to_nat pm) ++ [0]) pm Cn NI N ltac:(rewrite (okbuf_len _ _ OB); lia)) as ((m & Em & Tm) & _).
  rewrite Em. cbn [obind]. cbv zeta. rewrite Tm. change (text_eqb [46] [] || text_eqb [46] [46]) with true. cbv iota. rewrite Ep.
  pose proof (dirname_filled pm _ _ _ _ ltac:(lia) OB Cn Em Tm) as Fm.
  pose proof (search_ok pm (e_stat e) nm Cn NI N (S (length path)) [] path m Cp ltac:(lia) (filled_ok _ _ _ Fm) F) as S.
  change (zlen (@nil Z)) with 0 in S. cbn [app] in S.
  unfold text in *. set (f := fun d : list Z => e_stat e (d ++ 47 :: nm)) in *. change (find (fun d : list Z => e_stat e (d ++ 47 :: nm))) with (find f). clearbody f. destruct (find f (searched path)) as [d|].
  - destruct S as (b' & Eb & Fb & Tb). rewrite Eb. cbn [obind]. exists b'. split; [reflexivity|]. split; [exact (filled_ok _ _ _ Fb)|exact Tb].
  - rewrite S. cbn [obind]. rewrite Tm. change (text_eqb [46] [46]) with true. cbv iota. rewrite Ec.
    pose proof (zlen_pos c Nc).
    destruct (copy_over pm c [46] m ltac:(lia) Cc Nc Lc Fm) as (n & b' & Eb & Fb); [unfold zlen at 1; cbn [length]; lia|].
    rewrite Eb. cbn [obind]. exists b'. split; [reflexivity|]. split; [exact (filled_ok _ _ _ Fb)|exact (filled_text _ _ _ Fb Cc)].
Qed.
Print Assumptions C47_search_partial.

(** Without a PATH a bare program name has the directory of the running executable. *)
Theorem C47_no_path_partial : forall pm e b d x nm, okbuf pm b -> cstr nm -> ~ In 47 nm -> nm <> [] -> 1 < pm -> e_path e = None ->
  e_exe e = d ++ 47 :: x -> cstr d -> cstr x -> ~ In 47 x -> x <> [] -> d <> [] -> zlen d < pm ->
  exists b', progpath pm e b (Some nm) = Ok b' /\ okbuf pm b' /\ cstring b' = d.
Proof.
  intros pm e b d x nm B Cn NI N P Ep Ee Cd Cx NX X D L.
  assert (OB : okbuf pm (repeat 0 (Z.to_nat pm) ++ [0])) by (exists (repeat 0 (Z.to_nat pm)); split; [reflexivity|unfold zlen; rewrite repeat_length; lia]).
  unfold progpath. destruct nm as [|y r]; [congruence|]. set (nm := y :: r) in *. rewrite (memset_filled pm b ltac:(lia) B). cbn [obind].
  destruct (dirname_none nm (repeat 0 (Z.to_nat pm) ++ [0]) pm Cn NI N ltac:(rewrite (okbuf_len _ _ OB); lia)) as ((m & Em & Tm) & _).
  rewrite Em. cbn [obind]. cbv zeta. rewrite Tm. change (text_eqb [46] [] || text_eqb [46] [46]) with true. cbv iota. rewrite Ep, Ee.
  pose proof (dirname_filled pm _ _ _ _ ltac:(lia) OB Cn Em Tm) as Fm. pose proof (filled_ok _ _ _ Fm) as Om.
  destruct (dirname_ok d x m pm Cd Cx NX X D ltac:(rewrite (okbuf_len _ _ Om); lia)) as ((m2 & E2 & T2) & _).
  exists m2. split; [exact E2|]. split; [|exact T2]. refine (filled_ok _ _ _ (dirname_filled pm m _ _ _ ltac:(lia) Om _ E2 T2)). apply cstr_app; split; [exact Cd|constructor; [lia|exact Cx]].
Qed.
Print Assumptions C47_no_path_partial.

(** ** What does not hold *)
Definition env1 (path : text) (there : text) : env := mkenv (Some path) (fun p => text_eqb p there) (Some [47; 104]) [47; 120].
(** the last directory of PATH is never searched: PATH=/b, /b/p exists, zt_progpath("p") says /h (the working directory) *)
Theorem C47_last_directory_refuted : exists b, progpath 16 (env1 [47; 98] [47; 98; 47; 112]) (buf0 16) (Some [112]) = Ok b /\ cstring b = [47; 104].
Proof. eexists. split; [vm_compute; reflexivity|reflexivity]. Qed.
Print Assumptions C47_last_directory_refuted.
(** an empty directory in PATH is not the working directory: PATH=":/b:" makes it look for ":/b:/p" *)
Theorem C47_empty_directory_refuted : exists b, progpath 16 (env1 [58; 47; 98; 58] [58; 47; 98; 58; 47; 112]) (buf0 16) (Some [112]) = Ok b /\ cstring b = [58; 47; 98; 58].
Proof. eexists. split; [vm_compute; reflexivity|reflexivity]. Qed.
Print Assumptions C47_empty_directory_refuted.
(** a program in the root directory: "/p" has the path "/p"; the working directory "/" doubles the separator *)
Theorem C47_root_refuted : (exists b, progpath 16 (env1 [] []) (buf0 16) (Some [47; 112]) = Ok b /\ cstring b = [47; 112]) /\
  (exists b, progpath 16 (mkenv None (fun _ => false) (Some [47]) []) (buf0 16) (Some [97; 47; 112]) = Ok b /\ cstring b = [47; 47; 97]).
Proof. split; eexists; (split; [vm_compute; reflexivity|reflexivity]). Qed.
Print Assumptions C47_root_refuted.
(** "/" aborts; without PATH and without /proc the empty text is passed to dirname, which reads before it *)
Theorem C47_aborts_refuted : progpath 16 (env1 [] []) (buf0 16) (Some [47]) = Abort /\ progpath 16 (mkenv None (fun _ => false) None []) (buf0 16) (Some [112]) = UB.
Proof. split; vm_compute; reflexivity. Qed.
Print Assumptions C47_aborts_refuted.

Example C47_ex : exists b, progpath 16 (env1 [47; 97; 58; 47; 98; 58] [47; 98; 47; 112]) (buf0 16) (Some [112]) = Ok b /\ cstring b = [47; 98] /\
  searched [47; 97; 58; 47; 98; 58] = [[47; 97]; [47; 98]].
Proof. eexists. split; [vm_compute; reflexivity|]. split; reflexivity. Qed.
Example C47_ex2 : exists b, progpath 16 (env1 [] []) (buf0 16) (Some [46; 47; 97; 47; 112]) = Ok b /\ cstring b = [47; 104; 47; 97].
Proof. eexists. split; [vm_compute; reflexivity|reflexivity]. Qed.
