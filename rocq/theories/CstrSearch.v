(** Searching, comparing and spans in zt_cstr.c. *)
From Verif Require Import Prelude CstrModel CstrSpec CstrProofs.
Open Scope Z_scope.

Lemma nth_error_some_nth {A} (s : list A) k c d : nth_error s k = Some c -> nth k s d = c.
Proof. apply nth_error_nth. Qed.
Lemma nth_error_in s k : 0 <= k < zlen s -> nth_error s (Z.to_nat k) = Some (nth (Z.to_nat k) s 0).
Proof. intros H. apply nth_error_nth'. unfold zlen in H. lia. Qed.

Lemma scan_up_ok P s j : j < zlen s -> forall fuel i, 0 <= i <= j + 1 -> (Z.to_nat (j - i + 1) <= fuel)%nat ->
  (exists r, scan_up fuel P s i j = Ok (Some r) /\ i <= r <= j /\ P (nth (Z.to_nat r) s 0) = true /\
     forall k, i <= k < r -> P (nth (Z.to_nat k) s 0) = false) \/
  (scan_up fuel P s i j = Ok None /\ forall k, i <= k <= j -> P (nth (Z.to_nat k) s 0) = false).
Proof.
  intros Hj. induction fuel as [|f IH]; intros i Hi Hf; cbn [scan_up].
  - destruct (i <=? j) eqn:E; [lia|]. right. split; [reflexivity|]. intros; lia.
  - destruct (i <=? j) eqn:E; [|right; split; [reflexivity|intros; lia]].
    rewrite rd_in by lia. cbn [obind]. destruct (P (nth (Z.to_nat i) s 0)) eqn:EP.
    + left. exists i. repeat split; try lia; auto; intros; lia.
    + destruct (IH (i + 1)) as [(r & E1 & H1 & H2 & H3)|(E1 & H1)]; try lia.
      * left. exists r. rewrite E1. repeat split; try lia; auto. intros k Hk.
        destruct (Z.eq_dec k i) as [->|]; [assumption|]. apply H3. lia.
      * right. rewrite E1. split; [reflexivity|]. intros k Hk.
        destruct (Z.eq_dec k i) as [->|]; [assumption|]. apply H1. lia.
Qed.
Lemma scan_down_ok P s i : 0 <= i -> forall fuel j, i <= j + 1 -> j < zlen s -> (Z.to_nat (j - i + 1) <= fuel)%nat ->
  (exists r, scan_down fuel P s i j = Ok (Some r) /\ i <= r <= j /\ P (nth (Z.to_nat r) s 0) = true /\
     forall k, r < k <= j -> P (nth (Z.to_nat k) s 0) = false) \/
  (scan_down fuel P s i j = Ok None /\ forall k, i <= k <= j -> P (nth (Z.to_nat k) s 0) = false).
Proof.
  intros Hi. induction fuel as [|f IH]; intros j Hij Hj Hf; cbn [scan_down].
  - destruct (i <=? j) eqn:E; [lia|]. right. split; [reflexivity|]. intros; lia.
  - destruct (i <=? j) eqn:E; [|right; split; [reflexivity|intros; lia]].
    rewrite rd_in by lia. cbn [obind]. destruct (P (nth (Z.to_nat j) s 0)) eqn:EP.
    + left. exists j. repeat split; try lia; auto; intros; lia.
    + destruct (IH (j - 1)) as [(r & E1 & H1 & H2 & H3)|(E1 & H1)]; try lia.
      * left. exists r. rewrite E1. repeat split; try lia; auto. intros k Hk.
        destruct (Z.eq_dec k j) as [->|]; [assumption|]. apply H3. lia.
      * right. rewrite E1. split; [reflexivity|]. intros k Hk.
        destruct (Z.eq_dec k j) as [->|]; [assumption|]. apply H1. lia.
Qed.

(** the generic shape of the character searches on a non-empty string *)
Lemma search_up P (Q : Z -> Prop) s i j : s <> [] -> in_range s i j ->
  (forall c, In c s -> P c = true <-> Q c) ->
  exists r, (exists i' j', CONVERT s i j = Ok (i', j') /\ 0 <= i' <= j' /\ (forall k, r = Some k -> i' <= k <= j') /\
     scan_up (fuel_of i' j') P s i' j' = Ok r) /\
     first_pos Q s i j (match r with Some k => k | None => -1 end).
Proof.
  intros Hs H HP. apply in_range_cases in H as [->|(_ & Hi & Hj)]; [congruence|].
  destruct (CONVERT_ne s i j Hs Hi Hj) as (E & H1 & H2).
  destruct (scan_up_ok P s (high (zlen s) i j) H2 (fuel_of (low (zlen s) i j) (high (zlen s) i j)) (low (zlen s) i j))
    as [(r & E1 & Hr & HPr & Hlt)|(E1 & Hno)]; [lia|reflexivity| |].
  - exists (Some r). split; [do 2 eexists; split; [exact E|split; [lia|split; [intros ? HH; inversion HH; subst; lia|exact E1]]]|].
    unfold first_pos. fold (zlen s). left. split; [assumption|]. split.
    + eexists. split; [apply nth_error_in; lia|]. apply HP; [|assumption]. apply nth_In. unfold zlen in *. lia.
    + intros k c Hk Hn HQ. specialize (Hlt k Hk). rewrite (nth_error_some_nth _ _ _ 0 Hn) in Hlt.
      apply HP in HQ; [congruence|]. eapply nth_error_In; eassumption.
  - exists None. split; [do 2 eexists; split; [exact E|split; [lia|split; [intros ? HH; inversion HH; subst; lia|exact E1]]]|].
    unfold first_pos. fold (zlen s). right. split; [reflexivity|].
    intros k c Hk Hn HQ. specialize (Hno k Hk). rewrite (nth_error_some_nth _ _ _ 0 Hn) in Hno.
    apply HP in HQ; [congruence|]. eapply nth_error_In; eassumption.
Qed.
Lemma search_down P (Q : Z -> Prop) s i j : s <> [] -> in_range s i j ->
  (forall c, In c s -> P c = true <-> Q c) ->
  exists r, (exists i' j', CONVERT s i j = Ok (i', j') /\ 0 <= i' <= j' /\ (forall k, r = Some k -> i' <= k <= j') /\ i' = low (zlen s) i j /\
     scan_down (fuel_of i' j') P s i' j' = Ok r) /\
     last_pos Q s i j (match r with Some k => k | None => -1 end).
Proof.
  intros Hs H HP. apply in_range_cases in H as [->|(_ & Hi & Hj)]; [congruence|].
  destruct (CONVERT_ne s i j Hs Hi Hj) as (E & H1 & H2).
  destruct (scan_down_ok P s (low (zlen s) i j) (proj1 H1) (fuel_of (low (zlen s) i j) (high (zlen s) i j)) (high (zlen s) i j))
    as [(r & E1 & Hr & HPr & Hlt)|(E1 & Hno)]; [lia|lia|reflexivity| |].
  - exists (Some r). split; [do 2 eexists; split; [exact E|split; [lia|split; [intros ? HH; inversion HH; subst; lia|split; [reflexivity|exact E1]]]]|].
    unfold last_pos. fold (zlen s). left. split; [assumption|]. split.
    + eexists. split; [apply nth_error_in; lia|]. apply HP; [|assumption]. apply nth_In. unfold zlen in *. lia.
    + intros k c Hk Hn HQ. specialize (Hlt k Hk). rewrite (nth_error_some_nth _ _ _ 0 Hn) in Hlt.
      apply HP in HQ; [congruence|]. eapply nth_error_In; eassumption.
  - exists None. split; [do 2 eexists; split; [exact E|split; [lia|split; [intros ? HH; inversion HH; subst; lia|split; [reflexivity|exact E1]]]]|].
    unfold last_pos. fold (zlen s). right. split; [reflexivity|].
    intros k c Hk Hn HQ. specialize (Hno k Hk). rewrite (nth_error_some_nth _ _ _ 0 Hn) in Hno.
    apply HP in HQ; [congruence|]. eapply nth_error_In; eassumption.
Qed.

Lemma inset_In set c : inset set c = true <-> In c set.
Proof.
  unfold inset. rewrite existsb_exists. split.
  - intros (x & Hx & E). apply Z.eqb_eq in E. now subst.
  - intros H. exists c. split; [assumption|apply Z.eqb_refl].
Qed.
Lemma strchr_pos set s c : cstr s -> In c s -> strchr_b set c = true <-> In c set.
Proof.
  intros Hs Hin. unfold strchr_b. unfold cstr in Hs. rewrite Forall_forall in Hs. specialize (Hs c Hin).
  replace (c =? 0) with false by lia. apply inset_In.
Qed.
Lemma strchr_pos' set s c : cstr s -> In c s -> negb (c =? 0) && strchr_b set c = true <-> In c set.
Proof.
  intros Hs Hin. rewrite <- (strchr_pos set s c Hs Hin). unfold cstr in Hs. rewrite Forall_forall in Hs.
  specialize (Hs c Hin). replace (c =? 0) with false by lia. reflexivity.
Qed.

Lemma upto_ok s i j set : cstr s -> s <> [] -> in_range s i j ->
  exists r, zt_cstr_upto s i j set = Ok r /\ first_pos (fun c => In c set) s i j r.
Proof.
  intros Hc Hs H. destruct (search_up (strchr_b set) (fun c => In c set) s i j Hs H) as (r & (i' & j' & E & Hb & Hk & E1) & HF).
  { intros c. apply strchr_pos, Hc. }
  eexists. unfold zt_cstr_upto. rewrite E. cbn [obind]. rewrite E1. cbn [obind]. split; [reflexivity|exact HF].
Qed.
Lemma rupto_ok s i j set : cstr s -> s <> [] -> in_range s i j ->
  exists r, zt_cstr_rupto s i j set = Ok r /\ last_pos (fun c => In c set) s i j r.
Proof.
  intros Hc Hs H. destruct (search_down (strchr_b set) (fun c => In c set) s i j Hs H) as (r & (i' & j' & E & Hb & Hk & _ & E1) & HF).
  { intros c. apply strchr_pos, Hc. }
  eexists. unfold zt_cstr_rupto. rewrite E. cbn [obind]. rewrite E1. cbn [obind]. split; [reflexivity|exact HF].
Qed.
Lemma any_ok s i j set : cstr s -> in_range s i j ->
  exists r, zt_cstr_any s i j set = Ok r /\ first_pos (fun c => In c set) s i j r.
Proof.
  intros Hc H. destruct s as [|c0 s0] eqn:Es.
  - exists (-1). split; [reflexivity|]. right. split; [reflexivity|]. intros k c _ Hn. destruct (Z.to_nat k); discriminate.
  - rewrite <- Es in *. assert (Hs : s <> []) by (rewrite Es; discriminate).
    destruct (search_up (fun c => negb (c =? 0) && strchr_b set c) (fun c => In c set) s i j Hs H) as (r & (i' & j' & E & Hb & Hk & E1) & HF).
    { intros c. apply strchr_pos', Hc. }
    eexists. unfold zt_cstr_any. rewrite E. cbn [obind].
    replace ((0 <=? i') && (i' <=? j')) with true by lia. cbn [guard obind]. rewrite E1. cbn [obind]. split; [reflexivity|exact HF].
Qed.
Lemma rany_ok s i j set : cstr s -> in_range s i j ->
  exists r, zt_cstr_rany s i j set = Ok r /\
    ((r = -1 /\ last_pos (fun c => In c set) s i j (-1)) \/
     (0 <= r /\ last_pos (fun c => In c set) s i j (low (zlen s) i j + r))).
Proof.
  intros Hc H. destruct s as [|c0 s0] eqn:Es.
  - exists (-1). split; [reflexivity|]. left. split; [reflexivity|]. right. split; [reflexivity|]. intros k c _ Hn. destruct (Z.to_nat k); discriminate.
  - rewrite <- Es in *. assert (Hs : s <> []) by (rewrite Es; discriminate).
    destruct (search_down (fun c => negb (c =? 0) && strchr_b set c) (fun c => In c set) s i j Hs H) as (r & (i' & j' & E & Hb & Hk & Hl & E1) & HF).
    { intros c. apply strchr_pos', Hc. }
    eexists. unfold zt_cstr_rany. rewrite E. cbn [obind].
    replace ((0 <=? i') && (i' <=? j')) with true by lia. cbn [guard obind]. rewrite E1. cbn [obind]. split; [reflexivity|].
    destruct r as [k|]; [right|left; auto]. subst i'. specialize (Hk k eq_refl). split; [|replace (low (zlen s) i j + (k - low (zlen s) i j)) with k by lia; exact HF].
    lia.
Qed.
Lemma schar_is x c : 0 < x < 256 -> ((schar x =? c) = true <-> char_is c x).
Proof.
  intros H. rewrite Z.eqb_eq. unfold schar, char_is. destruct (x <? 128) eqn:E; split.
  - intros <-. split; [lia|]. symmetry. apply Z.mod_small. lia.
  - intros (R & ->). destruct (Z_lt_ge_dec c 0) as [L|L]; [|apply Z.mod_small; lia]. exfalso. apply Z.ltb_lt in E. rewrite <- (Z_mod_plus_full c 1 256), Z.mod_small in E by lia. lia.
  - intros <-. split; [lia|]. symmetry. replace (x - 256) with (x + -1 * 256) by lia. rewrite Z_mod_plus_full. apply Z.mod_small. lia.
  - intros (R & ->). destruct (Z_lt_ge_dec c 0) as [L|L].
    + rewrite <- (Z_mod_plus_full c 1 256), Z.mod_small by lia. lia.
    + exfalso. rewrite Z.mod_small in E by lia. lia.
Qed.
Lemma chr_ok s i j c : cstr s -> s <> [] -> in_range s i j ->
  exists r, zt_cstr_chr s i j c = Ok (if r =? -1 then 0 else r) /\ first_pos (char_is c) s i j r.
Proof.
  intros Hc Hs H. destruct (search_up (fun x => schar x =? c) (char_is c) s i j Hs H) as (r & (i' & j' & E & Hb & Hk & E1) & HF).
  { intros x Hx. apply schar_is. unfold cstr in Hc. rewrite Forall_forall in Hc. now apply Hc. }
  exists (match r with Some k => k | None => -1 end). split; [|exact HF].
  unfold zt_cstr_chr. rewrite E. cbn [obind]. rewrite E1. cbn [obind]. destruct r as [k|]; [|reflexivity].
  f_equal. specialize (Hk k eq_refl). replace (k =? -1) with false by lia. reflexivity.
Qed.
Lemma rchr_ok s i j c : cstr s -> s <> [] -> in_range s i j ->
  exists r, zt_cstr_rchr s i j c = Ok (if r =? -1 then 0 else r) /\ last_pos (char_is c) s i j r.
Proof.
  intros Hc Hs H. destruct (search_down (fun x => schar x =? c) (char_is c) s i j Hs H) as (r & (i' & j' & E & Hb & Hk & _ & E1) & HF).
  { intros x Hx. apply schar_is. unfold cstr in Hc. rewrite Forall_forall in Hc. now apply Hc. }
  exists (match r with Some k => k | None => -1 end). split; [|exact HF].
  unfold zt_cstr_rchr. rewrite E. cbn [obind]. rewrite E1. cbn [obind]. destruct r as [k|]; [|reflexivity].
  f_equal. specialize (Hk k eq_refl). replace (k =? -1) with false by lia. reflexivity.
Qed.

(** *** find, rfind *)
Lemma strncmp_0 a b n : strncmp a b n = 0 <-> firstn n a = firstn n b.
Proof.
  revert a b; induction n as [|n IH]; intros a b; [cbn; split; reflexivity|].
  destruct a as [|x a], b as [|y b]; cbn [strncmp firstn]; [split; reflexivity|split; [lia|discriminate]|split; [lia|discriminate]|].
  destruct (x =? y) eqn:E.
  - rewrite IH. split; [intros H|intros H; injection H; auto]. apply Z.eqb_eq in E. congruence.
  - split; [destruct (x <? y); lia|intros H; injection H; lia].
Qed.
Lemma match_at s str k : 0 <= k <= zlen s ->
  strncmp (skipn (Z.to_nat k) s) str (length str) = 0 <->
  exists before after, s = before ++ str ++ after /\ zlen before = k.
Proof.
  intros Hk. rewrite strncmp_0, firstn_all. split.
  - intros H. exists (firstn (Z.to_nat k) s), (skipn (length str) (skipn (Z.to_nat k) s)). split.
    + rewrite <- H at 1. rewrite firstn_skipn. rewrite firstn_skipn. reflexivity.
    + unfold zlen in *. rewrite firstn_length. lia.
  - intros (b & a & E & L). rewrite E. unfold zlen in L. replace (Z.to_nat k) with (length b) by lia.
    rewrite skipn_app, skipn_all, Nat.sub_diag. cbn [app skipn]. rewrite firstn_app, firstn_all, Nat.sub_diag.
    cbn. now rewrite app_nil_r.
Qed.

Definition occ (s str : list Z) (k : Z) : Prop := exists before after, s = before ++ str ++ after /\ zlen before = k.

Lemma find_loop_ok s str j : j < zlen s -> str <> [] -> forall fuel i, 0 <= i <= j + 1 -> (Z.to_nat (j - i + 1) <= fuel)%nat ->
  exists r, find_loop fuel s str i j = Ok r /\
  ((i <= r /\ r + zlen str <= j + 1 /\ occ s str r /\ forall k, i <= k < r -> ~ occ s str k) \/
   (r = -1 /\ forall k, i <= k -> k + zlen str <= j + 1 -> ~ occ s str k)).
Proof.
  intros Hj Hstr. pose proof (zlen_pos str Hstr) as HL.
  induction fuel as [|f IH]; intros i Hi Hf; cbn [find_loop].
  - destruct (i + zlen str <=? j + 1) eqn:E; [lia|]. exists (-1). split; [reflexivity|]. right. split; [reflexivity|]. intros; lia.
  - destruct (i + zlen str <=? j + 1) eqn:E.
    + rewrite at_ok by lia. cbn [obind].
      destruct (strncmp (skipn (Z.to_nat i) s) str (length str) =? 0) eqn:Em.
      * exists i. split; [reflexivity|]. left. split; [lia|]. split; [lia|]. split; [|intros; lia].
        apply match_at; [lia|]. lia.
      * destruct (IH (i + 1)) as (r & E1 & H); try lia. exists r. split; [exact E1|].
        assert (Hno : ~ occ s str i). { intros Ho. apply match_at in Ho; lia. }
        destruct H as [(H1 & H2 & H3 & H4)|(H1 & H2)].
        -- left. split; [lia|]. split; [lia|]. split; [assumption|]. intros k Hk. destruct (Z.eq_dec k i) as [->|]; [assumption|]. apply H4; lia.
        -- right. split; [assumption|]. intros k Hk Hk2. destruct (Z.eq_dec k i) as [->|]; [assumption|]. apply H2; lia.
    + exists (-1). split; [reflexivity|]. right. split; [reflexivity|]. intros; lia.
Qed.
Lemma rfind_loop_ok s str i : 0 <= i -> forall fuel o, o <= zlen s -> i <= o + 1 -> (Z.to_nat (o - i + 1) <= fuel)%nat ->
  exists r, rfind_loop fuel s str i o = Ok r /\
  ((i <= r <= o /\ occ s str r /\ forall k, r < k <= o -> ~ occ s str k) \/
   (r = -1 /\ forall k, i <= k <= o -> ~ occ s str k)).
Proof.
  intros Hi. induction fuel as [|f IH]; intros o Ho Hio Hf; cbn [rfind_loop].
  - destruct (i <=? o) eqn:E; [lia|]. exists (-1). split; [reflexivity|]. right. split; [reflexivity|]. intros; lia.
  - destruct (i <=? o) eqn:E.
    + rewrite at_ok by lia. cbn [obind].
      destruct (strncmp (skipn (Z.to_nat o) s) str (length str) =? 0) eqn:Em.
      * exists o. split; [reflexivity|]. left. split; [lia|]. split; [|intros; lia].
        apply match_at; [lia|]. lia.
      * destruct (IH (o - 1)) as (r & E1 & H); try lia. exists r. split; [exact E1|].
        assert (Hno : ~ occ s str o). { intros Hc. apply match_at in Hc; lia. }
        destruct H as [(H1 & H3 & H4)|(H1 & H2)].
        -- left. split; [lia|]. split; [assumption|]. intros k Hk. destruct (Z.eq_dec k o) as [->|]; [assumption|]. apply H4; lia.
        -- right. split; [assumption|]. intros k Hk. destruct (Z.eq_dec k o) as [->|]; [assumption|]. apply H2; lia.
    + exists (-1). split; [reflexivity|]. right. split; [reflexivity|]. intros; lia.
Qed.

Lemma occ_single s c k : 0 <= k < zlen s -> occ s [c] k <-> nth (Z.to_nat k) s 0 = c.
Proof.
  intros Hk. unfold occ. rewrite <- match_at by lia. rewrite (nth_skipn_cons s (Z.to_nat k) 0) by (unfold zlen in *; lia).
  cbn [length strncmp]. destruct (nth (Z.to_nat k) s 0 =? c) eqn:E; [split; lia|].
  destruct (nth (Z.to_nat k) s 0 <? c); split; lia.
Qed.

Lemma zlen1 {A} (c : A) : zlen [c] = 1. Proof. reflexivity. Qed.
Lemma scan_up_none P s j i : j < i -> scan_up 0 P s i j = Ok None.
Proof. intros H. cbn. replace (i <=? j) with false by lia. reflexivity. Qed.

Lemma occurs_nil pat i j k : pat <> [] -> ~ occurs [] pat i j k.
Proof.
  intros Hp (_ & _ & b & a & E & _). destruct b; [|discriminate]. destruct pat; [congruence|discriminate].
Qed.

Lemma find_ok s i j pat : in_range s i j -> cstr pat -> pat <> [] ->
  exists r, zt_cstr_find s i j pat = Ok r /\
    ((occurs s pat i j r /\ forall k, k < r -> ~ occurs s pat i j k) \/
     (r = -1 /\ forall k, ~ occurs s pat i j k)).
Proof.
  intros H Hcp Hp. apply in_range_cases in H as [->|(Hs & Hi & Hj)].
  - exists (-1). split; [|right; split; [reflexivity|]; intros; apply occurs_nil; assumption].
    unfold zt_cstr_find. rewrite CONVERT_e. cbn [obind].
    destruct pat as [|c [|d p]]; [congruence| |].
    + unfold fuel_of. change (Z.to_nat (0 - 0 + 1)) with 1%nat. cbn [scan_up]. change (0 <=? 0) with true. cbv iota.
      change (rd [] 0) with (Ok 0). cbn [obind].
      inversion Hcp; subst. replace (0 =? c) with false by lia. reflexivity.
    + change (fuel_of 0 0) with 1%nat. cbn [find_loop]. replace (0 + zlen (c :: d :: p) <=? 0 + 1) with false by (unfold zlen; cbn [length]; lia). reflexivity.
  - destruct (CONVERT_ne s i j Hs Hi Hj) as (E & H1 & H2). unfold zt_cstr_find. rewrite E. cbn [obind].
    assert (Hocc : forall k, occurs s pat i j k <-> (low (zlen s) i j <= k /\ k + zlen pat <= high (zlen s) i j + 1 /\ occ s pat k)) by reflexivity.
    destruct pat as [|c [|d p]] eqn:Ep; [congruence| |].
    + destruct (scan_up_ok (fun x => x =? c) s (high (zlen s) i j) H2 (fuel_of (low (zlen s) i j) (high (zlen s) i j)) (low (zlen s) i j))
        as [(r & E1 & Hr & HP & Hlt)|(E1 & Hno)]; [lia|reflexivity| |]; rewrite E1; cbn [obind].
      * exists r. split; [reflexivity|]. left. split.
        -- apply (proj2 (Hocc _)). rewrite zlen1. split; [lia|]. split; [lia|]. apply occ_single; lia.
        -- intros k Hk Ho. apply (proj1 (Hocc _)) in Ho as (Ho1 & Ho2 & Ho3). rewrite zlen1 in Ho2. apply occ_single in Ho3; [|lia].
           specialize (Hlt k). lia.
      * exists (-1). cbn [find_loop]. rewrite zlen1. replace (high (zlen s) i j + 1 + 1 <=? high (zlen s) i j + 1) with false by lia.
        split; [reflexivity|]. right. split; [reflexivity|]. intros k Ho. apply (proj1 (Hocc _)) in Ho as (Ho1 & Ho2 & Ho3).
        rewrite zlen1 in Ho2. apply occ_single in Ho3; [|lia]. specialize (Hno k). lia.
    + rewrite <- Ep in *. destruct (find_loop_ok s pat (high (zlen s) i j) H2 Hp (fuel_of (low (zlen s) i j) (high (zlen s) i j)) (low (zlen s) i j))
        as (r & E1 & HR); [lia|reflexivity|].
      exists r. split; [exact E1|]. destruct HR as [(R1 & R2 & R3 & R4)|(-> & R)].
      * left. split; [apply (proj2 (Hocc _)); auto|]. intros k Hk Ho. apply (proj1 (Hocc _)) in Ho as (Ho1 & Ho2 & Ho3). apply (R4 k); [lia|assumption].
      * right. split; [reflexivity|]. intros k Ho. apply (proj1 (Hocc _)) in Ho as (Ho1 & Ho2 & Ho3). apply (R k); assumption.
Qed.
Lemma rfind_ok s i j pat : in_range s i j -> cstr pat -> pat <> [] ->
  exists r, zt_cstr_rfind s i j pat = Ok r /\
    ((occurs s pat i j r /\ forall k, r < k -> ~ occurs s pat i j k) \/
     (r = -1 /\ forall k, ~ occurs s pat i j k)).
Proof.
  intros H Hcp Hp. pose proof (zlen_pos pat Hp) as HL. apply in_range_cases in H as [->|(Hs & Hi & Hj)].
  - exists (-1). split; [|right; split; [reflexivity|]; intros; apply occurs_nil; assumption].
    unfold zt_cstr_rfind. rewrite CONVERT_e. cbn [obind].
    destruct pat as [|c [|d p]]; [congruence| |].
    + unfold fuel_of. change (Z.to_nat (0 - 0 + 1)) with 1%nat. cbn [scan_down]. change (0 <=? 0) with true. cbv iota.
      change (rd [] 0) with (Ok 0). cbn [obind].
      inversion Hcp; subst. replace (0 =? c) with false by lia. reflexivity.
    + change (fuel_of 0 0) with 1%nat. cbn [rfind_loop]. replace (0 <=? 0 - zlen (c :: d :: p) + 1) with false by (unfold zlen; cbn [length]; lia). reflexivity.
  - destruct (CONVERT_ne s i j Hs Hi Hj) as (E & H1 & H2). unfold zt_cstr_rfind. rewrite E. cbn [obind].
    assert (Hocc : forall k, occurs s pat i j k <-> (low (zlen s) i j <= k /\ k + zlen pat <= high (zlen s) i j + 1 /\ occ s pat k)) by reflexivity.
    destruct pat as [|c [|d p]] eqn:Ep; [congruence| |].
    + destruct (scan_down_ok (fun x => x =? c) s (low (zlen s) i j) (proj1 H1) (fuel_of (low (zlen s) i j) (high (zlen s) i j)) (high (zlen s) i j))
        as [(r & E1 & Hr & HP & Hlt)|(E1 & Hno)]; [lia|lia|reflexivity| |]; rewrite E1; cbn [obind].
      * exists r. split; [reflexivity|]. left. split.
        -- apply (proj2 (Hocc _)). rewrite zlen1. split; [lia|]. split; [lia|]. apply occ_single; lia.
        -- intros k Hk Ho. apply (proj1 (Hocc _)) in Ho as (Ho1 & Ho2 & Ho3). rewrite zlen1 in Ho2. apply occ_single in Ho3; [|lia].
           specialize (Hlt k). lia.
      * exists (-1). cbn [rfind_loop]. replace (low (zlen s) i j <=? low (zlen s) i j - 1) with false by lia.
        split; [reflexivity|]. right. split; [reflexivity|]. intros k Ho. apply (proj1 (Hocc _)) in Ho as (Ho1 & Ho2 & Ho3).
        rewrite zlen1 in Ho2. apply occ_single in Ho3; [|lia]. specialize (Hno k). lia.
    + rewrite <- Ep in *.
      destruct (Z_lt_le_dec (high (zlen s) i j - zlen pat + 1) (low (zlen s) i j)) as [Hsmall|Hbig].
      { exists (-1). assert (E0 : forall f, rfind_loop f s pat (low (zlen s) i j) (high (zlen s) i j - zlen pat + 1) = Ok (-1)).
        { intros f. destruct f; cbn [rfind_loop]; replace (low (zlen s) i j <=? high (zlen s) i j - zlen pat + 1) with false by lia; reflexivity. }
        split; [apply E0|]. right. split; [reflexivity|]. intros k Ho. apply (proj1 (Hocc _)) in Ho. lia. }
      destruct (rfind_loop_ok s pat (low (zlen s) i j) (proj1 H1) (fuel_of (low (zlen s) i j) (high (zlen s) i j)) (high (zlen s) i j - zlen pat + 1))
        as (r & E1 & HR); [lia|lia|unfold fuel_of; lia|].
      exists r. split; [exact E1|]. destruct HR as [(R1 & R3 & R4)|(-> & R)].
      * left. split; [apply (proj2 (Hocc _)); split; [lia|split; [lia|assumption]]|].
        intros k Hk Ho. apply (proj1 (Hocc _)) in Ho as (Ho1 & Ho2 & Ho3). apply (R4 k); [lia|assumption].
      * right. split; [reflexivity|]. intros k Ho. apply (proj1 (Hocc _)) in Ho as (Ho1 & Ho2 & Ho3). apply (R k); [lia|assumption].
Qed.

(** *** cmp *)
Lemma strncmp_lex a b n : strncmp a b n = match lex (firstn n a) (firstn n b) with Lt => -1 | Eq => 0 | Gt => 1 end.
Proof.
  revert a b; induction n as [|n IH]; intros a b; [reflexivity|].
  destruct a as [|x a], b as [|y b]; cbn [strncmp firstn lex]; try reflexivity.
  destruct (Z.compare_spec x y) as [->|Hlt|Hgt].
  - rewrite Z.eqb_refl. apply IH.
  - replace (x =? y) with false by lia. replace (x <? y) with true by lia. reflexivity.
  - replace (x =? y) with false by lia. replace (x <? y) with false by lia. reflexivity.
Qed.
Lemma lex_prefix_lt a b : (length a < length b)%nat ->
  lex a b = match lex a (firstn (length a) b) with Eq => Lt | c => c end.
Proof.
  revert b; induction a as [|x a IH]; intros [|y b] H; cbn [length lex firstn] in *; try lia; [reflexivity|].
  destruct (x ?= y); try reflexivity. apply IH. lia.
Qed.
Lemma lex_prefix_gt a b : (length b < length a)%nat ->
  lex a b = match lex (firstn (length b) a) b with Eq => Gt | c => c end.
Proof.
  revert a; induction b as [|y b IH]; intros [|x a] H; cbn [length lex firstn] in *; try lia; [reflexivity|].
  destruct (x ?= y); try reflexivity. apply IH. lia.
Qed.
Lemma lex_eq a b : lex a b = Eq <-> a = b.
Proof.
  revert b; induction a as [|x a IH]; intros [|y b]; cbn [lex]; try (split; congruence).
  destruct (Z.compare_spec x y) as [->|H|H].
  - rewrite IH. split; congruence.
  - split; [discriminate|]. intros E; injection E; lia.
  - split; [discriminate|]. intros E; injection E; lia.
Qed.
Lemma lex_snoc_last a b x y : length a = length b -> lex (a ++ [x]) (b ++ [y]) =
  match lex a b with Eq => x ?= y | c => c end.
Proof.
  revert b; induction a as [|u a IH]; intros [|v b] H; cbn [length] in H; try discriminate; cbn [app lex].
  - destruct (x ?= y); reflexivity.
  - destruct (u ?= v); try reflexivity. apply IH. lia.
Qed.

(** slices of non-empty strings, as prefixes of the pointer used *)
Lemma slice_prefix s i j n : s <> [] -> - zlen s <= i -> - zlen s <= j -> 
  n <= high (zlen s) i j - low (zlen s) i j + 1 ->
  firstn (Z.to_nat n) (skipn (Z.to_nat (low (zlen s) i j)) s) = firstn (Z.to_nat n) (slice s i j).
Proof.
  intros Hs Hi Hj Hn. unfold slice. fold (zlen s). rewrite firstn_firstn. f_equal. lia.
Qed.

Lemma cmp_raw s1 i1 j1 s2 i2 j2 : s1 <> [] -> s2 <> [] -> in_range s1 i1 j1 -> in_range s2 i2 j2 ->
  let a := slice s1 i1 j1 in let b := slice s2 i2 j2 in
  exists r, zt_cstr_cmp s1 i1 j1 s2 i2 j2 = Ok r /\
    (zlen a <> zlen b -> has_sign r (lex a b)) /\
    (zlen a = zlen b -> has_sign r (lex (removelast a) (removelast b))).
Proof.
  intros N1 N2 H1 H2 a b.
  apply in_range_cases in H1 as [->|(_ & Hi1 & Hj1)]; [congruence|].
  apply in_range_cases in H2 as [->|(_ & Hi2 & Hj2)]; [congruence|].
  destruct (CONVERT_ne s1 i1 j1 N1 Hi1 Hj1) as (E1 & A1 & B1).
  destruct (CONVERT_ne s2 i2 j2 N2 Hi2 Hj2) as (E2 & A2 & B2).
  pose proof (slice_length s1 i1 j1 N1 Hi1 Hj1) as L1. pose proof (slice_length s2 i2 j2 N2 Hi2 Hj2) as L2.
  fold a in L1. fold b in L2.
  assert (P1 : forall n, n <= zlen a -> firstn (Z.to_nat n) (skipn (Z.to_nat (low (zlen s1) i1 j1)) s1) = firstn (Z.to_nat n) a)
    by (intros; apply slice_prefix; auto; lia).
  assert (P2 : forall n, n <= zlen b -> firstn (Z.to_nat n) (skipn (Z.to_nat (low (zlen s2) i2 j2)) s2) = firstn (Z.to_nat n) b)
    by (intros; apply slice_prefix; auto; lia).
  unfold zt_cstr_cmp. rewrite E1. cbn [obind]. rewrite E2. cbn [obind].
  rewrite !at_ok by lia. cbn [obind].
  destruct (high (zlen s1) i1 j1 - low (zlen s1) i1 j1 <? high (zlen s2) i2 j2 - low (zlen s2) i2 j2) eqn:C1.
  - rewrite IDXLEN_ok by lia. cbn [obind]. eexists; split; [reflexivity|]. split; [|lia]. intros _.
    rewrite strncmp_lex, P1, P2 by lia. rewrite <- L1. unfold zlen at 1 2 3 4. rewrite !Nat2Z.id. rewrite firstn_all.
    rewrite (lex_prefix_lt a b) by (unfold zlen in *; lia).
    destruct (lex a (firstn (length a) b)); reflexivity.
  - destruct (high (zlen s2) i2 j2 - low (zlen s2) i2 j2 <? high (zlen s1) i1 j1 - low (zlen s1) i1 j1) eqn:C2.
    + rewrite IDXLEN_ok by lia. cbn [obind]. eexists; split; [reflexivity|]. split; [|lia]. intros _.
      rewrite strncmp_lex, P1, P2 by lia. rewrite <- L2. unfold zlen at 1 2 3 4. rewrite !Nat2Z.id. rewrite firstn_all.
      rewrite (lex_prefix_gt a b) by (unfold zlen in *; lia).
      destruct (lex (firstn (length b) a) b); reflexivity.
    + eexists; split; [reflexivity|]. split; [lia|]. intros HL.
      rewrite strncmp_lex, P1, P2 by lia. rewrite !removelast_firstn_len.
      replace (Z.to_nat (high (zlen s1) i1 j1 - low (zlen s1) i1 j1)) with (Init.Nat.pred (length a)) by (unfold zlen in *; lia).
      replace (length b) with (length a) by (unfold zlen in *; lia).
      destruct (lex (firstn (Init.Nat.pred (length a)) a) (firstn (Init.Nat.pred (length a)) b)); reflexivity.
Qed.
