(** Proofs about zt_log. *)
From Verif Require Import Prelude Heap CstrModel CstrSpec CstrProofs LogModel LogSpec.
Local Open Scope Z_scope.

Lemma has_bit opts n : 0 <= n -> has opts (2 ^ n) = Z.testbit opts n.
Proof.
  intros Hn. unfold has. destruct (Z.testbit opts n) eqn:E.
  - destruct (Z.eqb_spec (Z.land opts (2 ^ n)) 0) as [H|H]; [|reflexivity]. exfalso.
    assert (Z.testbit (Z.land opts (2 ^ n)) n = true) by (rewrite Z.land_spec, E, Z.pow2_bits_true by lia; reflexivity).
    rewrite H, Z.bits_0 in H0. discriminate.
  - replace (Z.land opts (2 ^ n)) with 0; [reflexivity|]. symmetry. apply Z.bits_inj'. intros k Hk. rewrite Z.land_spec, Z.bits_0.
    destruct (Z.eq_dec k n) as [->|Ne]; [now rewrite E|]. rewrite Z.pow2_bits_false by lia. apply andb_false_r.
Qed.

Lemma strcat_ok cap t s : zlen t + zlen s + 1 <= cap -> strcat cap t s = Ok (t ++ s).
Proof. unfold strcat. intros H. replace (zlen t + zlen s + 1 <=? cap) with true by lia. reflexivity. Qed.
Lemma short_name_cut s : short_name s = cut_dot s.
Proof.
  unfold short_name. induction s as [|c s IH]; [reflexivity|]. cbn [cut_dot length seq find]. cbn [nth]. destruct (c =? 46) eqn:E; [reflexivity|].
  rewrite <- IH. rewrite <- seq_shift.
  assert (F : forall l, find (fun k => nth k (c :: s) 0 =? 46) (map S l) = option_map S (find (fun k => nth k s 0 =? 46) l)).
  { induction l as [|x l IHl]; [reflexivity|]. cbn [map find]. cbn [nth]. destruct (nth x s 0 =? 46); [reflexivity|exact IHl]. }
  rewrite F. destruct (find _ _); reflexivity.
Qed.
Lemma level_name_desc level : 0 <= level -> level_name level = level_desc level.
Proof.
  intros H. destruct (Z_lt_ge_dec level 8) as [L|L].
  - assert (C : level = 0 \/ level = 1 \/ level = 2 \/ level = 3 \/ level = 4 \/ level = 5 \/ level = 6 \/ level = 7) by lia.
    repeat (destruct C as [->|C]; [vm_compute; reflexivity|]). subst level. vm_compute. reflexivity.
  - unfold level_desc. rewrite nth_overflow by (cbn [length]; lia). destruct level as [|q|q]; [lia| |lia]. unfold level_name.
    do 3 (destruct q as [q|q|]; try lia; try reflexivity).
Qed.
Lemma cut_dot_len s : zlen (cut_dot s) <= zlen s.
Proof.
  induction s as [|c s IH]; [reflexivity|]. cbn [cut_dot]. destruct (c =? 46); [unfold zlen; cbn [length]; lia|]. unfold zlen in *. cbn [length]. lia.
Qed.
Lemma digits_len : forall fuel n k, 0 <= n < 10 ^ Z.of_nat k -> (1 <= k)%nat -> zlen (digits fuel n) <= Z.of_nat k.
Proof.
  induction fuel as [|fuel IH]; intros n k Hn Hk; [cbn; lia|]. cbn [digits]. destruct (n <? 10) eqn:E; [unfold zlen; cbn [length]; lia|].
  destruct k as [|k]; [lia|]. destruct k as [|k]; [change (10 ^ Z.of_nat 1) with 10 in Hn; lia|].
  rewrite zlen_app. specialize (IH (n / 10) (S k)). change (zlen [48 + n mod 10]) with 1.
  assert (10 ^ Z.of_nat (S (S k)) = 10 * 10 ^ Z.of_nat (S k)) by (rewrite (Nat2Z.inj_succ (S k)), Z.pow_succ_r by lia; reflexivity).
  assert (zlen (digits fuel (n / 10)) <= Z.of_nat (S k)); [|lia]. apply IH; [|lia]. split; [apply Z.div_pos; lia|]. apply Z.div_lt_upper_bound; lia.
Qed.
Lemma decimal_len n : 0 <= n < 2 ^ 32 -> zlen (decimal n) <= 10.
Proof. intros H. unfold decimal. replace (n <? 0) with false by lia. apply (digits_len _ n 10); [change (10 ^ Z.of_nat 10) with 10000000000; lia|lia]. Qed.

Lemma gen_fmt_ok opts e fmt d level : env_ok e -> dbg_ok d -> 0 <= level -> gen_fmt opts e fmt d level = Ok (prefix opts e level ++ fmt ++ suffix d).
Proof.
  intros [Hh Hp] Hd Hl. unfold gen_fmt, prefix. rewrite short_name_cut, level_name_desc by exact Hl.
  change host_unknown with [42; 104; 111; 115; 116; 110; 97; 109; 101; 42]. change WITH_DATE with (2 ^ 0). change WITH_LEVEL with (2 ^ 1). change WITH_SYSNAME with (2 ^ 2).
  change WITH_PROGNAME with (2 ^ 3). change WITH_PID with (2 ^ 4). rewrite !has_bit by lia. change (2 ^ 1) with 2. change (2 ^ 2) with 4. change log_max with 8.
  pose proof (zlen_nonneg fmt) as F0. cbv zeta.
  (* date *)
  set (p1 := if Z.testbit opts 0 then e_date e else []).
  match goal with |- obind ?x _ = _ => assert (S1 : exists len, x = Ok (len, p1) /\ zlen p1 + zlen fmt + 4 <= len) end.
  { subst p1. destruct (Z.testbit opts 0).
    - unfold sprintf. rewrite strcat_ok by (change (zlen (@nil Z)) with 0; lia). cbn [obind app]. eexists. split; [reflexivity|]. lia.
    - eexists. split; [reflexivity|]. change (zlen (@nil Z)) with 0. lia. }
  destruct S1 as (len1 & E1 & L1). rewrite E1. cbn [obind]. clear E1.
  (* host *)
  set (hn := match e_host e with Some h => h | None => [42; 104; 111; 115; 116; 110; 97; 109; 101; 42] end).
  assert (Hhn : zlen hn <= 254) by (subst hn; destruct (e_host e); [exact Hh|unfold zlen; cbn [length]; lia]).
  set (p2 := if Z.testbit opts 2 then cut_dot hn ++ (if 4 <? opts then [32] else []) else []).
  match goal with |- obind ?x _ = _ => assert (S1 : exists len, x = Ok (len, p1 ++ p2) /\ zlen (p1 ++ p2) + zlen fmt + 4 <= len) end.
  { subst p2. destruct (Z.testbit opts 2).
    - unfold sprintf. rewrite strcat_ok by (change (zlen (@nil Z)) with 0; lia). cbn [obind app].
      rewrite strcat_ok by (rewrite ?zlen_app; lia). cbn [obind]. destruct (4 <? opts).
      + rewrite strcat_ok by (rewrite zlen_app; change (zlen [32]) with 1; lia). cbn [obind]. eexists. rewrite <- app_assoc. split; [reflexivity|].
        rewrite !zlen_app. change (zlen [32]) with 1. lia.
      + cbn [obind]. eexists. rewrite app_nil_r. split; [reflexivity|]. rewrite !zlen_app. lia.
    - eexists. rewrite app_nil_r. split; [reflexivity|]. lia. }
  destruct S1 as (len2 & E1 & L2). rewrite E1. cbn [obind]. clear E1 L1. rewrite (app_assoc p1 p2). set (q2 := p1 ++ p2) in *.
  (* program *)
  set (p3 := if Z.testbit opts 3 then e_prog e else []).
  match goal with |- obind ?x _ = _ => assert (S1 : exists len, x = Ok (len, q2 ++ p3) /\ zlen (q2 ++ p3) + zlen fmt + 4 <= len) end.
  { subst p3. destruct (Z.testbit opts 3).
    - rewrite strcat_ok by lia. cbn [obind]. eexists. split; [reflexivity|]. rewrite zlen_app. lia.
    - eexists. rewrite app_nil_r. split; [reflexivity|]. lia. }
  destruct S1 as (len3 & E1 & L3). rewrite E1. cbn [obind]. clear E1. rewrite (app_assoc q2 p3). set (q3 := q2 ++ p3) in *.
  (* pid *)
  pose proof (decimal_len _ Hp) as Dp.
  set (p4 := if Z.testbit opts 4 then [91] ++ decimal (e_pid e) ++ [93] else []).
  match goal with |- obind ?x _ = _ => assert (S1 : exists len, x = Ok (len, q3 ++ p4) /\ zlen (q3 ++ p4) + zlen fmt + 4 <= len) end.
  { subst p4. destruct (Z.testbit opts 4).
    - unfold sprintf. rewrite strcat_ok by (rewrite !zlen_app; change (zlen (@nil Z)) with 0; change (zlen [91]) with 1; change (zlen [93]) with 1; lia).
      cbn [obind]. change ([] ++ [91] ++ decimal (e_pid e) ++ [93]) with ([91] ++ decimal (e_pid e) ++ [93]).
      rewrite strcat_ok by lia. cbn [obind]. eexists. split; [reflexivity|]. rewrite zlen_app. lia.
    - eexists. rewrite app_nil_r. split; [reflexivity|]. lia. }
  destruct S1 as (len4 & E1 & L4). rewrite E1. cbn [obind]. clear E1. rewrite (app_assoc q3 p4). set (q4 := q3 ++ p4) in *.
  (* level *)
  replace (0 <=? level) with true by lia. rewrite andb_true_r.
  set (p5 := if Z.testbit opts 1 && (level <? 8) then (if opts =? 2 then [] else [58; 32]) ++ level_desc level else []).
  match goal with |- obind ?x _ = _ => assert (S1 : exists len, x = Ok (len, q4 ++ p5) /\ zlen (q4 ++ p5) + zlen fmt + 4 <= len) end.
  { subst p5. pose proof (zlen_nonneg (level_desc level)). destruct (Z.testbit opts 1 && (level <? 8)); cbv zeta.
    - destruct (opts =? 2); cbn [negb].
      + cbn [obind]. rewrite strcat_ok by lia. cbn [obind app]. eexists. split; [reflexivity|]. rewrite zlen_app. lia.
      + unfold colon. rewrite strcat_ok by (change (zlen [58; 32]) with 2; lia). cbn [obind].
        rewrite strcat_ok by (rewrite zlen_app; change (zlen [58; 32]) with 2; lia). cbn [obind]. rewrite <- app_assoc. eexists. split; [reflexivity|].
        rewrite !zlen_app. change (zlen [58; 32]) with 2. lia.
    - eexists. rewrite app_nil_r. split; [reflexivity|]. lia. }
  destruct S1 as (len5 & E1 & L5). rewrite E1. cbn [obind]. clear E1. rewrite (app_assoc q4 p5). set (q5 := q4 ++ p5) in *.
  set (p6 := if opts =? 0 then [] else [58; 32]).
  match goal with |- obind ?x _ = _ => assert (E1 : x = Ok (q5 ++ p6)) end.
  { subst p6. destruct (opts =? 0); cbn [negb]; [now rewrite app_nil_r|]. unfold colon. apply strcat_ok. change (zlen [58; 32]) with 2. lia. }
  assert (L6 : zlen (q5 ++ p6) + zlen fmt + 2 <= len5).
  { rewrite zlen_app. subst p6. destruct (opts =? 0); [change (zlen (@nil Z)) with 0|change (zlen [58; 32]) with 2]; lia. }
  rewrite E1. cbn [obind]. clear E1. set (q6 := q5 ++ p6) in *. rewrite strcat_ok by lia. cbn [obind].
  (* location *)
  unfold suffix. change (-1 <? d_line d) with (Z.succ (Z.pred 0) - 1 <? d_line d). replace (Z.succ (Z.pred 0) - 1 <? d_line d) with (0 <=? d_line d) by lia.
  assert (Fin : forall len t, zlen (q6 ++ fmt ++ t) + 2 <= len -> strcat len ((q6 ++ fmt) ++ t) [10] = Ok (q6 ++ fmt ++ t ++ [10])).
  { intros len t Ht. rewrite strcat_ok by (rewrite <- app_assoc; change (zlen [10]) with 1; lia). now rewrite <- !app_assoc. }
  assert (L7 : zlen (q6 ++ fmt ++ []) + 2 <= len5) by (rewrite app_nil_r, zlen_app; lia).
  destruct (d_file d) as [file|], (d_func d) as [func|]; cbn [obind];
    try (specialize (Fin len5 [] L7); rewrite app_nil_r in Fin; rewrite Fin; reflexivity).
  destruct (0 <=? d_line d) eqn:EL; cbn [obind]; [|specialize (Fin len5 [] L7); rewrite app_nil_r in Fin; rewrite Fin; reflexivity].
  assert (Dl : zlen (decimal (d_line d)) <= 10) by (apply decimal_len; unfold dbg_ok in Hd; lia).
  pose proof (zlen_nonneg file). pose proof (zlen_nonneg func).
  set (loc := [58; 32; 105; 110; 32] ++ func ++ [32; 97; 116; 32; 40] ++ file ++ [58] ++ decimal (d_line d) ++ [41]).
  assert (Ll : zlen loc <= 12 + zlen file + zlen func + 10).
  { subst loc. rewrite !zlen_app. change (zlen [58; 32; 105; 110; 32]) with 5. change (zlen [32; 97; 116; 32; 40]) with 5. change (zlen [58]) with 1.
    change (zlen [41]) with 1. lia. }
  unfold sprintf. rewrite strcat_ok by (change (zlen (@nil Z)) with 0; lia). cbn [obind app].
  rewrite strcat_ok by (rewrite zlen_app; lia). cbn [obind]. apply Fin. rewrite !zlen_app in *. lia.
Qed.

(** printf leaves a text without '%' alone *)
Lemma vprintf_plain_app : forall t fmt args, plain t -> vprintf (t ++ fmt) args = (r <- vprintf fmt args ;; Ok (t ++ r)).
Proof.
  induction t as [|c t IH]; intros fmt args P; cbn [app].
  - destruct (vprintf fmt args); reflexivity.
  - cbn [vprintf]. assert (c <> 37) by (intros ->; apply P; now left). replace (c =? 37) with false by lia.
    rewrite IH by (intros H1; apply P; now right). destruct (vprintf fmt args); reflexivity.
Qed.
Lemma vprintf_app : forall fmt args t r, plain t -> vprintf fmt args = Ok r -> vprintf (fmt ++ t) args = Ok (r ++ t).
Proof.
  assert (G : forall n fmt args t r, (length fmt <= n)%nat -> plain t -> vprintf fmt args = Ok r -> vprintf (fmt ++ t) args = Ok (r ++ t)).
  { induction n as [|n IH]; intros fmt args t r L P H.
    - destruct fmt; [|cbn [length] in L; lia]. assert (r = []) by (cbn in H; congruence). subst r. cbn [app].
      rewrite <- (app_nil_r t) at 1. rewrite vprintf_plain_app by exact P. cbn. now rewrite app_nil_r.
    - destruct fmt as [|c fmt]; [apply (IH [] args t r); [cbn [length]; lia|exact P|exact H]|]. cbn [length] in L. cbn [app vprintf] in *.
      destruct (c =? 37).
      + destruct fmt as [|d fmt]; [discriminate|]. cbn [app length] in *. destruct (d =? 37).
        * apply obind_ok in H. destruct H as (r' & H1 & H2). rewrite (IH fmt args t r') by (auto; lia). cbn [obind]. assert (r = 37 :: r') by congruence. now subst r.
        * destruct (conversion d); cbn [negb] in *; [|discriminate]. destruct args as [|a args]; [discriminate|]. apply obind_ok in H. destruct H as (r' & H1 & H2). rewrite (IH fmt args t r') by (auto; lia). cbn [obind].
          assert (r = a ++ r') by congruence. subst r. now rewrite app_assoc.
      + apply obind_ok in H. destruct H as (r' & H1 & H2). rewrite (IH fmt args t r') by (auto; lia). cbn [obind]. assert (r = c :: r') by congruence. now subst r. }
  intros fmt args t r. apply (G (length fmt)). lia.
Qed.

Lemma plain_app a b : plain (a ++ b) <-> plain a /\ plain b.
Proof. unfold plain. rewrite in_app_iff. tauto. Qed.
Lemma plain_dec n : plain (decimal n).
Proof.
  assert (G : forall fuel n, 0 <= n -> plain (digits fuel n)).
  { induction fuel as [|fuel IH]; intros m Hm H; [destruct H|]. cbn [digits] in H. destruct (m <? 10) eqn:E.
    - destruct H as [H|[]]. lia.
    - apply in_app_or in H. destruct H as [H|[H|[]]]; [|lia]. apply (IH (m / 10)); [apply Z.div_pos; lia|exact H]. }
  unfold decimal. destruct (n <? 0) eqn:E; [|apply G; lia]. intros [H|H]; [discriminate|]. apply G in H; [exact H|lia].
Qed.
Ltac lit := let H := fresh in intros H; cbn [In] in H; repeat (destruct H as [H|H]; [discriminate H|]); exact H.
Lemma plain_cut s : plain s -> plain (cut_dot s).
Proof.
  induction s as [|c s IH]; intros P; [exact P|]. cbn [cut_dot]. destruct (c =? 46); [lit|]. intros [H|H]; [apply P; now left|].
  revert H. apply IH. intros H. apply P. now right.
Qed.
Lemma plain_desc level : plain (level_name level).
Proof.
  unfold plain. destruct level as [|q|q]; [vm_compute; intuition discriminate| |intros []]. do 3 (destruct q as [q|q|]; try (vm_compute; intuition discriminate)).
Qed.
Lemma plain_prefix opts e level : env_plain e -> plain (prefix opts e level).
Proof.
  intros (P1 & P2 & P3). unfold prefix. rewrite !plain_app.
  split; [destruct (Z.testbit opts 0); [exact P1|lit]|].
  split.
  { destruct (Z.testbit opts 2); [|lit]. rewrite short_name_cut. apply plain_app. split; [apply plain_cut; destruct (e_host e); [exact P2|lit]|]. destruct (4 <? opts); lit. }
  split; [destruct (Z.testbit opts 3); [exact P3|lit]|].
  split; [destruct (Z.testbit opts 4); [|lit]; rewrite !plain_app; split; [lit|split; [apply plain_dec|lit]]|].
  split; [|destruct (opts =? 0); lit].
  destruct (Z.testbit opts 1 && (level <? 8)); [|lit]. apply plain_app. split; [destruct (opts =? 2); lit|apply plain_desc].
Qed.
Lemma plain_suffix d : dbg_plain d -> plain (suffix d).
Proof.
  intros (P1 & P2). unfold suffix. apply plain_app. split; [|lit]. destruct (d_file d) as [file|], (d_func d) as [func|]; try lit.
  destruct (0 <=? d_line d); [|lit]. rewrite !plain_app. split; [lit|]. split; [exact P2|]. split; [lit|]. split; [exact P1|]. split; [lit|]. split; [apply plain_dec|lit].
Qed.

Lemma print_ok s e p l level d fmt args t : env_ok e -> env_plain e -> dbg_ok d -> dbg_plain d -> 0 <= level -> vprintf fmt args = Ok t ->
  print s e p l level d fmt args = Ok (mkstate (lgs s) (dflt s) (ctx s) (exits s) (out s ++ [(p, prefix (shown_opts l) e level ++ t ++ suffix d)])).
Proof.
  intros He Hp Hd Hdp Hl Ht. unfold print. cbv zeta.
  replace (match l_kind l with Syslog => if has (l_opts l) WITH_LEVEL then WITH_LEVEL else 0 | _ => l_opts l end) with (shown_opts l).
  2: { unfold shown_opts. change WITH_LEVEL with (2 ^ 1). rewrite has_bit by lia. reflexivity. }
  rewrite gen_fmt_ok by assumption. cbn [obind]. rewrite vprintf_plain_app by now apply plain_prefix.
  rewrite (vprintf_app fmt args (suffix d) t (plain_suffix d Hdp) Ht). cbn [obind]. reflexivity.
Qed.

Lemma lvprintf_live s e p level fmt args l t : (p <> 0)%nat -> cells (lgs s) p = Some l -> env_ok e -> env_plain e -> dbg_ok (ctx s) -> dbg_plain (ctx s) -> 0 <= level ->
  vprintf fmt args = Ok t ->
  lvprintf s e p level fmt args = Ok (mkstate (lgs s) (dflt s) used_up (exits s)
    (out s ++ if level <=? l_level l then [(p, prefix (shown_opts l) e level ++ t ++ suffix (ctx s))] else [])).
Proof.
  intros Hp Hc He Hep Hd Hdp Hl Ht. unfold lvprintf, resolve. replace (p =? 0)%nat with false by (symmetry; now apply Nat.eqb_neq).
  unfold load. rewrite Hc. cbn [obind]. destruct (l_level l <? level) eqn:E.
  - replace (level <=? l_level l) with false by lia. now rewrite app_nil_r.
  - replace (level <=? l_level l) with true by lia. rewrite (print_ok s e p l level (ctx s) fmt args t) by assumption. reflexivity.
Qed.
Lemma lprintf_live s e p level fmt args l t : (p <> 0)%nat -> cells (lgs s) p = Some l -> env_ok e -> env_plain e -> dbg_ok (ctx s) -> dbg_plain (ctx s) -> 0 <= level ->
  vprintf fmt args = Ok t -> lprintf s e p level fmt args = lvprintf s e p level fmt args.
Proof.
  intros Hp Hc He Hep Hd Hdp Hl Ht. rewrite (lvprintf_live s e p level fmt args l t) by assumption.
  unfold lprintf, resolve. replace (p =? 0)%nat with false by (symmetry; now apply Nat.eqb_neq).
  unfold load. rewrite Hc. cbn [obind]. destruct (l_level l <? level) eqn:E.
  - replace (level <=? l_level l) with false by lia. now rewrite app_nil_r.
  - now apply lvprintf_live.
Qed.
