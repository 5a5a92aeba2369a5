(** The default printer and the string reader of HexModel.v. *)
From Coq Require Import Znumtheory.
From Verif Require Import Prelude CstrModel HexModel HexSpec HexProofs.
Local Open Scope Z_scope.

Lemma take_str_full : forall n s r, Forall (fun c => c <> 0) s -> take_str n (s ++ 0 :: r) = Ok (firstn n s).
Proof.
  induction n as [|n IH]; intros s r F; [reflexivity|]. destruct s as [|c s]; cbn [app take_str firstn]; [reflexivity|].
  inversion F as [|? ? C F']; subst. rewrite (proj2 (Z.eqb_neq c 0)) by exact C. rewrite IH by exact F'. reflexivity.
Qed.
Lemma hexcol_skip : forall k ch, skipn (3 * k) (hexcol ch) = hexcol (skipn k ch).
Proof.
  induction k as [|k IH]; intros ch; [reflexivity|]. destruct ch as [|c ch]; [rewrite !skipn_nil; reflexivity|].
  replace (3 * S k)%nat with (S (S (S (3 * k)))) by lia. cbn [skipn]. rewrite <- IH. reflexivity.
Qed.
Lemma hexcol_first : forall k ch, firstn (3 * k) (hexcol ch) = hexcol (firstn k ch).
Proof.
  induction k as [|k IH]; intros ch; [reflexivity|]. destruct ch as [|c ch]; [rewrite !firstn_nil; reflexivity|].
  replace (3 * S k)%nat with (S (S (S (3 * k)))) by lia. cbn [firstn]. change (hexcol (c :: firstn k ch)) with ([digit (c / 16); digit (c mod 16); 32] ++ hexcol (firstn k ch)). rewrite <- IH. reflexivity.
Qed.
Lemma digit_nz d : 0 <= d -> digit d <> 0.
Proof. intros D. unfold digit. destruct (d <? 10); lia. Qed.
Lemma hexcol_nz ch : Forall (fun b => 0 <= b) ch -> Forall (fun c => c <> 0) (hexcol ch).
Proof.
  induction 1 as [|c ch C F IH]; [constructor|]. change (hexcol (c :: ch)) with ([digit (c / 16); digit (c mod 16); 32] ++ hexcol ch). apply Forall_app. split; [|exact IH].
  repeat constructor; [apply digit_nz, Z.div_pos; lia|apply digit_nz; pose proof (Z.mod_pos_bound c 16); lia|lia].
Qed.
Lemma txtcol_nz ch : Forall (fun c => c <> 0) (txtcol ch).
Proof. unfold txtcol. apply Forall_map, Forall_forall. intros b _. destruct (32 <=? b) eqn:E; cbn [andb]; [destruct (b <=? 126); lia|lia]. Qed.
Lemma Forall_skip {A} (P : A -> Prop) k l : Forall P l -> Forall P (skipn k l).
Proof. intros F. rewrite <- (firstn_skipn k l) in F. now apply Forall_app in F. Qed.
Lemma skipn_zeros : forall k n, skipn k (repeat 0 n) = repeat 0 (n - k).
Proof. induction k as [|k IH]; intros [|n]; cbn [skipn repeat Nat.sub]; try reflexivity. apply IH. Qed.
Lemma group_ok ch i : (length ch <= 16)%nat -> (i < 4)%nat -> Forall (fun b => 0 <= b) ch -> take_str 12 (skipn (12 * i) (hexarr ch)) = Ok (group ch i).
Proof.
  intros L I4 F. unfold hexarr, group. rewrite skipn_app, skipn_zeros, hexcol_len. replace (12 * i)%nat with (3 * (4 * i))%nat by lia. rewrite hexcol_skip.
  assert (E : exists k, (51 - 3 * length ch - (3 * (4 * i) - 3 * length ch))%nat = S k) by (exists (51 - 3 * length ch - (3 * (4 * i) - 3 * length ch) - 1)%nat; lia). destruct E as (k & ->). cbn [repeat].
  rewrite take_str_full by (now apply hexcol_nz, Forall_skip). f_equal. apply (hexcol_first 4).
Qed.
Lemma txt_ok ch : (length ch <= 16)%nat -> take_str (S (length (txtarr ch))) (txtarr ch) = Ok (txtcol ch).
Proof.
  intros L. unfold txtarr. assert (E : exists k, (17 - length ch)%nat = S k) by (exists (16 - length ch)%nat; lia). destruct E as (k & ->). cbn [repeat].
  rewrite take_str_full by apply txtcol_nz. f_equal. apply firstn_all2. rewrite app_length. cbn [length]. lia.
Qed.

Lemma uhex_acc : forall f n acc, uhex_loop f n acc = uhex_loop f n [] ++ acc.
Proof. induction f as [|f IH]; intros n acc; cbn [uhex_loop]; [reflexivity|]. destruct (n =? 0); [reflexivity|]. rewrite IH, (IH _ [_]), <- app_assoc. reflexivity. Qed.
Lemma address_S w a : 0 <= a -> address (S w) a = address w (a / 16) ++ [upper_digit (a mod 16)].
Proof.
  intros A. unfold address. rewrite seq_S, map_app. cbn [map Nat.add]. replace (S w - 1 - w)%nat with 0%nat by lia. rewrite Z.pow_0_r, Z.div_1_r. f_equal.
  apply map_ext_in. intros i I0. apply in_seq in I0. rewrite Z.div_div by (try lia; apply Z.pow_pos_nonneg; lia). rewrite <- Z.pow_succ_r by lia. do 4 f_equal. lia.
Qed.
Lemma upper_same d : upper d = upper_digit d.
Proof. reflexivity. Qed.
Lemma uhex_gen : forall w f a, (w <= f)%nat -> 0 <= a < 16 ^ Z.of_nat w -> repeat 48 (w - length (uhex_loop f a [])) ++ uhex_loop f a [] = address w a.
Proof.
  induction w as [|w IH]; intros f a WF A.
  - assert (a = 0) as -> by (change (16 ^ Z.of_nat 0) with 1 in A; lia). destruct f; reflexivity.
  - destruct f as [|f]; [lia|]. rewrite Nat2Z.inj_succ, Z.pow_succ_r in A by lia. rewrite address_S by lia. cbn [uhex_loop].
    assert (A2 : 0 <= a / 16 < 16 ^ Z.of_nat w) by (split; [apply Z.div_pos; lia|apply Z.div_lt_upper_bound; lia]).
    destruct (Z.eqb_spec a 0) as [->|N].
    + rewrite Zdiv_0_l in A2 |- *. rewrite <- (IH f 0) by (lia || exact A2). assert (U0 : uhex_loop f 0 [] = []) by (destruct f; reflexivity). rewrite U0. cbn [length app]. rewrite Nat.sub_0_r, !app_nil_r, !Nat.sub_0_r. change (upper_digit (0 mod 16)) with 48. now rewrite <- repeat_cons.
    + rewrite uhex_acc, app_length. cbn [length]. rewrite <- (IH f (a / 16)) by (lia || exact A2). rewrite app_assoc, upper_same. do 2 f_equal. f_equal. lia.
Qed.
Lemma uhex_ok w a : (w <= 16)%nat -> 0 <= a < 16 ^ Z.of_nat w -> uhex w a = address w a.
Proof. intros W A. exact (uhex_gen w 16 a W A). Qed.
Lemma address_len w a : length (address w a) = w.
Proof. unfold address. now rewrite map_length, seq_length. Qed.
Lemma group_len ch i : (length (group ch i) <= 12)%nat.
Proof. unfold group. rewrite hexcol_len, firstn_length. lia. Qed.
Lemma left_len a ch : (length (left_part a ch) <= width a + 54)%nat.
Proof. unfold left_part. rewrite !app_length, address_len. cbn [length]. pose proof (group_len ch 0). pose proof (group_len ch 1). pose proof (group_len ch 2). pose proof (group_len ch 3). lia. Qed.
Lemma width_le a : (width a <= 16)%nat.
Proof. unfold width. destruct (a <? 65535); [lia|]. destruct (a <? 4294967295); lia. Qed.
Lemma width_fits a : 0 <= a < 2 ^ 64 -> 0 <= a < 16 ^ Z.of_nat (width a).
Proof. intros A. unfold width. destruct (Z.ltb_spec a 65535); [change (16 ^ Z.of_nat 4) with 65536; lia|]. destruct (Z.ltb_spec a 4294967295); [change (16 ^ Z.of_nat 8) with 4294967296; lia|]. change (16 ^ Z.of_nat 16) with (2 ^ 64). exact A. Qed.

Lemma printer_line t a ch : (length ch <= 16)%nat -> Forall (fun b => 0 <= b) ch -> 0 <= a < 2 ^ 64 ->
  default_printer t a (Some (hexarr ch)) (Some (txtarr ch)) = Ok (0, t ++ line_text (a, ch)).
Proof.
  intros L F A. unfold default_printer. pose proof (group_ok ch 0 L ltac:(lia) F) as G0. pose proof (group_ok ch 1 L ltac:(lia) F) as G1. pose proof (group_ok ch 2 L ltac:(lia) F) as G2. pose proof (group_ok ch 3 L ltac:(lia) F) as G3.
  change (12 * 0)%nat with 0%nat in G0. change (12 * 1)%nat with 12%nat in G1. change (12 * 2)%nat with 24%nat in G2. change (12 * 3)%nat with 36%nat in G3. cbn [skipn] in G0.
  rewrite G0. cbn [obind]. rewrite G1. cbn [obind]. rewrite G2. cbn [obind]. rewrite G3. cbn [obind]. rewrite txt_ok by exact L. cbn [obind].
  assert (W : (if a <? 65535 then 4 else if a <? 4294967295 then 8 else 16) = Z.of_nat (width a)) by (unfold width; destruct (a <? 65535); [reflexivity|]; destruct (a <? 4294967295); reflexivity).
  rewrite W, Nat2Z.id. rewrite uhex_ok by (apply width_le || now apply width_fits). cbv zeta.
  change (address (width a) a ++ [32; 32; 32] ++ group ch 0 ++ [32] ++ group ch 1 ++ [32] ++ group ch 2 ++ [32] ++ group ch 3) with (left_part a ch).
  pose proof (left_len a ch) as LL. pose proof (width_le a) as WL. unfold zlen. rewrite (proj2 (Z.leb_le _ 99)) by lia. cbn [safe obind]. unfold line_text. do 3 f_equal.
  rewrite (firstn_all2 (left_part a ch)) by lia. f_equal. rewrite firstn_all2.
  - unfold spaces. rewrite Z.abs_eq by lia. replace (Z.to_nat (55 + Z.of_nat (width a) - Z.of_nat (length (left_part a ch)))) with (width a + 55 - length (left_part a ch))%nat by lia. now rewrite <- !app_assoc.
  - unfold spaces. rewrite !app_length, repeat_length, txtcol_len, Z.abs_eq by lia. cbn [length]. lia.
Qed.
Lemma show_default : forall ls t, Forall (fun x => (length (snd x) <= 16)%nat /\ Forall (fun b => 0 <= b) (snd x) /\ 0 <= fst x < 2 ^ 64) ls -> show default_printer t ls = Ok (true, t ++ concat (map line_text ls)).
Proof.
  induction ls as [|[a ch] ls IH]; intros t F; [cbn [map concat show]; now rewrite app_nil_r|]. inversion F as [|? ? (L & B & A) F']; subst. cbn [fst snd] in *. cbn [show]. rewrite printer_line by assumption. cbn [obind Z.eqb map concat]. rewrite IH by exact F'. now rewrite <- app_assoc.
Qed.
Lemma shown_in l x : In x (shown l) -> exists k, x = line l k.
Proof. unfold shown, all_lines. destruct (_ =? _)%nat; intros I0; apply in_map_iff in I0; destruct I0 as (k & <- & _); now exists k. Qed.
Lemma shown_ok l : Forall (fun b => 0 <= b) l -> Forall (fun x => (length (snd x) <= 16)%nat /\ Forall (fun b => 0 <= b) (snd x) /\ 0 <= fst x < 2 ^ 64) (shown l).
Proof.
  intros F. apply Forall_forall. intros x I0. destruct (shown_in _ _ I0) as (k & ->). unfold line. cbn [fst snd]. split; [rewrite firstn_length; lia|]. split.
  - apply (Forall_skip _ (16 * k)) in F. rewrite <- (firstn_skipn 16 (skipn (16 * k) l)) in F. now apply Forall_app in F.
  - pose proof (Z.mod_pos_bound (Z.of_nat (16 * k)) (2 ^ 32) ltac:(lia)). lia.
Qed.
Lemma reads_bytes {S} (getc : S -> Z * S) st l st' : reads getc st l st' -> Forall (fun b => 0 <= b) l.
Proof. induction 1; constructor; try assumption; lia. Qed.

(** the lines hold all bytes *)
Lemma chunks : forall n l, (length l <= 16 * n)%nat -> concat (map snd (map (line l) (seq 0 n))) = l.
Proof.
  assert (G : forall n l q, (length l <= 16 * (q + n))%nat -> concat (map snd (map (line l) (seq q n))) = skipn (16 * q) l).
  { induction n as [|n IH]; intros l q L; cbn [seq map concat]; [rewrite skipn_all2 by lia; reflexivity|]. rewrite IH by lia. unfold line. cbn [snd]. replace (16 * Datatypes.S q)%nat with (16 * q + 16)%nat by lia. rewrite <- (skipn_skipn 16 (16 * q) l). apply firstn_skipn. }
  intros n l L. rewrite G by lia. reflexivity.
Qed.
Lemma all_complete l : concat (map snd (all_lines l)) = l.
Proof. apply chunks. pose proof (Nat.div_mod (length l + 15) 16 ltac:(lia)) as D. pose proof (Nat.mod_upper_bound (length l + 15) 16 ltac:(lia)). lia. Qed.
Lemma shown_15 l : (length l mod 16 = 15)%nat -> concat (map snd (shown l)) = firstn (length l - 15) l.
Proof.
  intros M. unfold shown. rewrite (proj2 (Nat.eqb_eq _ _) M). pose proof (Nat.div_mod (length l) 16 ltac:(lia)) as D. set (q := (length l / 16)%nat) in *. rewrite M in D. replace (length l - 15)%nat with (16 * q)%nat by lia.
  rewrite <- (chunks q (firstn (16 * q) l)) by (rewrite firstn_length; lia). f_equal. f_equal. apply map_ext_in. intros k K. apply in_seq in K. unfold line. f_equal. rewrite <- (firstn_skipn (16 * q) l) at 1. rewrite skipn_app, firstn_length. replace (16 * k - Nat.min (16 * q) (length l))%nat with 0%nat by lia. cbn [skipn]. rewrite firstn_app, skipn_length, firstn_length. replace (16 - (Nat.min (16 * q) (length l) - 16 * k))%nat with 0%nat by lia. cbn [firstn]. apply app_nil_r.
Qed.

(** the string reader *)
Lemma mrd_at (a b : list Z) c : mrd (a ++ c :: b) (zlen a) = Ok c.
Proof. unfold mrd, zlen. rewrite app_length. cbn [length]. rewrite (proj2 (Z.leb_le _ _)), (proj2 (Z.ltb_lt _ _)) by lia. cbn [andb]. rewrite Nat2Z.id, app_nth2, Nat.sub_diag by lia. reflexivity. Qed.
Lemma schar_small c : 0 <= c <= 127 -> schar c = c.
Proof. intros C. unfold schar. destruct (c <? 128) eqn:E; lia. Qed.
Lemma str_reads : forall a pre post, Forall (fun c => 0 <= c <= 127) a -> reads (read_str (pre ++ a ++ post) (zlen pre + zlen a)) (Ok (zlen pre)) a (Ok (zlen pre + zlen a)).
Proof.
  induction a as [|c a IH]; intros pre post F.
  - apply Eof. unfold read_str. change (zlen []) with 0. rewrite Z.add_0_r, Z.eqb_refl. reflexivity.
  - inversion F as [|? ? C F']; subst. assert (Z1 : zlen (c :: a) = zlen a + 1) by (unfold zlen; cbn [length]; lia). assert (Z2 : zlen (pre ++ [c]) = zlen pre + 1) by (unfold zlen; rewrite app_length; cbn [length]; lia). assert (ZA : 0 <= zlen a) by (unfold zlen; lia).
    apply (Byte _ _ c (Ok (zlen pre + 1))); [|lia|].
    + unfold read_str. rewrite (proj2 (Z.eqb_neq _ _)) by lia. cbn [app]. rewrite mrd_at. now rewrite schar_small.
    + specialize (IH (pre ++ [c]) post F'). rewrite <- app_assoc in IH. cbn [app] in IH |- *. rewrite Z2 in IH. replace (zlen pre + 1 + zlen a) with (zlen pre + zlen (c :: a)) in IH by lia. exact IH.
Qed.
Lemma str_reads_255 : forall a pre post size, Forall (fun c => 0 <= c <= 127) a -> zlen pre + zlen a < size -> reads (read_str (pre ++ a ++ 255 :: post) size) (Ok (zlen pre)) a (Ok (zlen pre + zlen a + 1)).
Proof.
  induction a as [|c a IH]; intros pre post size F SZ.
  - apply Eof. unfold read_str. change (zlen []) with 0 in *. rewrite (proj2 (Z.eqb_neq _ _)) by lia. cbn [app]. rewrite mrd_at. rewrite Z.add_0_r. reflexivity.
  - inversion F as [|? ? C F']; subst. assert (Z1 : zlen (c :: a) = zlen a + 1) by (unfold zlen; cbn [length]; lia). assert (Z2 : zlen (pre ++ [c]) = zlen pre + 1) by (unfold zlen; rewrite app_length; cbn [length]; lia). assert (ZA : 0 <= zlen a) by (unfold zlen; lia).
    apply (Byte _ _ c (Ok (zlen pre + 1))); [|lia|].
    + unfold read_str. rewrite (proj2 (Z.eqb_neq _ _)) by lia. cbn [app]. rewrite mrd_at. now rewrite schar_small.
    + specialize (IH (pre ++ [c]) post size F' ltac:(lia)). rewrite <- app_assoc in IH. cbn [app] in IH |- *. rewrite Z2 in IH. replace (zlen pre + 1 + zlen a + 1) with (zlen pre + zlen (c :: a) + 1) in IH by lia. exact IH.
Qed.
Lemma mset_cases m i c : (exists m', mset m i c = Ok m') \/ mset m i c = UB.
Proof. unfold mset. destruct (_ && _); [left; eexists; reflexivity|now right]. Qed.
Lemma str_high {T} (output : T -> Z -> option (list Z) -> option (list Z) -> outcome (Z * T)) : (forall t a h x, exists r t', output t a h x = Ok (r, t') /\ r <> -1) ->
  forall a pre post c size d t fuel, Forall (fun c => 0 <= c <= 127) a -> 128 <= c <= 254 -> zlen pre + zlen a < size -> (length a < fuel)%nat ->
  hexdump_loop (read_str (pre ++ a ++ c :: post) size) output fuel d (Ok (zlen pre)) t = UB.
Proof.
  intros OUT. induction a as [|b a IH]; intros pre post c size d t fuel F C SZ LF; (destruct fuel as [|fuel]; [cbn [length] in LF; lia|]); cbn [hexdump_loop]; unfold read_str at 1.
  - change (zlen []) with 0 in *. rewrite (proj2 (Z.eqb_neq _ _)) by lia. cbn [app]. rewrite mrd_at. assert (SC : schar c = c - 256) by (unfold schar; destruct (c <? 128) eqn:E; lia). rewrite SC, (proj2 (Z.eqb_neq (c - 256) (-1))) by lia. set (d1 := if haddr d mod 16 =? 0 then _ else d).
    destruct (mset_cases (hhex d1) (hpos d1) (nth (Z.to_nat (Z.land (Z.shiftr (c - 256) 4) 15)) HEX_DIGITS 0)) as [(m1 & ->)| ->]; [cbn [obind]|reflexivity].
    destruct (mset_cases m1 (hpos d1 + 1) (nth (Z.to_nat (Z.land (c - 256) 15)) HEX_DIGITS 0)) as [(m2 & ->)| ->]; [cbn [obind]|reflexivity].
    destruct (mset_cases m2 (hpos d1 + 2) 32) as [(m3 & ->)| ->]; [cbn [obind]|reflexivity].
    unfold isprint. rewrite (proj2 (Z.leb_gt 0 (c - 256))) by lia. reflexivity.
  - inversion F as [|? ? B F']; subst. assert (Z1 : zlen (b :: a) = zlen a + 1) by (unfold zlen; cbn [length]; lia). assert (Z2 : zlen (pre ++ [b]) = zlen pre + 1) by (unfold zlen; rewrite app_length; cbn [length]; lia). assert (ZA : 0 <= zlen a) by (unfold zlen; lia).
    rewrite (proj2 (Z.eqb_neq _ _)) by lia. cbn [app]. rewrite mrd_at, schar_small by exact B. rewrite (proj2 (Z.eqb_neq b (-1))) by lia. set (d1 := if haddr d mod 16 =? 0 then _ else d).
    destruct (mset_cases (hhex d1) (hpos d1) (nth (Z.to_nat (Z.land (Z.shiftr b 4) 15)) HEX_DIGITS 0)) as [(m1 & ->)| ->]; [cbn [obind]|reflexivity].
    destruct (mset_cases m1 (hpos d1 + 1) (nth (Z.to_nat (Z.land b 15)) HEX_DIGITS 0)) as [(m2 & ->)| ->]; [cbn [obind]|reflexivity].
    destruct (mset_cases m2 (hpos d1 + 2) 32) as [(m3 & ->)| ->]; [cbn [obind]|reflexivity].
    unfold isprint at 1. rewrite (proj2 (Z.leb_le 0 b)), (proj2 (Z.leb_le b 255)) by lia. cbn [andb safe obind].
    destruct (mset_cases (htxt d1) (cpos d1) (if (32 <=? b) && (b <=? 126) then b else 46)) as [(m4 & ->)| ->]; [cbn [obind haddr hline hhex htxt]|reflexivity].
    assert (NX : forall d t, hexdump_loop (read_str (pre ++ b :: a ++ c :: post) size) output fuel d (Ok (zlen pre + 1)) t = UB).
    { intros d' t'. specialize (IH (pre ++ [b]) post c size d' t' fuel F' C ltac:(lia) ltac:(cbn [length] in LF; lia)). rewrite <- app_assoc, Z2 in IH. exact IH. }
    destruct (haddr d1 mod 16 =? 15).
    + destruct (OUT t (hline d1) (Some m3) (Some m4)) as (r & t' & -> & NR). cbn [obind]. rewrite (proj2 (Z.eqb_neq r (-1))) by exact NR. apply NX.
    + cbn [obind Z.eqb]. apply NX.
Qed.
