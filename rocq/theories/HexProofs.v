(** Proofs about HexModel.v. *)
From Coq Require Import Znumtheory.
From Verif Require Import Prelude CstrModel HexModel HexSpec.
Local Open Scope Z_scope.

Lemma all_bytes (P : Z -> bool) : forallb (fun n => P (Z.of_nat n)) (seq 0 256) = true -> forall c, 0 <= c <= 255 -> P c = true.
Proof. intros F c C. rewrite forallb_forall in F. specialize (F (Z.to_nat c)). rewrite Z2Nat.id in F by lia. apply F. apply in_seq. lia. Qed.
Lemma high_digit c : 0 <= c <= 255 -> nth (Z.to_nat (Z.land (Z.shiftr c 4) 15)) HEX_DIGITS 0 = digit (c / 16).
Proof. intros C. apply Z.eqb_eq. revert c C. apply (all_bytes (fun c => nth (Z.to_nat (Z.land (Z.shiftr c 4) 15)) HEX_DIGITS 0 =? digit (c / 16))). vm_compute. reflexivity. Qed.
Lemma low_digit c : 0 <= c <= 255 -> nth (Z.to_nat (Z.land c 15)) HEX_DIGITS 0 = digit (c mod 16).
Proof. intros C. apply Z.eqb_eq. revert c C. apply (all_bytes (fun c => nth (Z.to_nat (Z.land c 15)) HEX_DIGITS 0 =? digit (c mod 16))). vm_compute. reflexivity. Qed.
Lemma mset_at (a b : list Z) x c i : i = zlen a -> mset (a ++ x :: b) i c = Ok (a ++ c :: b).
Proof.
  intros ->. unfold mset, zlen. rewrite app_length. cbn [length]. destruct (_ && _) eqn:E; [|lia]. rewrite Nat2Z.id, upd_app_r by lia. rewrite Nat.sub_diag. reflexivity.
Qed.
Lemma hexcol_app a b : hexcol (a ++ b) = hexcol a ++ hexcol b.
Proof. unfold hexcol. now rewrite map_app, concat_app. Qed.
Lemma hexcol_len ch : length (hexcol ch) = (3 * length ch)%nat.
Proof. unfold hexcol. induction ch as [|c ch IH]; [reflexivity|]. cbn [map concat]. rewrite app_length, IH. cbn [length]. lia. Qed.
Lemma txtcol_len ch : length (txtcol ch) = length ch.
Proof. apply map_length. Qed.

Record inv (pre : list Z) (q r : nat) (d : hd) : Prop := {
  v_len : length pre = (16 * q + r)%nat; v_r : (r < 16)%nat;
  v_bytes : hbytes d = Z.of_nat (length pre) mod 2 ^ 64; v_addr : haddr d = Z.of_nat (length pre) mod 2 ^ 32;
  v_line : r = 0%nat \/ (hline d = Z.of_nat (16 * q) mod 2 ^ 32 /\ hpos d = Z.of_nat (3 * r) /\ cpos d = Z.of_nat r /\ hhex d = hexarr (skipn (16 * q) pre) /\ htxt d = txtarr (skipn (16 * q) pre)) }.
Lemma mod16 n : (Z.of_nat n mod 2 ^ 32) mod 16 = Z.of_nat (n mod 16).
Proof. rewrite Nat2Z.inj_mod. change (Z.of_nat 16) with 16. rewrite <- (Zmod_div_mod 16 (2 ^ 32)); [reflexivity|lia|lia|]. exists 268435456. reflexivity. Qed.
Lemma rem16 q r : (r < 16)%nat -> ((16 * q + r) mod 16 = r)%nat.
Proof. intros L. symmetry. apply (Nat.mod_unique _ _ q); lia. Qed.
Lemma quo16 q r : (r < 16)%nat -> ((16 * q + r) / 16 = q)%nat.
Proof. intros L. symmetry. apply (Nat.div_unique _ _ _ r); lia. Qed.
Lemma addr16 pre q r d : inv pre q r d -> haddr d mod 16 = Z.of_nat r.
Proof. intros [L R _ A _]. rewrite A, L, mod16. now rewrite rem16. Qed.

(** the arrays after the reset at the start of a line *)
Lemma fresh pre q r d : inv pre q r d -> let d1 := if haddr d mod 16 =? 0 then mkhd (hbytes d) (haddr d) (haddr d) 0 0 (repeat 0 17) (repeat 0 51) else d in
  hbytes d1 = hbytes d /\ haddr d1 = haddr d /\ hline d1 = Z.of_nat (16 * q) mod 2 ^ 32 /\ hpos d1 = Z.of_nat (3 * r) /\ cpos d1 = Z.of_nat r /\ hhex d1 = hexarr (skipn (16 * q) pre) /\ htxt d1 = txtarr (skipn (16 * q) pre).
Proof.
  intros V. cbv zeta. pose proof (addr16 _ _ _ _ V) as A16. destruct V as [L R B A [->|(H1 & H2 & H3 & H4 & H5)]].
  - rewrite A16. cbn [Z.of_nat Z.eqb hbytes haddr hline hpos cpos hhex htxt]. split; [reflexivity|]. split; [reflexivity|]. split; [rewrite A, L; now rewrite Nat.add_0_r|]. split; [reflexivity|]. split; [reflexivity|]. rewrite skipn_all2 by lia. split; reflexivity.
  - rewrite A16. destruct (Z.eqb_spec (Z.of_nat r) 0) as [E|E].
    + assert (r = 0%nat) as -> by lia. cbn [hbytes haddr hline hpos cpos hhex htxt]. split; [reflexivity|]. split; [reflexivity|]. split; [rewrite A, L; now rewrite Nat.add_0_r|]. split; [reflexivity|]. split; [reflexivity|]. rewrite skipn_all2 by lia. split; reflexivity.
    + tauto.
Qed.
Lemma hex_put ch c : (length ch < 16)%nat -> 0 <= c <= 255 -> exists h1 h2, mset (hexarr ch) (Z.of_nat (3 * length ch)) (digit (c / 16)) = Ok h1 /\ mset h1 (Z.of_nat (3 * length ch) + 1) (digit (c mod 16)) = Ok h2 /\ mset h2 (Z.of_nat (3 * length ch) + 2) 32 = Ok (hexarr (ch ++ [c])).
Proof.
  intros L C. unfold hexarr. rewrite hexcol_app, app_length. cbn [length]. change (hexcol [c]) with [digit (c / 16); digit (c mod 16); 32].
  assert (E : (51 - 3 * length ch = 3 + (51 - 3 * (length ch + 1)))%nat) by lia. rewrite E. set (k := (51 - 3 * (length ch + 1))%nat). cbn [repeat Nat.add].
  pose proof (hexcol_len ch) as HL.
  exists (hexcol ch ++ digit (c / 16) :: 0 :: 0 :: repeat 0 k), (hexcol ch ++ digit (c / 16) :: digit (c mod 16) :: 0 :: repeat 0 k). split; [apply mset_at; unfold zlen; lia|]. split.
  - change (digit (c / 16) :: 0 :: 0 :: repeat 0 k) with ([digit (c / 16)] ++ 0 :: 0 :: repeat 0 k). rewrite app_assoc. rewrite (mset_at (hexcol ch ++ [digit (c / 16)])) by (unfold zlen; rewrite app_length; cbn [length]; lia). now rewrite <- app_assoc.
  - change (digit (c / 16) :: digit (c mod 16) :: 0 :: repeat 0 k) with ([digit (c / 16); digit (c mod 16)] ++ 0 :: repeat 0 k). rewrite app_assoc. rewrite (mset_at (hexcol ch ++ [digit (c / 16); digit (c mod 16)])) by (unfold zlen; rewrite app_length; cbn [length]; lia). now rewrite <- !app_assoc.
Qed.
Lemma txt_put ch c : (length ch < 16)%nat -> mset (txtarr ch) (Z.of_nat (length ch)) (if (32 <=? c) && (c <=? 126) then c else 46) = Ok (txtarr (ch ++ [c])).
Proof.
  intros L. unfold txtarr. rewrite app_length. cbn [length]. unfold txtcol at 2. rewrite map_app. cbn [map]. fold (txtcol ch). assert (E : (17 - length ch = 1 + (17 - (length ch + 1)))%nat) by lia. rewrite E. cbn [repeat Nat.add].
  rewrite mset_at by (unfold zlen; now rewrite txtcol_len). now rewrite <- app_assoc.
Qed.
Lemma next_mod k n : (Z.of_nat n mod 2 ^ k + 1) mod 2 ^ k = Z.of_nat (Datatypes.S n) mod 2 ^ k.
Proof. rewrite Zplus_mod_idemp_l. f_equal. lia. Qed.

Section H.
Context {S T : Type} (getc : S -> Z * S) (output : T -> Z -> option (list Z) -> option (list Z) -> outcome (Z * T)).
(** what the loop computes, as an outcome of what the callbacks do *)
Lemma loop_ok : forall l pre q r d st st' t fuel, inv pre q r d -> reads getc st l st' -> (length l < fuel)%nat -> exists F, (length (pre ++ l) / 16 = q + F)%nat /\
  match show output t (map (line (pre ++ l)) (seq q F)) with
  | Ok (true, t') => exists d' r', inv (pre ++ l) (q + F) r' d' /\ hexdump_loop getc output fuel d st t = Ok (inl (d', st', t'))
  | Ok (false, t') => exists st2, hexdump_loop getc output fuel d st t = Ok (inr (st2, t'))
  | Abort => hexdump_loop getc output fuel d st t = Abort
  | UB => hexdump_loop getc output fuel d st t = UB
  | Loop => hexdump_loop getc output fuel d st t = Loop
  end.
Proof.
  induction l as [|c l IH]; intros pre q r d st st' t fuel V RD LF; inversion RD as [? ? G|? ? st1 ? ? G C RD1]; subst; (destruct fuel as [|fuel]; [cbn [length] in LF; lia|]); cbn [hexdump_loop]; rewrite G.
  - exists 0%nat. rewrite app_nil_r, Nat.add_0_r. split; [rewrite (v_len _ _ _ _ V); apply quo16, (v_r _ _ _ _ V)|]. cbn [seq map show]. exists d, r. now split.
  - rewrite (proj2 (Z.eqb_neq c (-1))) by lia. pose proof (fresh _ _ _ _ V) as FR. cbv zeta in FR. pose proof (addr16 _ _ _ _ V) as A16. pose proof V as [L R B A _]. set (d1 := if haddr d mod 16 =? 0 then _ else d) in *. destruct FR as (F1 & F2 & F3 & F4 & F5 & F6 & F7). clearbody d1.
    set (ch := skipn (16 * q) pre) in *. assert (LC : length ch = r) by (unfold ch; rewrite skipn_length; lia).
    destruct (hex_put ch c ltac:(lia) C) as (h1 & h2 & P1 & P2 & P3). rewrite LC in *. rewrite high_digit, low_digit by exact C. rewrite F4, F5, F6, F7, P1. cbn [obind]. rewrite P2. cbn [obind]. rewrite P3. cbn [obind].
    unfold isprint. rewrite (proj2 (Z.leb_le 0 c)), (proj2 (Z.leb_le c 255)) by lia. cbn [andb safe obind]. pose proof (txt_put ch c ltac:(lia)) as TX. rewrite LC in TX. rewrite TX. cbn [obind haddr hline hhex htxt hbytes hpos cpos]. rewrite F1, F2, F3, A16.
    assert (W : (pre ++ c :: l) = (pre ++ [c]) ++ l) by (rewrite <- app_assoc; reflexivity). rewrite W.
    assert (SK : skipn (16 * q) (pre ++ [c]) = ch ++ [c]) by (unfold ch; rewrite skipn_app; replace (16 * q - length pre)%nat with 0%nat by lia; reflexivity).
    destruct (Z.eqb_spec (Z.of_nat r) 15) as [E|E].
    + assert (R15 : r = 15%nat) by lia. clear E. set (d2 := fun t' : T => mkhd ((hbytes d + 1) mod 2 ^ 64) ((haddr d + 1) mod 2 ^ 32) (Z.of_nat (16 * q) mod 2 ^ 32) (Z.of_nat (3 * r) + 3) (Z.of_nat r + 1) (txtarr (ch ++ [c])) (hexarr (ch ++ [c]))).
      assert (V2 : forall t', inv (pre ++ [c]) (q + 1) 0 (d2 t')).
      { intros t'. constructor; unfold d2; cbn [hbytes haddr].
        - rewrite app_length. cbn [length]. lia.
        - lia.
        - rewrite B, next_mod, app_length. cbn [length]. do 2 f_equal. lia.
        - rewrite A, next_mod, app_length. cbn [length]. do 2 f_equal. lia.
        - now left. }
      assert (LN : line ((pre ++ [c]) ++ l) q = (Z.of_nat (16 * q) mod 2 ^ 32, ch ++ [c])).
      { unfold line. f_equal. rewrite skipn_app, SK. replace (16 * q - length (pre ++ [c]))%nat with 0%nat by (rewrite app_length; cbn [length]; lia). cbn [skipn]. rewrite firstn_app. rewrite (firstn_all2 (n := 16)) by (rewrite app_length, LC; cbn [length]; lia). replace (16 - length (ch ++ [c]))%nat with 0%nat by (rewrite app_length, LC; cbn [length]; lia). cbn [firstn]. apply app_nil_r. }
      destruct (IH (pre ++ [c]) (q + 1)%nat 0%nat (d2 t) st1 st' t fuel (V2 t) RD1 ltac:(cbn [length] in LF; lia)) as (F0 & DV & _).
      exists (Datatypes.S F0). split; [rewrite DV; lia|]. cbn [seq map]. rewrite LN. cbn [show].
      destruct (output t _ _ _) as [[x t1]| | |]; cbn [obind]; try reflexivity. destruct (x =? -1); [now exists st1|].
      destruct (IH (pre ++ [c]) (q + 1)%nat 0%nat (d2 t1) st1 st' t1 fuel (V2 t1) RD1 ltac:(cbn [length] in LF; lia)) as (F0' & DV' & HH). assert (F0' = F0) as -> by lia.
      replace (q + Datatypes.S F0)%nat with (q + 1 + F0)%nat by lia. replace (Datatypes.S q) with (q + 1)%nat by lia. exact HH.
    + assert (V2 : inv (pre ++ [c]) q (r + 1) (mkhd ((hbytes d + 1) mod 2 ^ 64) ((haddr d + 1) mod 2 ^ 32) (Z.of_nat (16 * q) mod 2 ^ 32) (Z.of_nat (3 * r) + 3) (Z.of_nat r + 1) (txtarr (ch ++ [c])) (hexarr (ch ++ [c])))).
      { constructor; cbn [hbytes haddr hline hpos cpos hhex htxt].
        - rewrite app_length. cbn [length]. lia.
        - lia.
        - rewrite B, next_mod, app_length. cbn [length]. do 2 f_equal. lia.
        - rewrite A, next_mod, app_length. cbn [length]. do 2 f_equal. lia.
        - right. rewrite SK. split; [reflexivity|]. split; [lia|]. split; [lia|]. split; reflexivity. }
      cbn [obind Z.eqb]. exact (IH _ _ _ _ _ _ t fuel V2 RD1 ltac:(cbn [length] in LF; lia)).
Qed.

Lemma show_app : forall a b t, show output t (a ++ b) = (x <- show output t a ;; let '(ok, t) := x in if ok then show output t b else Ok (false, t)).
Proof. induction a as [|[ad ch] a IH]; intros b t; cbn [app show]; [reflexivity|]. destruct (output t _ _ _) as [[x t1]| | |]; cbn [obind]; try reflexivity. destruct (x =? -1); [reflexivity|]. apply IH. Qed.

Theorem hexdump_ok : forall l st st' t jt jh fuel, reads getc st l st' -> (length l < fuel)%nat ->
  match show output t (shown l) with
  | Ok (true, t') => zt_hexdump getc output fuel jt jh st t = (' (_, t') <- output t' 0 None None ;; Ok (Z.of_nat (length l) mod 2 ^ 64, st', t'))
  | Ok (false, t') => exists st2, zt_hexdump getc output fuel jt jh st t = Ok (2 ^ 64 - 1, st2, t')
  | Abort => zt_hexdump getc output fuel jt jh st t = Abort
  | UB => zt_hexdump getc output fuel jt jh st t = UB
  | Loop => zt_hexdump getc output fuel jt jh st t = Loop
  end.
Proof.
  intros l st st' t jt jh fuel RD LF. assert (V : inv [] 0 0 (mkhd 0 0 0 0 0 jt jh)) by (constructor; cbn; try reflexivity; [lia|now left]).
  destruct (loop_ok l [] 0 0 _ st st' t fuel V RD LF) as (F & DV & H). cbn [app Nat.add] in *. unfold zt_hexdump.
  assert (SH : exists r, length l = (16 * F + r)%nat /\ (r < 16)%nat /\ shown l = map (line l) (seq 0 F) ++ (if (r =? 0)%nat || (r =? 15)%nat then [] else [line l F])).
  { exists (length l mod 16)%nat. pose proof (Nat.div_mod (length l) 16 ltac:(lia)) as DM. pose proof (Nat.mod_upper_bound (length l) 16 ltac:(lia)) as UBD. rewrite DV in DM. split; [exact DM|]. split; [exact UBD|]. unfold shown. rewrite DV. destruct (Nat.eqb_spec (length l mod 16) 15) as [E|E]; [rewrite orb_true_r; now rewrite app_nil_r|].
    rewrite orb_false_r. unfold all_lines. destruct (Nat.eqb_spec (length l mod 16) 0) as [E0|E0].
    - replace ((length l + 15) / 16)%nat with F; [now rewrite app_nil_r|]. apply (Nat.div_unique _ _ _ 15); lia.
    - replace ((length l + 15) / 16)%nat with (F + 1)%nat; [now rewrite seq_app, map_app|]. apply (Nat.div_unique _ _ _ (length l mod 16 - 1)); lia. }
  destruct SH as (r & LR & RL & SH). rewrite SH, show_app. destruct (show output t (map (line l) (seq 0 F))) as [[ok t1]| | |]; cbn [obind]; try (rewrite H; reflexivity).
  destruct ok; [|destruct H as (st2 & H); rewrite H; cbn [obind]; now exists st2].
  destruct H as (d' & r' & V' & H). assert (r' = r) as -> by (pose proof (v_len _ _ _ _ V'); lia). rewrite H. cbn [obind]. rewrite (addr16 _ _ _ _ V').
  destruct (Nat.eqb_spec r 0) as [->|N0]; [cbn [orb show Z.of_nat Z.eqb negb andb obind]; rewrite (v_bytes _ _ _ _ V'); reflexivity|]. destruct (Nat.eqb_spec r 15) as [->|N15]; [cbn [orb show]; change (Z.of_nat 15 =? 15) with true; cbn [negb andb obind Z.eqb]; rewrite (v_bytes _ _ _ _ V'); reflexivity|].
  rewrite (proj2 (Z.eqb_neq (Z.of_nat r) 15)), (proj2 (Z.eqb_neq (Z.of_nat r) 0)) by lia. cbn [orb negb andb].
  destruct (v_line _ _ _ _ V') as [|(H1 & H2 & H3 & H4 & H5)]; [contradiction|]. rewrite H1, H4, H5. unfold line. rewrite (firstn_all2 (n := 16)) by (rewrite skipn_length; lia). cbn [show].
  destruct (output t1 _ _ _) as [[x t2]| | |]; cbn [obind]; try reflexivity. destruct (x =? -1); [now exists st'|]. rewrite (v_bytes _ _ _ _ V'). reflexivity.
Qed.
End H.
