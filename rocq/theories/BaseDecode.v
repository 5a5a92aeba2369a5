From Verif Require Import BaseModel BaseSpec BaseBits BaseProofs.
Open Scope Z_scope.

Lemma dict_cases : forall d, In d shipped -> forall c, 0 <= c < 256 ->
  match index_of (alphabet d) c 0 with
  | Some v => dict d c = Ok v /\ 0 <= v < 2 ^ Z.of_nat (obits d)
  | None => (ignored c /\ dict d c = Ok (-2)) \/ (~ ignored c /\ dict d c = Ok (-1))
  end.
Proof.
  assert (G : forallb (fun d => forallb (fun c =>
     match index_of (alphabet d) c 0, dict d c with
     | Some v, Ok v' => (v =? v') && (0 <=? v) && (v <? 2 ^ Z.of_nat (obits d))
     | None, Ok v' => if existsb (Z.eqb c) [9; 10; 13; 32; 61] then v' =? -2 else v' =? -1
     | _, _ => false end) (zr 256)) shipped = true) by (vm_compute; reflexivity).
  rewrite forallb_forall in G. intros d Hd c Hc. specialize (G d Hd).
  pose proof (sweep1 _ _ G c Hc) as K. cbv beta in K.
  destruct (index_of (alphabet d) c 0) as [v|]; destruct (dict d c) as [v'| | |]; try discriminate K.
  - rewrite !andb_true_iff, Z.eqb_eq, Z.leb_le, Z.ltb_lt in K. destruct K as ((-> & A) & B). auto.
  - destruct (existsb (Z.eqb c) [9; 10; 13; 32; 61]) eqn:X; apply Z.eqb_eq in K; subst v'.
    + left. split; [|reflexivity]. apply existsb_exists in X. destruct X as (y & Hy & Ey). apply Z.eqb_eq in Ey.
      subst y. exact Hy.
    + right. split; [|reflexivity]. intros I. assert (existsb (Z.eqb c) [9; 10; 13; 32; 61] = true); [|congruence].
      apply existsb_exists. exists c. split; [exact I|apply Z.eqb_refl].
Qed.

Lemma index_of_In l c : forall i, (exists v, index_of l c i = Some v) <-> In c l.
Proof.
  induction l as [|x l IH]; intros i; cbn [index_of In].
  - split; [intros [v H]; discriminate|contradiction].
  - destruct (Z.eqb_spec c x) as [->|N].
    + split; eauto.
    + rewrite IH. split; [auto|intros [H|H]; [congruence|exact H]].
Qed.
Lemma index_of_none l c i : index_of l c i = None <-> ~ In c l.
Proof.
  rewrite <- (index_of_In l c i). destruct (index_of l c i) as [v|]; split; intros H; try discriminate.
  - exfalso. apply H. eauto.
  - intros [v E]. discriminate.
  - reflexivity.
Qed.

(** A text character is acceptable. *)
Definition acceptable (d : base_def) (c : Z) : Prop := In c (alphabet d) \/ ignored c.

Fixpoint dd (d : base_def) (ds buf out : list Z) : list Z * list Z :=
  match ds with
  | [] => (buf, out)
  | v :: r =>
      if (length (buf ++ [v]) =? bufsize d)%nat then dd d r [] (out ++ full_out d (buf ++ [v]))
      else dd d r (buf ++ [v]) out
  end.

Lemma digit_vals_cons d c txt : digit_vals d (c :: txt) =
  match index_of (alphabet d) c 0 with Some v => v :: digit_vals d txt | None => digit_vals d txt end.
Proof. unfold digit_vals. cbn [flat_map]. destruct (index_of (alphabet d) c 0); reflexivity. Qed.

Lemma dec_loop_app d : In d shipped -> forall pre post buf out,
  bytes pre -> Forall (acceptable d) pre ->
  dec_loop d (pre ++ post) buf out =
  dec_loop d post (fst (dd d (digit_vals d pre) buf out)) (snd (dd d (digit_vals d pre) buf out)).
Proof.
  intros Hd. induction pre as [|c pre IH]; intros post buf out Hb Ha.
  - reflexivity.
  - apply Forall_cons_iff in Hb. destruct Hb as [Hc Hb]. apply Forall_cons_iff in Ha. destruct Ha as [Ac Ha].
    cbn [app dec_loop]. rewrite digit_vals_cons. pose proof (dict_cases d Hd c Hc) as K.
    destruct (index_of (alphabet d) c 0) as [v|] eqn:E.
    + destruct K as [-> V]. cbn [obind]. destruct (Z.leb_spec 0 v); [|lia]. cbn [dd].
      destruct (length (buf ++ [v]) =? bufsize d)%nat; now apply IH.
    + destruct K as [[_ ->]|[N _]].
      * cbn [obind]. change (0 <=? -2) with false. change (-2 =? -1) with false. cbv iota. now apply IH.
      * exfalso. apply index_of_none in E. destruct Ac; contradiction.
Qed.

Lemma dec_loop_bad d c post buf out : In d shipped -> 0 <= c < 256 -> ~ acceptable d c ->
  dec_loop d (c :: post) buf out = Ok (inl out).
Proof.
  intros Hd Hc Ha. cbn [dec_loop]. pose proof (dict_cases d Hd c Hc) as K.
  destruct (index_of (alphabet d) c 0) as [v|] eqn:E.
  - exfalso. apply Ha. left. apply (index_of_In _ _ 0). eauto.
  - destruct K as [[I _]|[_ ->]]; [exfalso; apply Ha; now right|]. reflexivity.
Qed.

Lemma bufsize_shape d : In d shipped -> bufsize d = ogroups d.
Proof.
  intros Hd. unfold bufsize.
  destruct (shipped_shape d Hd) as (_ & _ & [(-> & _ & _ & ->)|[(-> & _ & _ & -> & _)|(-> & _ & _ & ->)]]); reflexivity.
Qed.

Lemma dd_short d : forall ds buf out, (length (buf ++ ds) < bufsize d)%nat -> dd d ds buf out = (buf ++ ds, out).
Proof.
  induction ds as [|v ds IH]; intros buf out H; cbn [dd].
  - now rewrite app_nil_r.
  - rewrite app_length in H. cbn [length] in H.
    destruct (Nat.eqb_spec (length (buf ++ [v])) (bufsize d)) as [E|E].
    + rewrite app_length in E. cbn [length] in E. lia.
    + rewrite IH; rewrite <- app_assoc; [reflexivity|]. rewrite app_length. cbn [length app]. lia.
Qed.
Lemma dd_group d g : forall rest buf out, (0 < bufsize d)%nat -> g <> [] -> length (buf ++ g) = bufsize d ->
  dd d (g ++ rest) buf out = dd d rest [] (out ++ full_out d (buf ++ g)).
Proof.
  induction g as [|v g IH]; intros rest buf out Hbs Hg H; [congruence|]. cbn [app dd].
  rewrite app_length in H. cbn [length] in H.
  destruct (Nat.eqb_spec (length (buf ++ [v])) (bufsize d)) as [E|E]; rewrite app_length in E; cbn [length] in E.
  - assert (g = []) by (destruct g; [reflexivity|cbn [length] in H; lia]). subst g. reflexivity.
  - rewrite IH; [rewrite <- app_assoc; reflexivity|exact Hbs| |].
    + intros ->. cbn [length] in H. lia.
    + rewrite !app_length. cbn [length]. lia.
Qed.

Lemma digit_range d txt : In d shipped -> bytes txt -> Forall (fun v => 0 <= v < 2 ^ Z.of_nat (obits d)) (digit_vals d txt).
Proof.
  intros Hd. induction txt as [|c txt IH]; intros Hb; [constructor|].
  apply Forall_cons_iff in Hb. destruct Hb as [Hc Hb]. rewrite digit_vals_cons.
  pose proof (dict_cases d Hd c Hc) as K. destruct (index_of (alphabet d) c 0) as [v|].
  - constructor; [tauto|now apply IH].
  - now apply IH.
Qed.

(** ** Decoding digits: blocks *)
Ltac byte8 := match goal with |- context[bytes_of_bits (?a :: ?b :: ?c :: ?d :: ?e :: ?f :: ?g :: ?h :: ?x)] =>
  change (bytes_of_bits (a :: b :: c :: d :: e :: f :: g :: h :: x)) with (bytes_of_bits ([a; b; c; d; e; f; g; h] ++ x));
  rewrite (bytes_of_bits_cons [a; b; c; d; e; f; g; h] x) by reflexivity end.

Lemma und64_group a b c e r : 0 <= a < 64 -> 0 <= b < 64 -> 0 <= c < 64 -> 0 <= e < 64 ->
  undigits 6 (a :: b :: c :: e :: r) = out64 a b c e ++ undigits 6 r.
Proof.
  intros Ha Hb Hc He. unfold undigits. cbn [flat_map tobits app].
  set (x := flat_map (tobits 6) r). do 3 byte8. unfold out64. cbn [app].
  repeat apply cons_eq; [sw2 64%nat a Ha b Hb | sw2 64%nat b Hb c Hc | sw2 64%nat c Hc e He | reflexivity].
Qed.
Lemma und64_2 a b : 0 <= a < 64 -> 0 <= b < 64 -> undigits 6 [a; b] = firstn 1 (out64 a b 0 0).
Proof.
  intros Ha Hb. unfold undigits. cbn [flat_map tobits app]. byte8.
  rewrite bytes_of_bits_short by (cbn; lia). unfold out64. cbn [firstn]. f_equal. sw2 64%nat a Ha b Hb.
Qed.
Lemma und64_3 a b c : 0 <= a < 64 -> 0 <= b < 64 -> 0 <= c < 64 -> undigits 6 [a; b; c] = firstn 2 (out64 a b c 0).
Proof.
  intros Ha Hb Hc. unfold undigits. cbn [flat_map tobits app]. do 2 byte8.
  rewrite bytes_of_bits_short by (cbn; lia). unfold out64. cbn [firstn].
  repeat apply cons_eq; [sw2 64%nat a Ha b Hb | sw2 64%nat b Hb c Hc | reflexivity].
Qed.

Lemma und32_group a b c e f g h i r : 0 <= a < 32 -> 0 <= b < 32 -> 0 <= c < 32 -> 0 <= e < 32 ->
  0 <= f < 32 -> 0 <= g < 32 -> 0 <= h < 32 -> 0 <= i < 32 ->
  undigits 5 (a :: b :: c :: e :: f :: g :: h :: i :: r) = out32 a b c e f g h i ++ undigits 5 r.
Proof.
  intros Ha Hb Hc He Hf Hg Hh Hi. unfold undigits. cbn [flat_map tobits app].
  set (x := flat_map (tobits 5) r). do 5 byte8. unfold out32. cbn [app].
  repeat apply cons_eq; [sw2 32%nat a Ha b Hb | sw3 32%nat b Hb c Hc e He | sw2 32%nat e He f Hf
    | sw3 32%nat f Hf g Hg h Hh | sw2 32%nat h Hh i Hi | reflexivity].
Qed.
Lemma und32_2 a b : 0 <= a < 32 -> 0 <= b < 32 -> undigits 5 [a; b] = firstn 1 (out32 a b 0 0 0 0 0 0).
Proof.
  intros Ha Hb. unfold undigits. cbn [flat_map tobits app]. byte8.
  rewrite bytes_of_bits_short by (cbn; lia). unfold out32. cbn [firstn]. f_equal. sw2 32%nat a Ha b Hb.
Qed.
Lemma und32_4 a b c e : 0 <= a < 32 -> 0 <= b < 32 -> 0 <= c < 32 -> 0 <= e < 32 ->
  undigits 5 [a; b; c; e] = firstn 2 (out32 a b c e 0 0 0 0).
Proof.
  intros Ha Hb Hc He. unfold undigits. cbn [flat_map tobits app]. do 2 byte8.
  rewrite bytes_of_bits_short by (cbn; lia). unfold out32. cbn [firstn].
  repeat apply cons_eq; [sw2 32%nat a Ha b Hb | sw3 32%nat b Hb c Hc e He | reflexivity].
Qed.
Lemma und32_5 a b c e f : 0 <= a < 32 -> 0 <= b < 32 -> 0 <= c < 32 -> 0 <= e < 32 -> 0 <= f < 32 ->
  undigits 5 [a; b; c; e; f] = firstn 3 (out32 a b c e f 0 0 0).
Proof.
  intros Ha Hb Hc He Hf. unfold undigits. cbn [flat_map tobits app]. do 3 byte8.
  rewrite bytes_of_bits_short by (cbn; lia). unfold out32. cbn [firstn].
  repeat apply cons_eq; [sw2 32%nat a Ha b Hb | sw3 32%nat b Hb c Hc e He | sw2 32%nat e He f Hf | reflexivity].
Qed.
Lemma und32_7 a b c e f g h : 0 <= a < 32 -> 0 <= b < 32 -> 0 <= c < 32 -> 0 <= e < 32 -> 0 <= f < 32 ->
  0 <= g < 32 -> 0 <= h < 32 ->
  undigits 5 [a; b; c; e; f; g; h] = firstn 4 (out32 a b c e f g h 0).
Proof.
  intros Ha Hb Hc He Hf Hg Hh. unfold undigits. cbn [flat_map tobits app]. do 4 byte8.
  rewrite bytes_of_bits_short by (cbn; lia). unfold out32. cbn [firstn].
  repeat apply cons_eq; [sw2 32%nat a Ha b Hb | sw3 32%nat b Hb c Hc e He | sw2 32%nat e He f Hf
    | sw3 32%nat f Hf g Hg h Hh | reflexivity].
Qed.
Lemma und16_group a b r : 0 <= a < 16 -> 0 <= b < 16 -> undigits 4 (a :: b :: r) = out16 a b ++ undigits 4 r.
Proof.
  intros Ha Hb. unfold undigits. cbn [flat_map tobits app]. byte8. unfold out16. cbn [app].
  apply cons_eq; [|reflexivity]. sw2 16%nat a Ha b Hb.
Qed.

Ltac fsplit H := let A := fresh "R" in apply Forall_cons_iff in H; destruct H as [A H].

Lemma full_group d g r : In d shipped -> length g = bufsize d ->
  Forall (fun v => 0 <= v < 2 ^ Z.of_nat (obits d)) g ->
  undigits (obits d) (g ++ r) = full_out d g ++ undigits (obits d) r /\ length (full_out d g) = igroups d.
Proof.
  intros Hd Hl Hr. rewrite bufsize_shape in Hl by exact Hd. unfold full_out.
  destruct (shipped_shape d Hd) as (_ & _ & [(Hba & Ho & Hig & Hog)|[(Hba & Ho & Hig & Hog & Hwp)|(Hba & Ho & Hig & Hog)]]);
    rewrite Hba, Ho, Hig in *; rewrite Hog in Hl.
  - destruct g as [|a [|b [|c [|e [|? ?]]]]]; try discriminate Hl. do 4 fsplit Hr. unfold bget. cbn [nth app].
    split; [apply und64_group; assumption|reflexivity].
  - destruct g as [|a [|b [|c [|e [|f [|x [|h [|i [|? ?]]]]]]]]]; try discriminate Hl. do 8 fsplit Hr.
    unfold bget. cbn [nth app].
    split; [apply und32_group; assumption|reflexivity].
  - destruct g as [|a [|b [|? ?]]]; try discriminate Hl. do 2 fsplit Hr. unfold bget. cbn [nth app].
    split; [apply und16_group; assumption|reflexivity].
Qed.

(** Which left-over digit counts are refused. *)
Definition rejected (d : base_def) (n : nat) : bool :=
  match base d with
  | 64%nat => (n =? 1)%nat
  | 32%nat => (n =? 1)%nat || (n =? 3)%nat || (n =? 6)%nat
  | _ => false
  end.

Lemma tail_end d t out : In d shipped -> (length t < bufsize d)%nat ->
  Forall (fun v => 0 <= v < 2 ^ Z.of_nat (obits d)) t ->
  if rejected d (length t) then
    exists ob, dec_end d t out = (-1, out, ob)
  else dec_end d t out = (0, out ++ undigits (obits d) t, Some (length (out ++ undigits (obits d) t))).
Proof.
  intros Hd Hl Hr. rewrite bufsize_shape in Hl by exact Hd. unfold rejected, dec_end.
  destruct (shipped_shape d Hd) as (_ & _ & [(Hba & Ho & Hig & Hog)|[(Hba & Ho & Hig & Hog & Hwp)|(Hba & Ho & Hig & Hog)]]);
    rewrite Hba, Ho in *; rewrite Hog in Hl.
  - destruct t as [|a [|b [|c [|e t]]]]; try (cbn [length] in Hl; lia); cbn [length Nat.eqb]; unfold dec64_end; cbn [length].
    + unfold undigits, bytes_of_bits. cbn. now rewrite app_nil_r.
    + eauto.
    + do 2 fsplit Hr. rewrite und64_2 by assumption. rewrite app_length. reflexivity.
    + do 3 fsplit Hr. rewrite und64_3 by assumption. rewrite app_length. reflexivity.
  - destruct t as [|a [|b [|c [|e [|f [|x [|h [|i t]]]]]]]]; try (cbn [length] in Hl; lia); cbn [length Nat.eqb orb]; unfold dec32_end; cbn [length].
    + unfold undigits, bytes_of_bits. cbn. now rewrite app_nil_r.
    + eauto.
    + do 2 fsplit Hr. rewrite und32_2 by assumption. rewrite app_length. reflexivity.
    + eauto.
    + do 4 fsplit Hr. rewrite und32_4 by assumption. rewrite app_length. reflexivity.
    + do 5 fsplit Hr. rewrite und32_5 by assumption. rewrite app_length. reflexivity.
    + eauto.
    + do 7 fsplit Hr. rewrite und32_7 by assumption. rewrite app_length. reflexivity.
  - unfold dec16_end. destruct t as [|a [|b t]]; try (cbn [length] in Hl; lia).
    + unfold undigits, bytes_of_bits. cbn. now rewrite app_nil_r.
    + unfold undigits. cbn [flat_map tobits app]. rewrite bytes_of_bits_short by (cbn; lia). now rewrite app_nil_r.
Qed.

(** Result of running the digit machine over any digit string. *)
Lemma dd_result d : In d shipped -> forall n ds out, (length ds <= n)%nat ->
  Forall (fun v => 0 <= v < 2 ^ Z.of_nat (obits d)) ds ->
  exists t w, dd d ds [] out = (t, out ++ w) /\ (length t = length ds mod ogroups d)%nat /\
    Forall (fun v => 0 <= v < 2 ^ Z.of_nat (obits d)) t /\
    length w = (igroups d * (length ds / ogroups d))%nat /\
    undigits (obits d) ds = w ++ undigits (obits d) t.
Proof.
  intros Hd. pose proof (bufsize_shape d Hd) as Hbs.
  assert (Hpos : (0 < ogroups d)%nat).
  { destruct (shipped_shape d Hd) as (_ & _ & [(_ & _ & _ & ->)|[(_ & _ & _ & -> & _)|(_ & _ & _ & ->)]]); lia. }
  induction n as [|n IH]; intros ds out Hn Hr.
  - destruct ds; [|cbn [length] in Hn; lia]. exists [], []. cbn [dd length app].
    rewrite app_nil_r, Nat.mod_0_l, Nat.div_0_l by lia. rewrite Nat.mul_0_r. auto.
  - destruct (le_lt_dec (ogroups d) (length ds)) as [L|L].
    + destruct (split_n (ogroups d) ds L) as (g & r & -> & Hg).
      apply Forall_app in Hr. destruct Hr as [Rg Rr]. rewrite app_length in Hn.
      rewrite dd_group; [|lia|intros ->; cbn [length] in Hg; lia|cbn [app]; lia]. cbn [app].
      destruct (full_group d g r Hd ltac:(lia) Rg) as [Eu El].
      destruct (IH r (out ++ full_out d g) ltac:(lia) Rr) as (t & w & E1 & E2 & E3 & E4 & E5).
      exists t, (full_out d g ++ w). rewrite E1, <- app_assoc. split; [reflexivity|].
      rewrite !app_length, Hg, El, E4. split; [|split; [exact E3|split]].
      * rewrite E2. rewrite <- (Nat.mod_add (length r) 1 (ogroups d)) by lia. f_equal. lia.
      * replace ((ogroups d + length r) / ogroups d)%nat with (1 + length r / ogroups d)%nat; [lia|].
        replace (ogroups d + length r)%nat with (length r + 1 * ogroups d)%nat by lia. rewrite Nat.div_add by lia. lia.
      * rewrite Eu, E5, app_assoc. reflexivity.
    + exists ds, []. rewrite dd_short by (cbn [app]; lia). rewrite app_nil_r.
      rewrite Nat.mod_small, Nat.div_small by lia. rewrite Nat.mul_0_r. auto.
Qed.

Lemma undigits_length k ds : length (undigits k ds) = (k * length ds / 8)%nat.
Proof.
  unfold undigits. rewrite <- flat_tobits_length. set (l := flat_map (tobits k) ds).
  assert (G : forall n (l : list bool), (length l <= n)%nat -> length (bytes_of_bits l) = (length l / 8)%nat).
  { clear. induction n as [|n IH]; intros l H.
    - destruct l; [reflexivity|cbn [length] in H; lia].
    - destruct (le_lt_dec 8 (length l)) as [L|L].
      + destruct (split_n 8 l L) as (c & r & -> & Hc). rewrite bytes_of_bits_cons by exact Hc.
        rewrite app_length in *. cbn [length]. rewrite IH by lia. rewrite Hc.
        replace (8 + length r)%nat with (length r + 1 * 8)%nat by lia. rewrite Nat.div_add by lia. lia.
      + rewrite bytes_of_bits_short by exact L. rewrite Nat.div_small by exact L. reflexivity. }
  now apply (G (length l)).
Qed.

(** ** decode_core on every text *)
Lemma split_at_bad d (txt : list Z) : (forall c, {acceptable d c} + {~ acceptable d c}) ->
  Forall (acceptable d) txt \/ exists pre c post, txt = pre ++ c :: post /\ Forall (acceptable d) pre /\ ~ acceptable d c.
Proof.
  intros dec. induction txt as [|c txt IH]; [left; constructor|].
  destruct (dec c) as [A|A].
  - destruct IH as [H|(pre & x & post & -> & Hp & Hx)].
    + left. now constructor.
    + right. exists (c :: pre), x, post. split; [reflexivity|]. split; [now constructor|exact Hx].
  - right. exists [], c, txt. auto.
Qed.
Lemma acceptable_dec d c : {acceptable d c} + {~ acceptable d c}.
Proof.
  unfold acceptable, ignored. destruct (in_dec Z.eq_dec c (alphabet d)); [left; auto|].
  destruct (in_dec Z.eq_dec c [9; 10; 13; 32; 61]); [left; auto|right; tauto].
Qed.

Lemma decode_valid d txt : In d shipped -> bytes txt -> Forall (acceptable d) txt ->
  let ds := digit_vals d txt in
  if rejected d (length ds mod ogroups d) then
    exists w ob, decode_core d txt = Ok (-1, w, ob) /\ (length w <= obits d * length ds / 8)%nat
  else decode_core d txt = Ok (0, undigits (obits d) ds, Some (length (undigits (obits d) ds))).
Proof.
  intros Hd Hb Ha ds. unfold decode_core.
  pose proof (dec_loop_app d Hd txt [] [] [] Hb Ha) as E. rewrite app_nil_r in E. rewrite E. clear E.
  cbn [dec_loop obind]. fold ds.
  destruct (dd_result d Hd (length ds) ds [] (Nat.le_refl _) (digit_range d txt Hd Hb)) as (t & w & E1 & E2 & E3 & E4 & E5).
  rewrite E1. cbn [fst snd app]. rewrite <- E2.
  assert (Hlt : (length t < bufsize d)%nat).
  { rewrite E2, bufsize_shape by exact Hd. apply Nat.mod_upper_bound.
    destruct (shipped_shape d Hd) as (_ & _ & [(_ & _ & _ & ->)|[(_ & _ & _ & -> & _)|(_ & _ & _ & ->)]]); lia. }
  pose proof (tail_end d t w Hd Hlt E3) as T. destruct (rejected d (length t)).
  - destruct T as [ob ->]. exists w, ob. split; [reflexivity|].
    rewrite <- undigits_length, E5, app_length. lia.
  - rewrite T, E5. reflexivity.
Qed.

Lemma decode_bad d pre c post : In d shipped -> bytes (pre ++ c :: post) -> Forall (acceptable d) pre -> ~ acceptable d c ->
  exists w, decode_core d (pre ++ c :: post) = Ok (-1, w, None) /\ (length w <= obits d * length (digit_vals d pre) / 8)%nat.
Proof.
  intros Hd Hb Ha Hc. apply Forall_app in Hb. destruct Hb as [Hb Hb2]. apply Forall_cons_iff in Hb2. destruct Hb2 as [B _].
  unfold decode_core. rewrite dec_loop_app by assumption. rewrite dec_loop_bad by assumption. cbn [obind].
  set (ds := digit_vals d pre).
  destruct (dd_result d Hd (length ds) ds [] (Nat.le_refl _) (digit_range d pre Hd Hb)) as (t & w & E1 & E2 & E3 & E4 & E5).
  rewrite E1. cbn [snd app]. exists w. split; [reflexivity|]. rewrite <- undigits_length, E5, app_length. lia.
Qed.

(** ** The announced size is enough *)
Lemma strip_spec d inp : padc d = 61 -> forall j,
  (j <= length inp - 1)%nat ->
  (forall p, (j < p < length inp)%nat -> nth p inp 0 = 61) ->
  (strip_loop d inp j <= length inp - 1)%nat /\
  forall p, (length inp - strip_loop d inp j <= p < length inp)%nat -> nth p inp 0 = 61.
Proof.
  intros Hp. induction j as [|j IH]; intros Hj H; cbn [strip_loop].
  - split; [lia|]. intros p Hpp. lia.
  - rewrite Hp. destruct (Z.eqb_spec (nth (S j) inp 0) 61) as [E|E]; cbn [negb].
    + apply IH; [lia|]. intros p Hpp. destruct (Nat.eq_dec p (S j)) as [->|]; [exact E|apply H; lia].
    + split; [lia|]. intros p Hpp. apply H. lia.
Qed.

Lemma pad_not_digit d : In d shipped -> index_of (alphabet d) 61 0 = None.
Proof.
  intros H. unfold shipped in H. cbn [In] in H. repeat (destruct H as [<-|H]; [vm_compute; reflexivity|]). contradiction.
Qed.

Lemma digit_vals_app d a b : digit_vals d (a ++ b) = digit_vals d a ++ digit_vals d b.
Proof. unfold digit_vals. apply flat_map_app. Qed.
Lemma digit_vals_le d a : (length (digit_vals d a) <= length a)%nat.
Proof.
  induction a as [|c a IH]; [cbn; lia|]. rewrite digit_vals_cons. destruct (index_of (alphabet d) c 0); cbn [length]; lia.
Qed.
Lemma digit_vals_pads d l : In d shipped -> (forall p, (p < length l)%nat -> nth p l 0 = 61) -> digit_vals d l = [].
Proof.
  intros Hd. induction l as [|c l IH]; intros H; [reflexivity|]. rewrite digit_vals_cons.
  pose proof (H 0%nat ltac:(cbn [length]; lia)) as E. cbn [nth] in E. subst c. rewrite pad_not_digit by exact Hd.
  apply IH. intros p Hp. apply (H (S p)). cbn [length]. lia.
Qed.

Lemma size_arith d m n : In d shipped -> (n <= m)%nat ->
  (obits d * n / 8 <= m / ogroups d * igroups d + m mod ogroups d)%nat.
Proof.
  intros Hd H.
  destruct (shipped_shape d Hd) as (_ & _ & [(_ & -> & -> & ->)|[(_ & -> & -> & -> & _)|(_ & -> & -> & ->)]]).
  - apply Nat.le_trans with (6 * m / 8)%nat; [apply Nat.div_le_mono; lia|].
    pose proof (Nat.div_mod m 4 ltac:(lia)). pose proof (Nat.mod_upper_bound m 4 ltac:(lia)).
    apply Nat.lt_succ_r. apply Nat.div_lt_upper_bound; lia.
  - apply Nat.le_trans with (5 * m / 8)%nat; [apply Nat.div_le_mono; lia|].
    pose proof (Nat.div_mod m 8 ltac:(lia)). pose proof (Nat.mod_upper_bound m 8 ltac:(lia)).
    apply Nat.lt_succ_r. apply Nat.div_lt_upper_bound; lia.
  - apply Nat.le_trans with (4 * m / 8)%nat; [apply Nat.div_le_mono; lia|].
    pose proof (Nat.div_mod m 2 ltac:(lia)). pose proof (Nat.mod_upper_bound m 2 ltac:(lia)).
    apply Nat.lt_succ_r. apply Nat.div_lt_upper_bound; lia.
Qed.

Lemma size_enough d inp : In d shipped -> (obits d * length (digit_vals d inp) / 8 <= dec_size d inp)%nat.
Proof.
  intros Hd. unfold dec_size. destruct (shipped_shape d Hd) as (Hpad & _ & _).
  destruct (strip_spec d inp Hpad (length inp - 1) (Nat.le_refl _)) as [S1 S2]; [intros; lia|].
  set (i := strip_loop d inp (length inp - 1)) in *.
  apply size_arith; [exact Hd|].
  rewrite <- (firstn_skipn (length inp - i) inp) at 1. rewrite digit_vals_app, app_length.
  rewrite (digit_vals_pads d (skipn (length inp - i) inp) Hd).
  - pose proof (digit_vals_le d (firstn (length inp - i) inp)) as L. rewrite firstn_length in L. cbn [length]. lia.
  - intros p Hp. rewrite skipn_length in Hp.
    rewrite <- (S2 (length inp - i + p)%nat ltac:(lia)).
    pose proof (app_nth2 (firstn (length inp - i) inp) (skipn (length inp - i) inp) 0 (n := (length inp - i + p)%nat)) as N.
    rewrite firstn_skipn, firstn_length in N. rewrite N by lia. f_equal. lia.
Qed.

Lemma decode_core_total d txt : In d shipped -> bytes txt ->
  exists rc w ob, decode_core d txt = Ok (rc, w, ob) /\ (length w <= dec_size d txt)%nat.
Proof.
  intros Hd Hb. pose proof (size_enough d txt Hd) as S.
  destruct (split_at_bad d txt (acceptable_dec d)) as [Ha|(pre & c & post & -> & Hp & Hc)].
  - pose proof (decode_valid d txt Hd Hb Ha) as D. cbv zeta in D.
    destruct (rejected d _).
    + destruct D as (w & ob & E & L). exists (-1), w, ob. split; [exact E|lia].
    + eexists _, _, _. split; [exact D|]. rewrite undigits_length. exact S.
  - destruct (decode_bad d pre c post Hd Hb Hp Hc) as (w & E & L). exists (-1), w, None. split; [exact E|].
    rewrite digit_vals_app, app_length in S.
    apply Nat.le_trans with (obits d * (length (digit_vals d pre) + length (digit_vals d (c :: post))) / 8)%nat; [|exact S].
    apply Nat.le_trans with (obits d * length (digit_vals d pre) / 8)%nat; [exact L|].
    apply Nat.div_le_mono; [lia|]. apply Nat.mul_le_mono_l. lia.
Qed.

(** ** Round trip *)
Lemma rfc_acceptable d l : In d shipped -> bytes (rfc_encode d l) /\ Forall (acceptable d) (rfc_encode d l) /\
  digit_vals d (rfc_encode d l) = digits (obits d) l.
Proof.
  intros Hd. unfold rfc_encode. cbv zeta. set (pads := if with_padding d then _ else _).
  assert (Hp : Forall (fun c => c = 61) pads).
  { unfold pads. destruct (with_padding d); [|constructor]. apply Forall_forall. intros x Hx. now apply repeat_spec in Hx. }
  assert (Hpad : bytes pads /\ Forall (acceptable d) pads /\ digit_vals d pads = []).
  { clearbody pads. induction Hp as [|c p -> Hp IH]; [repeat split; constructor|].
    destruct IH as (A & B & C). split; [|split].
    - constructor; [lia|exact A].
    - constructor; [right; cbn; auto 10|exact B].
    - rewrite digit_vals_cons, pad_not_digit by exact Hd. exact C. }
  destruct Hpad as (P1 & P2 & P3).
  assert (Hs : forall ds, Forall (fun v => 0 <= v < 2 ^ Z.of_nat (obits d)) ds ->
     bytes (map (symbol d) ds) /\ Forall (acceptable d) (map (symbol d) ds) /\ digit_vals d (map (symbol d) ds) = ds).
  { induction ds as [|v ds IH]; intros H; [repeat split; constructor|]. fsplit H. destruct (IH H) as (A & B & C).
    destruct (alpha_symbol d Hd v R) as (_ & S2 & _ & S4). cbn [map]. split; [|split].
    - constructor; assumption.
    - constructor; [|exact B]. left. apply (index_of_In _ _ 0). eauto.
    - rewrite digit_vals_cons, S4, C. reflexivity. }
  destruct (Hs (digits (obits d) l) (digits_range _ _)) as (S1 & S2 & S3).
  split; [apply Forall_app; auto|]. split; [apply Forall_app; auto|].
  rewrite digit_vals_app, S3, P3, app_nil_r. reflexivity.
Qed.

Lemma count_ok d l : In d shipped -> rejected d (length (digits (obits d) l) mod ogroups d) = false.
Proof.
  intros Hd. unfold rejected.
  destruct (shipped_shape d Hd) as (_ & _ & [(-> & -> & _ & ->)|[(-> & -> & _ & -> & _)|(-> & _)]]);
    [| |reflexivity]; rewrite ndigits by lia; set (n := length l).
  - assert (E : n = (3 * (n / 3) + n mod 3)%nat) by (apply Nat.div_mod; lia).
    assert (n mod 3 < 3)%nat by (apply Nat.mod_upper_bound; lia).
    set (q := (n / 3)%nat) in *. set (m := (n mod 3)%nat) in *. 
    assert (M : m = 0%nat \/ m = 1%nat \/ m = 2%nat) by lia.
    destruct M as [M|[M|M]]; rewrite M in *; 
      [replace ((8 * n + 6 - 1) / 6)%nat with (4 * q + 0)%nat by (apply Nat.div_unique with (r := 5%nat); lia)
      |replace ((8 * n + 6 - 1) / 6)%nat with (4 * q + 2)%nat by (apply Nat.div_unique with (r := 1%nat); lia)
      |replace ((8 * n + 6 - 1) / 6)%nat with (4 * q + 3)%nat by (apply Nat.div_unique with (r := 3%nat); lia)];
      rewrite mod4k by lia; reflexivity.
  - assert (E : n = (5 * (n / 5) + n mod 5)%nat) by (apply Nat.div_mod; lia).
    assert (n mod 5 < 5)%nat by (apply Nat.mod_upper_bound; lia).
    set (q := (n / 5)%nat) in *. set (m := (n mod 5)%nat) in *. 
    assert (M : m = 0%nat \/ m = 1%nat \/ m = 2%nat \/ m = 3%nat \/ m = 4%nat) by lia.
    destruct M as [M|[M|[M|[M|M]]]]; rewrite M in *; 
      [replace ((8 * n + 5 - 1) / 5)%nat with (8 * q + 0)%nat by (apply Nat.div_unique with (r := 4%nat); lia)
      |replace ((8 * n + 5 - 1) / 5)%nat with (8 * q + 2)%nat by (apply Nat.div_unique with (r := 2%nat); lia)
      |replace ((8 * n + 5 - 1) / 5)%nat with (8 * q + 4)%nat by (apply Nat.div_unique with (r := 0%nat); lia)
      |replace ((8 * n + 5 - 1) / 5)%nat with (8 * q + 5)%nat by (apply Nat.div_unique with (r := 3%nat); lia)
      |replace ((8 * n + 5 - 1) / 5)%nat with (8 * q + 7)%nat by (apply Nat.div_unique with (r := 1%nat); lia)];
      rewrite mod8k by lia; reflexivity.
Qed.

Lemma core_roundtrip d l : In d shipped -> bytes l ->
  decode_core d (rfc_encode d l) = Ok (0, l, Some (length l)).
Proof.
  intros Hd Hb. destruct (rfc_acceptable d l Hd) as (A & B & C).
  pose proof (decode_valid d _ Hd A B) as D. cbv zeta in D. rewrite C in D.
  rewrite count_ok in D by exact Hd. rewrite D. rewrite undigits_digits; [reflexivity| |exact Hb].
  destruct (shipped_shape d Hd) as (_ & _ & [(_ & -> & _)|[(_ & -> & _)|(_ & -> & _)]]); lia.
Qed.

(** ** The public functions *)
(** The documented way to pass the output argument: NULL; pointer to NULL with *out_bytes = 0; or a buffer
    that really has *out_bytes bytes. *)
Definition out_ok (o : outarg) (n : nat) : Prop :=
  match o with OutNull => True | OutPtrNull => n = O | OutBuf m => (n <= length m)%nat end.

Lemma base_ok d : In d shipped -> ((base d =? 64)%nat || (base d =? 32)%nat || (base d =? 16)%nat) = true.
Proof.
  intros Hd. destruct (shipped_shape d Hd) as (_ & _ & [(-> & _)|[(-> & _)|(-> & _)]]); reflexivity.
Qed.

Lemma store_ok mem w : (length w <= length mem)%nat -> store mem w = Ok (w ++ skipn (length w) mem).
Proof. intros H. unfold store. destruct (Nat.leb_spec (length w) (length mem)); [reflexivity|lia]. Qed.

Lemma encode_spec d l o n : In d shipped -> bytes l -> l <> [] -> out_ok o n ->
  zt_base_encode d l o n =
  let txt := rfc_encode d l in
  match o with
  | OutNull => Ok (if (n <? length txt)%nat then -2 else 0, length txt, None)
  | OutPtrNull => Ok (0, length txt, Some txt)
  | OutBuf m => if (n <? length txt)%nat then Ok (-2, length txt, None)
                else Ok (0, length txt, Some (txt ++ skipn (length txt) m))
  end.
Proof.
  intros Hd Hb Hne Ho. unfold zt_base_encode. destruct (shipped_shape d Hd) as (_ & -> & _). cbn [negb].
  assert (Hn : (length l =? 0)%nat = false) by (destruct l; [congruence|reflexivity]). rewrite Hn.
  rewrite <- rfc_length by exact Hd. rewrite encode_core_ok by assumption. cbv zeta. 
  set (txt := rfc_encode d l). destruct o as [| |m]; cbn [out_ok] in Ho.
  - destruct (n <? length txt)%nat; reflexivity.
  - subst n. cbn [Nat.eqb]. rewrite Nat.ltb_irrefl. cbn [obind]. rewrite store_ok by (rewrite repeat_length; lia).
    cbn [obind]. rewrite skipn_all2 by (rewrite repeat_length; lia). now rewrite app_nil_r.
  - destruct (Nat.ltb_spec n (length txt)); [reflexivity|]. cbn [obind]. rewrite store_ok by lia. reflexivity.
Qed.

Lemma decode_safe d txt o n : In d shipped -> bytes txt -> out_ok o n ->
  exists rc n' m, zt_base_decode d txt o n = Ok (rc, n', m).
Proof.
  intros Hd Hb Ho. unfold zt_base_decode. destruct (shipped_shape d Hd) as (_ & -> & _). cbn [negb].
  destruct (length txt =? 0)%nat; [eauto|]. 
  destruct (decode_core_total d txt Hd Hb) as (rc & w & ob & E & L).
  destruct o as [| |m]; cbn [out_ok] in Ho; [eauto| |].
  - subst n. cbn [Nat.eqb]. rewrite base_ok by exact Hd. rewrite E. cbn [obind].
    rewrite store_ok by (rewrite repeat_length; lia). cbn [obind]. eauto.
  - destruct (Nat.ltb_spec n (dec_size d txt)); [eauto|]. rewrite base_ok by exact Hd. rewrite E. cbn [obind].
    rewrite store_ok by lia. cbn [obind]. eauto.
Qed.

(** Never writes outside the first [dec_size] bytes of the buffer. *)
Lemma decode_frame d txt m n rc n' m' : In d shipped -> bytes txt -> (n <= length m)%nat ->
  zt_base_decode d txt (OutBuf m) n = Ok (rc, n', Some m') ->
  length m' = length m /\ skipn (dec_size d txt) m' = skipn (dec_size d txt) m.
Proof.
  intros Hd Hb Hn. unfold zt_base_decode. destruct (shipped_shape d Hd) as (_ & -> & _). cbn [negb].
  destruct (length txt =? 0)%nat; [discriminate|].
  destruct (decode_core_total d txt Hd Hb) as (rc0 & w & ob & E & L).
  destruct (Nat.ltb_spec n (dec_size d txt)); [discriminate|]. rewrite base_ok by exact Hd. rewrite E. cbn [obind].
  rewrite store_ok by lia. cbn [obind]. intros H1. injection H1 as _ _ <-.
  rewrite app_length, skipn_length. split; [lia|].
  rewrite skipn_app. rewrite skipn_all2 by lia. cbn [app]. rewrite skipn_skipn. f_equal. lia.
Qed.

Lemma decode_size_query d txt n : In d shipped -> txt <> [] ->
  zt_base_decode d txt OutNull n = Ok (0, dec_size d txt, None).
Proof.
  intros Hd Hne. unfold zt_base_decode. destruct (shipped_shape d Hd) as (_ & -> & _). cbn [negb].
  destruct txt; [congruence|reflexivity].
Qed.

Lemma decode_of_encode d l o n rc n' m : In d shipped -> bytes l -> l <> [] -> out_ok o n ->
  zt_base_decode d (rfc_encode d l) o n = Ok (rc, n', Some m) ->
  rc = 0 /\ n' = length l /\ firstn n' m = l.
Proof.
  intros Hd Hb Hne Ho H. unfold zt_base_decode in H. destruct (shipped_shape d Hd) as (_ & Hv & _). rewrite Hv in H. cbn [negb] in H.
  destruct (length (rfc_encode d l) =? 0)%nat; [discriminate|].
  rewrite core_roundtrip in H by assumption. rewrite base_ok in H by exact Hd.
  destruct o as [| |mem]; cbn [out_ok] in Ho.
  - discriminate.
  - subst n. cbn [Nat.eqb obind] in H. unfold store in H.
    destruct (length l <=? length (repeat 0%Z (dec_size d (rfc_encode d l) + 1)))%nat; cbn [obind] in H; [|discriminate H].
    cbn [obind] in H. injection H as <- <- <-. split; [reflexivity|]. split; [reflexivity|].
    rewrite firstn_app, Nat.sub_diag, firstn_all. cbn. apply app_nil_r.
  - destruct (n <? dec_size d (rfc_encode d l))%nat; [discriminate|]. cbn [obind] in H. unfold store in H.
    destruct (length l <=? length mem)%nat; cbn [obind] in H; [|discriminate H].
    cbn [obind] in H. injection H as <- <- <-. split; [reflexivity|]. split; [reflexivity|].
    rewrite firstn_app, Nat.sub_diag, firstn_all. cbn. apply app_nil_r.
Qed.

Lemma firstn_app_exact {A} (a b : list A) : firstn (length a) (a ++ b) = a.
Proof. rewrite firstn_app, Nat.sub_diag, firstn_all. cbn. apply app_nil_r. Qed.

Lemma roundtrip d l eo en txtlen em do_ dn rc n' m : In d shipped -> bytes l -> l <> [] ->
  out_ok eo en -> out_ok do_ dn ->
  zt_base_encode d l eo en = Ok (0, txtlen, Some em) ->
  zt_base_decode d (firstn txtlen em) do_ dn = Ok (rc, n', Some m) ->
  rc = 0 /\ n' = length l /\ firstn n' m = l.
Proof.
  intros Hd Hb Hne Heo Hdo E D. rewrite encode_spec in E by assumption. cbv zeta in E.
  assert (X : firstn txtlen em = rfc_encode d l).
  { destruct eo as [| |mem].
    - discriminate.
    - injection E as <- <-. apply firstn_all.
    - destruct (en <? length (rfc_encode d l))%nat; [discriminate|]. injection E as <- <-. apply firstn_app_exact. }
  rewrite X in D. eapply decode_of_encode; eassumption.
Qed.

(** With library allocated buffers the whole round trip always goes through. *)
Lemma roundtrip_alloc d l : In d shipped -> bytes l -> l <> [] ->
  exists txt rest, zt_base_encode d l OutPtrNull 0 = Ok (0, length txt, Some txt) /\
    zt_base_decode d txt OutPtrNull 0 = Ok (0, length l, Some (l ++ rest)).
Proof.
  intros Hd Hb Hne. exists (rfc_encode d l).
  assert (E : zt_base_encode d l OutPtrNull 0 = Ok (0, length (rfc_encode d l), Some (rfc_encode d l))).
  { rewrite encode_spec by (try assumption; reflexivity). reflexivity. }
  destruct (rfc_acceptable d l Hd) as (A & _ & _).
  destruct (decode_safe d (rfc_encode d l) OutPtrNull 0 Hd A eq_refl) as (rc & n' & m & D).
  destruct m as [m|].
  - destruct (decode_of_encode d l OutPtrNull 0 rc n' m Hd Hb Hne eq_refl D) as (-> & -> & F).
    exists (skipn (length l) m). split; [exact E|]. replace (l ++ skipn (length l) m) with m; [exact D|]. transitivity (firstn (length l) m ++ skipn (length l) m); [symmetry; apply firstn_skipn|now rewrite F].
  - exfalso. unfold zt_base_decode in D. destruct (shipped_shape d Hd) as (_ & Hv & _). rewrite Hv in D. cbn [negb] in D.
    destruct (Nat.eqb_spec (length (rfc_encode d l)) 0) as [Z|Z].
    + rewrite rfc_length in Z by exact Hd. assert (length l <> 0%nat) by (destruct l; [congruence|discriminate]).
      unfold enc_size in Z. destruct (shipped_shape d Hd) as (_ & _ & [(_ & Ho & Hi & Hog)|[(_ & Ho & Hi & Hog & Hw)|(_ & Ho & Hi & Hog)]]);
      rewrite Ho, Hi, Hog in Z.
      * pose proof (Nat.div_mod (length l) 3 ltac:(lia)). 
        assert (length l / 3 = 0)%nat by lia. 
        assert (X : (length l mod 3 = 1 \/ length l mod 3 = 2)%nat) by (pose proof (Nat.mod_upper_bound (length l) 3); lia).
        destruct X as [X|X]; rewrite X in Z; cbn in Z; destruct (with_padding d); lia.
      * pose proof (Nat.div_mod (length l) 5 ltac:(lia)). 
        assert (length l / 5 = 0)%nat by lia. rewrite Hw in Z.
        assert (X : (length l mod 5 = 1 \/ length l mod 5 = 2 \/ length l mod 5 = 3 \/ length l mod 5 = 4)%nat) by (pose proof (Nat.mod_upper_bound (length l) 5); lia).
        destruct X as [X|[X|[X|X]]]; rewrite X in Z; cbn in Z; lia.
      * rewrite Nat.div_1_r in Z. lia.
    + rewrite base_ok in D by exact Hd. cbn [Nat.eqb] in D. 
      apply obind_ok in D. destruct D as (((r1 & w1) & o1) & _ & D). apply obind_ok in D. destruct D as (? & _ & D). discriminate.
Qed.

(** Foreign characters are refused. *)
Lemma decode_rejects d txt c o n : In d shipped -> bytes txt -> In c txt -> ~ acceptable d c -> out_ok o n ->
  o <> OutNull -> forall rc n' m, zt_base_decode d txt o n = Ok (rc, n', m) -> rc = -1 \/ rc = -2.
Proof.
  intros Hd Hb Hin Hc Ho Hne rc n' m H.
  destruct (split_at_bad d txt (acceptable_dec d)) as [Ha|(pre & x & post & -> & Hp & Hx)].
  - rewrite Forall_forall in Ha. exfalso. apply Hc, Ha, Hin.
  - destruct (decode_bad d pre x post Hd Hb Hp Hx) as (w & E & _).
    unfold zt_base_decode in H. destruct (shipped_shape d Hd) as (_ & Hv & _). rewrite Hv in H. cbn [negb] in H.
    destruct (Nat.eqb_spec (length (pre ++ x :: post)) 0) as [Z|Z]; [rewrite app_length in Z; cbn [length] in Z; lia|].
    rewrite E, base_ok in H by exact Hd. destruct o as [| |mem]; [congruence| |].
    + cbn [out_ok] in Ho. subst n. cbn [Nat.eqb obind] in H. apply obind_ok in H. destruct H as (? & _ & H).
      injection H as <- _ _. auto.
    + destruct (n <? dec_size d (pre ++ x :: post))%nat; [injection H as <- _ _; auto|].
      cbn [obind] in H. apply obind_ok in H. destruct H as (? & _ & H). injection H as <- _ _. auto.
Qed.

(** And exactly the texts with an impossible number of digits besides. *)
Lemma decode_accepts d txt m n : In d shipped -> bytes txt -> txt <> [] -> (n <= length m)%nat -> (dec_size d txt <= n)%nat ->
  Forall (acceptable d) txt -> rejected d (length (digit_vals d txt) mod ogroups d) = false ->
  exists m', zt_base_decode d txt (OutBuf m) n = Ok (0, length (undigits (obits d) (digit_vals d txt)), Some m') /\
    m' = undigits (obits d) (digit_vals d txt) ++ skipn (length (undigits (obits d) (digit_vals d txt))) m.
Proof.
  intros Hd Hb Hne Hn Hs Ha Hr. unfold zt_base_decode. destruct (shipped_shape d Hd) as (_ & -> & _). cbn [negb].
  destruct (Nat.eqb_spec (length txt) 0) as [Z|Z]; [destruct txt; [congruence|discriminate]|].
  destruct (Nat.ltb_spec n (dec_size d txt)); [lia|]. rewrite base_ok by exact Hd.
  pose proof (decode_valid d txt Hd Hb Ha) as D. cbv zeta in D. rewrite Hr in D. rewrite D. cbn [obind].
  rewrite store_ok. 
  - cbn [obind]. eexists. split; reflexivity.
  - rewrite undigits_length. pose proof (size_enough d txt Hd). lia.
Qed.

Lemma decode_badcount d txt m n : In d shipped -> bytes txt -> txt <> [] -> (n <= length m)%nat -> (dec_size d txt <= n)%nat ->
  Forall (acceptable d) txt -> rejected d (length (digit_vals d txt) mod ogroups d) = true ->
  exists n' m', zt_base_decode d txt (OutBuf m) n = Ok (-1, n', m').
Proof.
  intros Hd Hb Hne Hn Hs Ha Hr. unfold zt_base_decode. destruct (shipped_shape d Hd) as (_ & -> & _). cbn [negb].
  destruct (Nat.eqb_spec (length txt) 0) as [Z|Z]; [destruct txt; [congruence|discriminate]|].
  destruct (Nat.ltb_spec n (dec_size d txt)); [lia|]. rewrite base_ok by exact Hd.
  pose proof (decode_valid d txt Hd Hb Ha) as D. cbv zeta in D. rewrite Hr in D. destruct D as (w & ob & -> & L). cbn [obind].
  rewrite store_ok by (pose proof (size_enough d txt Hd); lia). cbn [obind]. eauto.
Qed.
