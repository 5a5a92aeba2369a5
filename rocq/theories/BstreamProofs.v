From Verif Require Import Prelude Blocks ArrayModel ArrayProofs.
Open Scope Z_scope.

(** Reference byte stream: contents, position, byte-order flag. *)
Record sstate := mkss { sbytes : list Z; spos : nat; sflip : bool }.
Definition order (fl : bool) (d : list Z) : list Z := if fl then rev d else d.
(** writing d at the position; when it does not fit the stream grows to twice (old length + length d), zero filled *)
Definition s_write (s : sstate) (d : list Z) : sstate :=
  let D := sbytes s in let p := spos s in
  mkss (firstn p D ++ order (sflip s) d ++
        (if (p + length d <=? length D)%nat then skipn (p + length d) D
         else repeat 0 ((length D + length d) * 2 - (p + length d))))
       (p + length d) (sflip s).
Definition s_read (s : sstate) (n : nat) : list Z := order (sflip s) (firstn n (skipn (spos s) (sbytes s))).
Definition s_seek (s : sstate) (p : nat) : sstate := mkss (sbytes s) p (sflip s).

(** the bstream object represents the reference stream *)
Definition is_stream (b : bstream) (s : sstate) : Prop :=
  elems (bdata b) (map (fun c => [c]) (sbytes s)) /\ asize (bdata b) = 1 /\
  offt b = Z.of_nat (spos s) /\ (spos s <= length (sbytes s))%nat /\ flip b = sflip s.

Lemma concat_sing (D : list Z) : concat (map (fun c => [c]) D) = D.
Proof. induction D; cbn; congruence. Qed.
Lemma sing_rep n : repeat [0] n = map (fun c : Z => [c]) (repeat 0 n).
Proof. induction n; cbn; congruence. Qed.

Lemma put_bytes_ok : forall d D1 D2 a, elems a (map (fun c => [c]) (D1 ++ D2)) -> asize a = 1 -> (length d <= length D2)%nat ->
  exists a', put_bytes a (Z.of_nat (length D1)) d = Ok (Z.of_nat (length D1 + length d), a') /\
    elems a' (map (fun c => [c]) (D1 ++ d ++ skipn (length d) D2)) /\ asize a' = 1.
Proof.
  induction d as [|v d IH]; intros D1 D2 a E S L.
  - cbn [length put_bytes app skipn]. rewrite Nat.add_0_r. eauto.
  - destruct D2 as [|x D2]; [cbn in L; lia|]. cbn [put_bytes]. rewrite map_app in E. cbn [map] in E.
    destruct (put_ok a _ [x] _ [v] E) as (a1 & P1 & P2 & P3); [cbn [length]; lia|].
    rewrite map_length in P1. rewrite P1. cbn [obind].
    assert (Bd : (Z.of_nat (length D1) + 1) mod W64 = Z.of_nat (length (D1 ++ [v]))).
    { rewrite app_length. cbn [length]. destruct E as (E1 & _ & E3 & _). rewrite app_length, map_length in E1. cbn [length] in E1. rewrite Z.mod_small; nia. }
    rewrite Bd.
    destruct (IH (D1 ++ [v]) D2 a1) as (a' & Q1 & Q2 & Q3).
    + rewrite <- app_assoc. rewrite map_app. exact P2.
    + congruence.
    + cbn [length] in L. lia.
    + exists a'. split; [rewrite Q1; rewrite app_length; cbn [length]; f_equal; f_equal; lia|]. split; [|exact Q3].
      rewrite <- app_assoc in Q2. exact Q2.
Qed.

Lemma get_bytes_ok : forall n D1 D2 a, elems a (map (fun c => [c]) (D1 ++ D2)) -> asize a = 1 -> (n <= length D2)%nat ->
  get_bytes a (Z.of_nat (length D1)) n = Ok (firstn n D2, Z.of_nat (length D1 + n)).
Proof.
  induction n as [|n IH]; intros D1 D2 a E S L.
  - cbn [get_bytes firstn]. now rewrite Nat.add_0_r.
  - destruct D2 as [|x D2]; [cbn in L; lia|]. cbn [get_bytes]. unfold array_get. pose proof E as (E1 & E2 & E3 & E4 & E5 & E6).
    rewrite map_length, app_length in E1. cbn [length] in E1. replace (Z.of_nat (length D1) <? alen a) with true by lia. cbn [guard obind].
    rewrite S, Z.mul_1_r, Z.mod_small by nia. rewrite Nat2Z.id, E5, concat_sing.
    rewrite map_app. rewrite <- (map_length Some D1) at 1. replace (map Some (x :: D2)) with (map Some [x] ++ map Some D2) by reflexivity.
    rewrite rdn_ok by (cbn; lia). cbn [obind firstn].
    replace (Z.of_nat (length D1) + 1) with (Z.of_nat (length (D1 ++ [x]))) by (rewrite app_length; cbn [length]; lia).
    rewrite Z.mod_small by (rewrite app_length; cbn [length]; nia).
    rewrite (IH (D1 ++ [x]) D2) by (try rewrite <- app_assoc; auto; cbn [length] in L; lia). cbn [obind app]. rewrite app_length. cbn [length].
    apply f_equal. apply f_equal2; [reflexivity|lia].
Qed.
Lemma get_bytes_past : forall n D1 D2 a, elems a (map (fun c => [c]) (D1 ++ D2)) -> asize a = 1 -> (length D2 < n)%nat ->
  get_bytes a (Z.of_nat (length D1)) n = Abort.
Proof.
  induction n as [|n IH]; intros D1 D2 a E S L; [lia|]. cbn [get_bytes]. unfold array_get. pose proof E as (E1 & E2 & E3 & E4 & E5 & E6).
  rewrite map_length, app_length in E1. destruct D2 as [|x D2].
  - cbn [length] in E1. replace (Z.of_nat (length D1) <? alen a) with false by lia. reflexivity.
  - cbn [length] in E1, L. replace (Z.of_nat (length D1) <? alen a) with true by lia. cbn [guard obind].
    rewrite S, Z.mul_1_r, Z.mod_small by nia. rewrite Nat2Z.id, E5, concat_sing.
    rewrite map_app. rewrite <- (map_length Some D1) at 1. replace (map Some (x :: D2)) with (map Some [x] ++ map Some D2) by reflexivity.
    rewrite rdn_ok by (cbn; lia). cbn [obind].
    replace (Z.of_nat (length D1) + 1) with (Z.of_nat (length (D1 ++ [x]))) by (rewrite app_length; cbn [length]; lia).
    rewrite Z.mod_small by (rewrite app_length; cbn [length]; nia).
    rewrite (IH (D1 ++ [x]) D2) by (try rewrite <- app_assoc; auto; lia). reflexivity.
Qed.

Lemma order_len fl d : length (order fl d) = length d.
Proof. destruct fl; cbn; [apply rev_length|reflexivity]. Qed.
Lemma split_at (D : list Z) p : (p <= length D)%nat -> exists D1 D2, D = D1 ++ D2 /\ length D1 = p /\ firstn p D = D1 /\ skipn p D = D2.
Proof. intros H. exists (firstn p D), (skipn p D). rewrite firstn_skipn, firstn_length. repeat split; lia. Qed.

Lemma write_ok b s d : is_stream b s -> (spos s + length d <= length (sbytes s))%nat \/ (Z.of_nat (length (sbytes s)) + Z.of_nat (length d)) * 2 < W64 ->
  exists b', bs_write b d = Ok b' /\ is_stream b' (s_write s d).
Proof.
  intros (E & S & O & P & F) B. destruct s as [D p fl]. cbn [sbytes spos sflip] in *.
  destruct (split_at D p P) as (D1 & D2 & -> & HL & F1 & F2). pose proof E as (E1 & E2 & E3 & E4 & E5 & E6). rewrite map_length, app_length in E1. rewrite app_length in *.
  unfold bs_write, array_length, array_put_all. cbv zeta. rewrite O, F.
  rewrite (Z.mod_small (alen (bdata b) - Z.of_nat p)) by lia.
  replace (if fl then rev d else d) with (order fl d) by reflexivity. rewrite <- HL.
  unfold s_write, is_stream. cbn [sbytes spos sflip bdata offt flip]. rewrite app_length. rewrite <- HL in F1. rewrite F1.
  destruct (Z.of_nat (length d) >? alen (bdata b) - Z.of_nat (length D1)) eqn:G.
  - rewrite (Z.mod_small (alen (bdata b) + Z.of_nat (length d))) by lia. rewrite Z.mod_small by lia.
    destruct (resize_ok (bdata b) _ ((alen (bdata b) + Z.of_nat (length d)) * 2) E) as (a1 & R1 & R2 & R3); [lia|rewrite S; lia|].
    rewrite R1. cbn [obind]. rewrite S in R2, R3. change (repeat 0 (Z.to_nat 1)) with [0] in R2.
    rewrite firstn_all2 in R2 by (rewrite map_length, app_length; lia). rewrite map_length, sing_rep, <- map_app, <- app_assoc in R2.
    destruct (put_bytes_ok (order fl d) D1 _ a1 R2 R3) as (a2 & Q1 & Q2 & Q3).
    { rewrite order_len, app_length, repeat_length. rewrite app_length. lia. }
    rewrite Q1. cbn [obind]. eexists. split; [reflexivity|]. cbn [bdata offt flip]. rewrite order_len in *.
    replace (length D1 + length d <=? length D1 + length D2)%nat with false by lia.
    split; [|split; [exact Q3|split; [lia|split; [rewrite !app_length, order_len, repeat_length; lia|reflexivity]]]].
    rewrite skipn_app, skipn_all2 in Q2 by lia. cbn [app] in Q2.
    replace (skipn (length d - length D2) (repeat 0 (Z.to_nat ((alen (bdata b) + Z.of_nat (length d)) * 2) - length (D1 ++ D2)))) with
      (repeat 0 ((length D1 + length D2 + length d) * 2 - (length D1 + length d))) in Q2; [exact Q2|].
    replace (Z.to_nat ((alen (bdata b) + Z.of_nat (length d)) * 2) - length (D1 ++ D2))%nat with ((length d - length D2) + ((length D1 + length D2 + length d) * 2 - (length D1 + length d)))%nat by (rewrite app_length; lia).
    rewrite repeat_app, skipn_app, skipn_all2 by (rewrite repeat_length; lia). rewrite repeat_length, Nat.sub_diag. reflexivity.
  - cbn [obind]. destruct (put_bytes_ok (order fl d) D1 D2 (bdata b) E S) as (a2 & Q1 & Q2 & Q3); [rewrite order_len; lia|].
    rewrite Q1. cbn [obind]. eexists. split; [reflexivity|]. cbn [bdata offt flip]. rewrite order_len in *.
    replace (length D1 + length d <=? length D1 + length D2)%nat with true by lia.
    rewrite (skipn_app (length D1 + length d)). rewrite (skipn_all2 D1) by lia. replace (length D1 + length d - length D1)%nat with (length d) by lia. cbn [app].
    split; [exact Q2|split; [exact Q3|split; [lia|split; [rewrite !app_length, order_len, skipn_length; lia|reflexivity]]]].
Qed.

Lemma read_ok b s n : is_stream b s -> (spos s + n <= length (sbytes s))%nat ->
  exists b', bs_read b n = Ok (s_read s n, b') /\ is_stream b' (s_seek s (spos s + n)).
Proof.
  intros (E & S & O & P & F) L. destruct s as [D p fl]. cbn [sbytes spos sflip] in *.
  destruct (split_at D p P) as (D1 & D2 & -> & HL & F1 & F2). rewrite app_length in *.
  unfold bs_read, array_get_all. rewrite O, F, <- HL. rewrite (get_bytes_ok n D1 D2 _ E S) by lia. cbn [obind].
  eexists. split; [unfold s_read; cbn [sbytes spos sflip]; rewrite HL, F2; reflexivity|].
  unfold is_stream, s_seek. cbn [sbytes spos sflip bdata offt flip]. rewrite app_length. repeat split; auto; try apply E; lia.
Qed.
Lemma read_past b s n : is_stream b s -> (length (sbytes s) < spos s + n)%nat -> bs_read b n = Abort.
Proof.
  intros (E & S & O & P & F) L. destruct s as [D p fl]. cbn [sbytes spos sflip] in *.
  destruct (split_at D p P) as (D1 & D2 & -> & HL & F1 & F2). rewrite app_length in *.
  unfold bs_read, array_get_all. rewrite O, <- HL. rewrite (get_bytes_past n D1 D2 _ E S) by lia. reflexivity.
Qed.
Lemma rewind_ok b s : is_stream b s -> fst (bs_rewind b) = Z.of_nat (spos s) /\ is_stream (snd (bs_rewind b)) (s_seek s 0).
Proof. intros (E & S & O & P & F). split; [exact O|]. unfold is_stream, s_seek. cbn. repeat split; auto; try apply E; lia. Qed.
Lemma new_stream : exists b, bs_new = Ok b /\ is_stream b (mkss [] 0 false).
Proof.
  eexists. split; [reflexivity|]. unfold is_stream, elems. cbn. repeat split; auto; lia.
Qed.
Lemma clone_ok b s : is_stream b s -> exists c, bs_clone b = Ok c /\ is_stream c (mkss (sbytes s) (spos s) false).
Proof.
  intros (E & S & O & P & F). unfold bs_clone, array_length. pose proof E as (E1 & E2 & E3 & _).
  destruct (copy_ok (bdata b) _ (alen (bdata b)) E) as (c & C1 & C2 & C3); [lia|exact E3|].
  rewrite C1. cbn [obind]. eexists. split; [reflexivity|]. unfold is_stream. cbn [sbytes spos sflip bdata offt flip].
  rewrite map_length in E1. rewrite map_length in C2. rewrite firstn_all2 in C2 by (rewrite map_length; lia).
  replace (Z.to_nat (alen (bdata b)) - length (sbytes s))%nat with 0%nat in C2 by lia. cbn [repeat] in C2. rewrite app_nil_r in C2.
  repeat split; auto; try apply C2; congruence.
Qed.

(** histories *)
Inductive sop := Swrite (d : list Z) | Sread (n : nat) | Srewind.
Definition bs_step (b : bstream) (o : sop) : outcome (list Z * bstream) :=
  match o with
  | Swrite d => b' <- bs_write b d ;; Ok ([], b')
  | Sread n => bs_read b n
  | Srewind => Ok ([], snd (bs_rewind b))
  end.
Fixpoint bs_run (b : bstream) (l : list sop) : outcome (list (list Z) * bstream) :=
  match l with
  | [] => Ok ([], b)
  | o :: r => ' (x, b1) <- bs_step b o ;; ' (xs, b2) <- bs_run b1 r ;; Ok (x :: xs, b2)
  end.
(** None = the read goes past the end *)
Definition s_step (s : sstate) (o : sop) : option (list Z * sstate) :=
  match o with
  | Swrite d => Some ([], s_write s d)
  | Sread n => if (spos s + n <=? length (sbytes s))%nat then Some (s_read s n, s_seek s (spos s + n)) else None
  | Srewind => Some ([], s_seek s 0)
  end.
Fixpoint s_run (s : sstate) (l : list sop) : option (list (list Z) * sstate) :=
  match l with
  | [] => Some ([], s)
  | o :: r => match s_step s o with
              | None => None
              | Some (x, s1) => match s_run s1 r with None => None | Some (xs, s2) => Some (x :: xs, s2) end end
  end.
(** no write asks for 2^64 bytes or more (growth doubles the stream) *)
Definition fits (s : sstate) (l : list sop) : Prop := forall l1 l2 x s1, l = l1 ++ l2 -> s_run s l1 = Some (x, s1) ->
  forall d r, l2 = Swrite d :: r -> (spos s1 + length d <= length (sbytes s1))%nat \/ (Z.of_nat (length (sbytes s1)) + Z.of_nat (length d)) * 2 < W64.

Lemma run_ok : forall l b s, is_stream b s -> fits s l ->
  match s_run s l with
  | Some (xs, s') => exists b', bs_run b l = Ok (xs, b') /\ is_stream b' s'
  | None => bs_run b l = Abort
  end.
Proof.
  induction l as [|o l IH]; intros b s H Fi; [cbn; eauto|].
  assert (Fi' : forall x s1, s_step s o = Some (x, s1) -> fits s1 l).
  { intros x s1 E l1 l2 y s2 El R d r E2. apply (Fi (o :: l1) l2 (x :: y) s2) with r; [cbn; congruence| |exact E2].
    cbn [s_run]. now rewrite E, R. }
  cbn [s_run bs_run]. destruct o as [d|n|].
  - destruct (write_ok b s d H) as (b' & W1 & W2); [apply (Fi [] (Swrite d :: l) [] s eq_refl eq_refl d l eq_refl)|].
    cbn [bs_step s_step]. rewrite W1. cbn [obind]. specialize (IH b' _ W2 (Fi' _ _ eq_refl)). destruct (s_run (s_write s d) l) as [[xs s']|].
    + destruct IH as (b2 & R1 & R2). rewrite R1. cbn [obind]. eauto.
    + rewrite IH. reflexivity.
  - cbn [bs_step s_step]. destruct (spos s + n <=? length (sbytes s))%nat eqn:G.
    + destruct (read_ok b s n H) as (b' & W1 & W2); [lia|]. rewrite W1. cbn [obind].
      specialize (Fi' (s_read s n) (s_seek s (spos s + n))). cbn [s_step] in Fi'. rewrite G in Fi'.
      specialize (IH b' _ W2 (Fi' eq_refl)). destruct (s_run (s_seek s (spos s + n)) l) as [[xs s']|].
      * destruct IH as (b2 & R1 & R2). rewrite R1. cbn [obind]. eauto.
      * rewrite IH. reflexivity.
    + rewrite (read_past b s n H) by lia. reflexivity.
  - cbn [bs_step s_step obind]. destruct (rewind_ok b s H) as [_ W2]. specialize (IH _ _ W2 (Fi' _ _ eq_refl)). destruct (s_run (s_seek s 0) l) as [[xs s']|].
    + destruct IH as (b2 & R1 & R2). rewrite R1. cbn [obind]. eauto.
    + rewrite IH. reflexivity.
Qed.

(** typed values *)
Lemma le_bytes_len n v : length (le_bytes n v) = n.
Proof. revert v; induction n; intros v; cbn; auto. Qed.
Lemma le_value_bytes n v : le_value (le_bytes n v) = v mod 256 ^ Z.of_nat n.
Proof.
  revert v. induction n as [|n IH]; intros v; cbn [le_bytes le_value].
  - now rewrite Z.mod_1_r.
  - rewrite IH. rewrite Nat2Z.inj_succ, Z.pow_succ_r by lia. rewrite Z.rem_mul_r by (try lia; apply Z.pow_nonzero; lia). reflexivity.
Qed.

Fixpoint write_uints (b : bstream) (l : list (nat * Z)) : outcome bstream :=
  match l with [] => Ok b | (n, v) :: r => b' <- bs_write_uint b n v ;; write_uints b' r end.
Fixpoint read_uints (b : bstream) (l : list nat) : outcome (list Z * bstream) :=
  match l with [] => Ok ([], b) | n :: r => ' (v, b1) <- bs_read_uint b n ;; ' (vs, b2) <- read_uints b1 r ;; Ok (v :: vs, b2) end.
Definition layout (fl : bool) (l : list (nat * Z)) : list Z := concat (map (fun x => order fl (le_bytes (fst x) (snd x))) l).

Lemma layout_cons fl n v l : layout fl ((n, v) :: l) = order fl (le_bytes n v) ++ layout fl l.
Proof. reflexivity. Qed.

Lemma write_uints_ok fl : forall l b done k, is_stream b (mkss (done ++ repeat 0 k) (length done) fl) -> (length done + k <= 4 * length done)%nat ->
  4 * (Z.of_nat (length done) + Z.of_nat (length (layout fl l))) < W64 ->
  exists b' k', write_uints b l = Ok b' /\ is_stream b' (mkss ((done ++ layout fl l) ++ repeat 0 k') (length (done ++ layout fl l)) fl).
Proof.
  induction l as [|[n v] l IH]; intros b done k H G B.
  - exists b, k. unfold layout. cbn [map concat]. rewrite app_nil_r. auto.
  - cbn [write_uints]. unfold bs_write_uint. rewrite layout_cons in *. rewrite app_length, order_len, le_bytes_len in B.
    destruct (write_ok b _ (le_bytes n v) H) as (b1 & W1 & W2).
    { cbn [sbytes spos]. rewrite app_length, repeat_length, le_bytes_len. lia. }
    rewrite W1. cbn [obind]. unfold s_write in W2. cbn [sbytes spos sflip] in W2. rewrite le_bytes_len in W2.
    rewrite firstn_app, Nat.sub_diag, firstn_all in W2. cbn [firstn] in W2. rewrite app_nil_r in W2. rewrite app_length, repeat_length in W2.
    assert (exists k1, is_stream b1 (mkss ((done ++ order fl (le_bytes n v)) ++ repeat 0 k1) (length (done ++ order fl (le_bytes n v))) fl) /\ (length done + n + k1 <= 4 * (length done + n))%nat) as (k1 & I1 & I2).
    { destruct (length done + n <=? length done + k)%nat eqn:C.
      - exists (k - n)%nat. split; [|lia]. rewrite skipn_app, skipn_all2 in W2 by lia. cbn [app] in W2.
        replace (skipn (length done + n - length done) (repeat 0 k)) with (repeat 0 (k - n)) in W2.
        + rewrite <- app_assoc. rewrite app_length, order_len, le_bytes_len. exact W2.
        + replace k with (n + (k - n))%nat at 2 by lia. rewrite repeat_app, skipn_app, skipn_all2 by (rewrite repeat_length; lia).
          rewrite repeat_length. replace (length done + n - length done - n)%nat with 0%nat by lia. reflexivity.
      - eexists. split; [rewrite <- app_assoc, app_length, order_len, le_bytes_len; exact W2|]. lia. }
    destruct (IH b1 _ k1 I1) as (b' & k' & R1 & R2).
    + rewrite app_length, order_len, le_bytes_len. lia.
    + rewrite app_length, order_len, le_bytes_len. lia.
    + exists b', k'. split; [exact R1|]. rewrite app_assoc. exact R2.
Qed.

Lemma order_order fl d : order fl (order fl d) = d.
Proof. destruct fl; cbn; [apply rev_involutive|reflexivity]. Qed.
Lemma read_uints_ok fl : forall l b done k, is_stream b (mkss (done ++ layout fl l ++ repeat 0 k) (length done) fl) ->
  exists b', read_uints b (map fst l) = Ok (map (fun x => snd x mod 256 ^ Z.of_nat (fst x)) l, b') /\
    is_stream b' (mkss (done ++ layout fl l ++ repeat 0 k) (length done + length (layout fl l)) fl).
Proof.
  induction l as [|[n v] l IH]; intros b done k H.
  - exists b. split; [reflexivity|]. cbn [layout map concat length app] in *. unfold layout in *. cbn in *. now rewrite Nat.add_0_r.
  - rewrite layout_cons in *. cbn [map read_uints fst snd]. unfold bs_read_uint.
    destruct (read_ok b _ n H) as (b1 & R1 & R2).
    { cbn [sbytes spos]. rewrite !app_length, order_len, le_bytes_len. lia. }
    rewrite R1. cbn [obind]. unfold s_read. cbn [sbytes spos sflip]. rewrite skipn_app, skipn_all, Nat.sub_diag. cbn [app skipn].
    rewrite <- !app_assoc. rewrite firstn_app. rewrite firstn_all2 by (rewrite order_len, le_bytes_len; lia).
    rewrite order_len, le_bytes_len, Nat.sub_diag. cbn [firstn]. rewrite app_nil_r, order_order, le_value_bytes.
    unfold s_seek in R2. cbn [sbytes spos sflip] in R2.
    destruct (IH b1 (done ++ order fl (le_bytes n v)) k) as (b' & Q1 & Q2).
    { rewrite app_length, order_len, le_bytes_len, <- !app_assoc. rewrite <- !app_assoc in R2. exact R2. }
    rewrite Q1. cbn [obind]. exists b'. split; [reflexivity|].
    rewrite !app_length, order_len, le_bytes_len, <- !app_assoc in Q2. rewrite app_length, order_len, le_bytes_len.
    replace (length done + (n + length (layout fl l)))%nat with (length done + n + length (layout fl l))%nat by lia. exact Q2.
Qed.
Lemma roundtrip_ok fl l b : is_stream b (mkss [] 0 fl) -> 4 * Z.of_nat (length (layout fl l)) < W64 ->
  exists b1 b2 k, write_uints b l = Ok b1 /\ is_stream b1 (mkss (layout fl l ++ repeat 0 k) (length (layout fl l)) fl) /\
    read_uints (snd (bs_rewind b1)) (map fst l) = Ok (map (fun x => snd x mod 256 ^ Z.of_nat (fst x)) l, b2).
Proof.
  intros H B. destruct (write_uints_ok fl l b [] 0 H) as (b1 & k & W1 & W2); [cbn; lia|cbn [length]; lia|].
  cbn [app] in W2. destruct (rewind_ok b1 _ W2) as [_ R]. destruct (read_uints_ok fl l (snd (bs_rewind b1)) [] k R) as (b2 & Q & _).
  exists b1, b2, k. auto.
Qed.
