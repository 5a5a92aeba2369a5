(** C13: basename with a suffix, for every path and every suffix. *)
From Verif Require Import Prelude CstrModel CstrSpec CstrProofs CstrSearch CstrText PropExact.
Local Open Scope Z_scope.

(** the path is a directory part (empty, or ending in a separator) and a last name *)
Definition dir_part (D : list Z) : Prop := D = [] \/ exists d, D = d ++ [47].
Lemma base_start D e : dir_part D -> ~ In 47 e -> exists r, zt_cstr_rfind (D ++ e) 0 (-1) PATH_SEPERATOR = Ok r /\ (if negb (r =? -1) then r + 1 else 0) = zlen D.
Proof.
  intros [-> | [d ->]] N.
  - exists (-1). split; [now apply rfind_no_sep|reflexivity].
  - exists (zlen d). rewrite <- app_assoc. cbn [app]. split; [now apply rfind_last_sep|]. pose proof (zlen_nonneg d). replace (zlen d =? -1) with false by lia. cbn [negb]. rewrite zlen_app. reflexivity.
Qed.
Lemma base_range (D e : list Z) j : e <> [] -> - zlen (D ++ e) <= j -> in_range (D ++ e) (zlen D) j.
Proof. intros N J. right. unfold zlen in *. lia. Qed.
Lemma base_low (D e : list Z) : e <> [] -> low (Z.of_nat (length (D ++ e))) (zlen D) (-1) = zlen D /\ high (Z.of_nat (length (D ++ e))) (zlen D) (-1) = zlen (D ++ e) - 1.
Proof. intros N. destruct e as [|x e]; [congruence|]. unfold low, high, index, zlen. rewrite app_length. cbn [length]. change (-1 <? 0) with true. replace (Z.of_nat (length D) <? 0) with false by lia. cbv iota. lia. Qed.
Lemma slice_mid (D e : list Z) m : 0 <= m < zlen e -> slice (D ++ e) (zlen D) (zlen D + m) = firstn (Z.to_nat (m + 1)) e.
Proof.
  intros M. unfold slice, low, high, index, zlen in *. rewrite app_length. replace (Z.of_nat (length D) <? 0) with false by lia. replace (Z.of_nat (length D) + m <? 0) with false by lia. cbv iota.
  replace (Z.to_nat (Z.min (Z.min (Z.of_nat (length D)) (Z.of_nat (length D + length e) - 1)) (Z.min (Z.of_nat (length D) + m) (Z.of_nat (length D + length e) - 1)))) with (length D) by lia. rewrite skipn_app_exact. f_equal. lia.
Qed.
Lemma occurs_in D e sfx k : e <> [] -> (occurs (D ++ e) sfx (zlen D) (-1) k <-> exists a b, e = a ++ sfx ++ b /\ k = zlen D + zlen a).
Proof.
  intros N. unfold occurs. destruct (base_low D e N) as [-> ->]. split.
  - intros (L & H & bf & af & E & K). assert (LB : (length D <= length bf)%nat) by (unfold zlen in *; lia). exists (skipn (length D) bf), af. split.
    + assert (X : skipn (length D) (D ++ e) = skipn (length D) (bf ++ sfx ++ af)) by congruence. rewrite skipn_app_exact in X. rewrite X, skipn_app. replace (length D - length bf)%nat with 0%nat by lia. reflexivity.
    + unfold zlen. rewrite skipn_length. lia.
  - intros (a & b & -> & ->). unfold zlen. rewrite !app_length. pose proof (zlen_nonneg b). unfold zlen in *. split; [lia|]. split; [lia|]. exists (D ++ a), b. rewrite <- !app_assoc. split; [reflexivity|]. rewrite app_length. lia.
Qed.
(** what is left of the name: from the place of the last occurrence of the suffix on everything is cut, but the first character of the suffix stays unless it is a dot; of a name that begins with the dot of the suffix one character stays, with the separator before it *)
Definition cut_name (D a sfx : list Z) : list Z :=
  match sfx with
  | [] => a
  | c :: _ => if c =? 46 then match a with [] => match D with [] => [46] | _ => [47; 46] end | _ => a end else a ++ [c]
  end.
Theorem C13_basename_suffix_exact : forall npath len D e sfx, 0 <= len <= zlen npath -> dir_part D -> ~ In 47 e -> e <> [] -> cstr sfx ->
  (sfx = [] \/ (forall a b, e <> a ++ sfx ++ b) -> zt_cstr_basename npath len (D ++ e) (Some sfx) = Ok (shown (Z.to_nat len) e npath)) /\
  (forall a b, sfx <> [] -> e = a ++ sfx ++ b -> (forall a' b', e = a' ++ sfx ++ b' -> (length a' <= length a)%nat) ->
     zt_cstr_basename npath len (D ++ e) (Some sfx) = Ok (shown (Z.to_nat len) (cut_name D a sfx) npath)).
Proof.
  intros npath len D e sfx L DP N NE CS. destruct (base_start D e DP N) as (r & ER & ES). pose proof (zlen_nonneg D) as ZD. pose proof (zlen_pos e NE) as ZE. pose proof (zlen_app D e) as ZA.
  assert (B : zt_cstr_basename npath len (D ++ e) (Some sfx) = (k <- zt_cstr_rfind (D ++ e) (zlen D) (-1) sfx ;; end_ <- (if 0 <? k then c <- rd (D ++ e) k ;; Ok (if c =? 46 then k - 1 else k) else Ok k) ;; ' (_, np) <- zt_cstr_copy (D ++ e) (zlen D) end_ (repeat 0 (Z.to_nat len) ++ skipn (Z.to_nat len) npath) len ;; Ok np)).
  { unfold zt_cstr_basename. rewrite memset0_ok by lia. cbn [obind]. rewrite ER. cbn [obind]. change (zlen PATH_SEPERATOR) with 1. rewrite ES. cbv zeta. destruct (zt_cstr_rfind (D ++ e) (zlen D) (-1) sfx); reflexivity. }
  assert (R1 : in_range (D ++ e) (zlen D) (-1)) by (apply base_range; [exact NE|lia]).
  assert (SE : slice (D ++ e) (zlen D) (-1) = e) by (apply slice_suffix; exact NE).
  rewrite B. split.
  - intros H. assert (K : zt_cstr_rfind (D ++ e) (zlen D) (-1) sfx = Ok (-1)).
    { destruct H as [-> | H].
      - unfold zt_cstr_rfind. destruct (CONVERT_ne (D ++ e) (zlen D) (-1)) as (E & _); [destruct D; [exact NE|discriminate]|lia|lia|]. rewrite E. reflexivity.
      - destruct (list_eq_dec Z.eq_dec sfx []) as [-> | SN]; [exfalso; apply (H [] e); reflexivity|]. destruct (rfind_ok (D ++ e) (zlen D) (-1) sfx R1 CS SN) as (k & E & [(O & _)|(-> & _)]); [|exact E]. exfalso. apply occurs_in in O as (a & b & E2 & _); [|exact NE]. now apply (H a b). }
    rewrite K. cbn [obind]. change (0 <? -1) with false. cbn [obind]. rewrite shown_ok by (auto; lia). now rewrite SE.
  - intros a b SN EQ LAST. destruct (rfind_ok (D ++ e) (zlen D) (-1) sfx R1 CS SN) as (k & E & HK). assert (K : k = zlen D + zlen a).
    { assert (O : occurs (D ++ e) sfx (zlen D) (-1) (zlen D + zlen a)) by (apply occurs_in; [exact NE|eauto]). destruct HK as [(O1 & HL)|(_ & NO)]; [|exfalso; now apply (NO (zlen D + zlen a))]. apply occurs_in in O1 as (a' & b' & E2 & K); [|exact NE]. pose proof (LAST a' b' E2) as LA. destruct (Z.lt_ge_cases k (zlen D + zlen a)) as [G|G]; [exfalso; now apply (HL (zlen D + zlen a) G)|]. unfold zlen in *. lia. }
    subst k. rewrite E. cbn [obind]. clear HK. destruct sfx as [|c sfx]; [congruence|]. pose proof (zlen_nonneg a) as ZN.
    assert (LE : zlen a < zlen e) by (rewrite EQ, zlen_app; cbn [app]; unfold zlen; cbn [length]; lia).
    assert (RD : rd (D ++ e) (zlen D + zlen a) = Ok c).
    { assert (RA : forall s1 x s2, rd (s1 ++ x :: s2) (zlen s1) = Ok x). { intros s1 x s2. rewrite rd_in by (unfold zlen; rewrite app_length; cbn [length]; lia). unfold zlen. rewrite Nat2Z.id, nth_middle. reflexivity. }
      rewrite <- zlen_app, EQ. replace (D ++ a ++ (c :: sfx) ++ b) with ((D ++ a) ++ c :: (sfx ++ b)) by (rewrite <- app_assoc; reflexivity). apply RA. }
    cbn [cut_name]. assert (PLAIN : slice (D ++ e) (zlen D) (zlen D + zlen a) = a ++ [c]).
    { rewrite slice_mid by lia. rewrite EQ. cbn [app]. replace (Z.to_nat (zlen a + 1)) with (length (a ++ [c])) by (rewrite app_length; cbn [length]; unfold zlen; lia). replace (a ++ c :: sfx ++ b) with ((a ++ [c]) ++ sfx ++ b) by (rewrite <- app_assoc; reflexivity). rewrite firstn_app, Nat.sub_diag, firstn_all, firstn_O, app_nil_r. reflexivity. }
    destruct (0 <? zlen D + zlen a) eqn:P0.
    + rewrite RD. cbn [obind]. destruct (c =? 46) eqn:C.
      * rewrite shown_ok by (try apply base_range; auto; lia). do 2 f_equal. destruct a as [|x a].
        -- destruct D as [|y D]; [discriminate|]. destruct DP as [DP|[d DP]]; [discriminate|]. rewrite DP. rewrite EQ. apply Z.eqb_eq in C. subst c. cbn [app]. change (zlen (@nil Z)) with 0. rewrite zlen_app. change (zlen [47]) with 1. replace (zlen d + 1 + 0 - 1) with (zlen d) by lia. rewrite <- app_assoc. cbn [app].
           unfold slice, low, high, index. pose proof (zlen_nonneg d). rewrite app_length. cbn [length]. replace (zlen d + 1 <? 0) with false by lia. replace (zlen d <? 0) with false by lia. cbv iota. unfold zlen. match goal with |- firstn ?n (skipn ?k _) = _ => replace k with (length d) by lia; replace n with 2%nat by lia end. rewrite skipn_app_exact. reflexivity.
        -- replace (zlen D + zlen (x :: a) - 1) with (zlen D + (zlen (x :: a) - 1)) by lia. rewrite slice_mid by (unfold zlen in *; cbn [length] in *; lia). rewrite EQ. replace (Z.to_nat (zlen (x :: a) - 1 + 1)) with (length (x :: a)) by (unfold zlen; lia). rewrite firstn_app, Nat.sub_diag, firstn_all, firstn_O, app_nil_r. reflexivity.
      * rewrite shown_ok by (try apply base_range; auto; lia). now rewrite PLAIN.
    + cbn [obind]. rewrite shown_ok by (try apply base_range; auto; lia). rewrite PLAIN. apply Z.ltb_ge in P0. assert (DN : D = []) by (destruct D; [reflexivity|unfold zlen in *; cbn [length] in *; lia]). assert (AN : a = []) by (destruct a; [reflexivity|unfold zlen in *; cbn [length] in *; lia]). subst D a. cbn [app]. destruct (c =? 46) eqn:C; [|reflexivity]. apply Z.eqb_eq in C. now subst c.
Qed.
(** "a/b.c.d" without ".c" is "b"; "a/.c" without ".c" is "/."; "x/foo" without "oo" is "fo" *)
Example C13_basename_suffix_ex : dir_part [97; 47] /\ cut_name [97; 47] [98] [46; 99] = [98] /\ cut_name [97; 47] [] [46; 99] = [47; 46] /\ cut_name [120; 47] [102] [111; 111] = [102; 111] /\
  zt_cstr_basename (repeat 9 8) 8 ([97; 47] ++ [46; 99]) (Some [46; 99]) = Ok (shown 8 [47; 46] (repeat 9 8)).
Proof. split; [right; exists [97]; reflexivity|]. vm_compute. auto. Qed.
Print Assumptions C13_basename_suffix_exact.
