(** Spans, chomp, strip, basename, dirname, path_append. *)
From Verif Require Import Prelude CstrModel CstrSpec CstrProofs CstrSearch.
Open Scope Z_scope.

Lemma strspn_nonneg l set : 0 <= strspn l set.
Proof. induction l as [|a l IH]; cbn [strspn]; [lia|]. destruct (inset set a); lia. Qed.
Lemma strcspn_nonneg l set : 0 <= strcspn l set.
Proof. induction l as [|a l IH]; cbn [strcspn]; [lia|]. destruct (inset set a); lia. Qed.
Lemma strspn_0 l set : strspn l set = 0 <-> match l with [] => True | c :: _ => ~ In c set end.
Proof.
  destruct l as [|c l]; cbn [strspn]; [split; auto|].
  destruct (inset set c) eqn:E.
  - apply inset_In in E. pose proof (strspn_nonneg l set) as H.
    split; [intros; exfalso; lia|tauto].
  - split; [|auto]. intros _ H. apply inset_In in H. congruence.
Qed.
Lemma strcspn_0 l set : strcspn l set = 0 <-> match l with [] => True | c :: _ => In c set end.
Proof.
  destruct l as [|c l]; cbn [strcspn]; [split; auto|].
  destruct (inset set c) eqn:E.
  - apply inset_In in E. split; auto.
  - pose proof (strcspn_nonneg l set) as H.
    split; [intros; exfalso; lia|]. intros H'. apply inset_In in H'. congruence.
Qed.

Lemma Forall_nth0 {A} (P : A -> Prop) l d : (forall k, (k < length l)%nat -> P (nth k l d)) -> Forall P l.
Proof.
  intros H. apply Forall_forall. intros x Hx. destruct (In_nth l x d Hx) as (k & Hk & <-). auto.
Qed.

(** the loop of rspn: position of the last non-member among 1..n *)
Lemma rspn_loop_ok s A : forall n, (n < length s)%nat ->
  (exists k, (1 <= k <= n)%nat /\ ~ In (nth k s 0) A /\ (forall m, (k < m <= n)%nat -> In (nth m s 0) A) /\
     rspn_loop n s A = zlen s - Z.of_nat k - 1) \/
  ((forall m, (1 <= m <= n)%nat -> In (nth m s 0) A) /\ rspn_loop n s A = zlen s).
Proof.
  induction n as [|n IH]; intros Hn; [right; split; [intros; lia|reflexivity]|].
  change (rspn_loop (S n) s A) with (if strspn (skipn (S n) s) A =? 0 then zlen s - Z.of_nat (S n) - 1 else rspn_loop n s A).
  rewrite (nth_skipn_cons s (S n) 0) by lia.
  destruct (strspn (nth (S n) s 0 :: skipn (S (S n)) s) A =? 0) eqn:E.
  - apply Z.eqb_eq, strspn_0 in E. left. exists (S n). repeat split; try lia; auto.
  - assert (HI : In (nth (S n) s 0) A).
    { destruct (in_dec Z.eq_dec (nth (S n) s 0) A); [assumption|].
      exfalso. assert (strspn (nth (S n) s 0 :: skipn (S (S n)) s) A = 0) by (apply strspn_0; assumption). lia. }
    destruct (IH ltac:(lia)) as [(k & K1 & K2 & K3 & K4)|(K1 & K2)].
    + left. exists k. repeat split; try lia; auto. intros m Hm. destruct (Nat.eq_dec m (S n)) as [->|]; [assumption|]. apply K3. lia.
    + right. split; [|assumption]. intros m Hm. destruct (Nat.eq_dec m (S n)) as [->|]; [assumption|]. apply K1. lia.
Qed.
Lemma rcspn_loop_ok s A : forall n, (n < length s)%nat ->
  (exists k, (1 <= k <= n)%nat /\ In (nth k s 0) A /\ (forall m, (k < m <= n)%nat -> ~ In (nth m s 0) A) /\
     rcspn_loop n s A = Z.of_nat k) \/
  ((forall m, (1 <= m <= n)%nat -> ~ In (nth m s 0) A) /\ rcspn_loop n s A = zlen s).
Proof.
  induction n as [|n IH]; intros Hn; [right; split; [intros; lia|reflexivity]|].
  change (rcspn_loop (S n) s A) with (if strcspn (skipn (S n) s) A =? 0 then Z.of_nat (S n) else rcspn_loop n s A).
  rewrite (nth_skipn_cons s (S n) 0) by lia.
  destruct (strcspn (nth (S n) s 0 :: skipn (S (S n)) s) A =? 0) eqn:E.
  - apply Z.eqb_eq, strcspn_0 in E. left. exists (S n). repeat split; try lia; auto.
  - assert (HI : ~ In (nth (S n) s 0) A).
    { intros Hi. assert (strcspn (nth (S n) s 0 :: skipn (S (S n)) s) A = 0) by (apply strcspn_0; assumption). lia. }
    destruct (IH ltac:(lia)) as [(k & K1 & K2 & K3 & K4)|(K1 & K2)].
    + left. exists k. repeat split; try lia; auto. intros m Hm. destruct (Nat.eq_dec m (S n)) as [->|]; [assumption|]. apply K3. lia.
    + right. split; [|assumption]. intros m Hm. destruct (Nat.eq_dec m (S n)) as [->|]; [assumption|]. apply K1. lia.
Qed.

(** a ++ [c] ++ b with c outside and b inside the set *)
Lemma rspn_ok a c b A : a <> [] -> ~ In c A -> Forall (fun x => In x A) b -> zt_cstr_rspn (a ++ c :: b) A = zlen b.
Proof.
  intros Ha Hc Hb. unfold zt_cstr_rspn. set (s := a ++ c :: b).
  assert (Hlen : length s = (length a + S (length b))%nat) by (unfold s; rewrite app_length; reflexivity).
  assert (Ha1 : (1 <= length a)%nat) by (destruct a; [congruence|cbn; lia]).
  assert (Hat : nth (length a) s 0 = c) by (unfold s; rewrite app_nth2, Nat.sub_diag by lia; reflexivity).
  assert (Haft : forall m, (length a < m < length s)%nat -> In (nth m s 0) A).
  { intros m Hm. unfold s. rewrite app_nth2 by lia. destruct (m - length a)%nat as [|k] eqn:Ek; [lia|]. cbn [nth].
    rewrite Forall_forall in Hb. apply Hb, nth_In. lia. }
  destruct (rspn_loop_ok s A (length s - 1) ltac:(lia)) as [(k & K1 & K2 & K3 & K4)|(K1 & K2)].
  - rewrite K4. assert (k = length a).
    { destruct (lt_eq_lt_dec k (length a)) as [[|]|]; [|assumption|].
      - exfalso. apply Hc. rewrite <- Hat. apply K3. lia.
      - exfalso. apply K2, Haft. lia. }
    subst k. unfold zlen. lia.
  - exfalso. apply Hc. rewrite <- Hat. apply K1. lia.
Qed.
Lemma rspn_all s A : Forall (fun x => In x A) s -> zt_cstr_rspn s A = zlen s.
Proof.
  intros H. unfold zt_cstr_rspn. destruct s as [|c s]; [reflexivity|].
  destruct (rspn_loop_ok (c :: s) A (length (c :: s) - 1)) as [(k & K1 & K2 & K3 & K4)|(K1 & K2)]; [cbn [length]; lia| |assumption].
  exfalso. apply K2. rewrite Forall_forall in H. apply H, nth_In. cbn [length] in *. lia.
Qed.
Lemma rspn_single c b A : Forall (fun x => In x A) b -> zt_cstr_rspn (c :: b) A = zlen (c :: b).
Proof.
  intros H. unfold zt_cstr_rspn.
  destruct (rspn_loop_ok (c :: b) A (length (c :: b) - 1)) as [(k & K1 & K2 & K3 & K4)|(K1 & K2)]; [cbn [length]; lia| |assumption].
  exfalso. apply K2. destruct k as [|k]; [lia|]. cbn [nth]. rewrite Forall_forall in H. apply H, nth_In. cbn [length] in *. lia.
Qed.
Lemma rcspn_ok a c b A : a <> [] -> In c A -> Forall (fun x => ~ In x A) b -> zt_cstr_rcspn (a ++ c :: b) A = zlen a.
Proof.
  intros Ha Hc Hb. unfold zt_cstr_rcspn. set (s := a ++ c :: b).
  assert (Hlen : length s = (length a + S (length b))%nat) by (unfold s; rewrite app_length; reflexivity).
  assert (Ha1 : (1 <= length a)%nat) by (destruct a; [congruence|cbn; lia]).
  assert (Hat : nth (length a) s 0 = c) by (unfold s; rewrite app_nth2, Nat.sub_diag by lia; reflexivity).
  assert (Haft : forall m, (length a < m < length s)%nat -> ~ In (nth m s 0) A).
  { intros m Hm. unfold s. rewrite app_nth2 by lia. destruct (m - length a)%nat as [|k] eqn:Ek; [lia|]. cbn [nth].
    rewrite Forall_forall in Hb. apply Hb, nth_In. lia. }
  destruct (rcspn_loop_ok s A (length s - 1) ltac:(lia)) as [(k & K1 & K2 & K3 & K4)|(K1 & K2)].
  - rewrite K4. assert (k = length a).
    { destruct (lt_eq_lt_dec k (length a)) as [[|]|]; [|assumption|].
      - exfalso. apply (K3 (length a)); [lia|]. rewrite Hat. assumption.
      - exfalso. apply (Haft k); [lia|assumption]. }
    subst k. unfold zlen. lia.
  - exfalso. apply (K1 (length a)); [lia|]. rewrite Hat. assumption.
Qed.
Lemma rcspn_none s A : Forall (fun x => ~ In x A) s -> zt_cstr_rcspn s A = zlen s.
Proof.
  intros H. unfold zt_cstr_rcspn. destruct s as [|c s]; [reflexivity|].
  destruct (rcspn_loop_ok (c :: s) A (length (c :: s) - 1)) as [(k & K1 & K2 & K3 & K4)|(K1 & K2)]; [cbn [length]; lia| |assumption].
  exfalso. rewrite Forall_forall in H. apply (H (nth k (c :: s) 0)); [|assumption]. apply nth_In. cbn [length] in *. lia.
Qed.

(** *** chomp *)
Lemma mset_ok m i c : 0 <= i < zlen m -> mset m i c = Ok (upd m (Z.to_nat i) c).
Proof. intros H. unfold mset. replace ((0 <=? i) && (i <? zlen m)) with true by lia. reflexivity. Qed.
Lemma upd_mid {A} (a : list A) x b v : upd (a ++ x :: b) (length a) v = a ++ v :: b.
Proof. rewrite upd_app_r by lia. rewrite Nat.sub_diag. reflexivity. Qed.

Lemma chomp_nl s rest : cstr s -> 
  zt_cstr_chomp ((s ++ [10]) ++ 0 :: rest) = Ok (s ++ 0 :: 0 :: rest).
Proof.
  intros Hs. unfold zt_cstr_chomp. rewrite cstring_app by (apply cstr_app; split; [assumption|constructor; [lia|constructor]]).
  rewrite zlen_app, zlen1. pose proof (zlen_nonneg s). replace (zlen s + 1 =? 0) with false by lia.
  replace (Z.to_nat (zlen s + 1 - 1)) with (length s) by (unfold zlen; lia).
  rewrite <- app_assoc. cbn [app]. rewrite app_nth2, Nat.sub_diag by lia. cbn [nth]. change (10 =? 10) with true. cbv iota.
  rewrite mset_ok by (rewrite zlen_app; unfold zlen; cbn [length]; lia).
  replace (Z.to_nat (zlen s + 1 - 1)) with (length s) by (unfold zlen; lia). rewrite upd_mid. reflexivity.
Qed.
Lemma chomp_other s c rest : cstr (s ++ [c]) -> c <> 10 ->
  zt_cstr_chomp ((s ++ [c]) ++ 0 :: rest) = Ok ((s ++ [c]) ++ 0 :: rest).
Proof.
  intros Hs Hc. unfold zt_cstr_chomp. rewrite cstring_app by assumption.
  rewrite zlen_app, zlen1. pose proof (zlen_nonneg s). replace (zlen s + 1 =? 0) with false by lia.
  replace (Z.to_nat (zlen s + 1 - 1)) with (length s) by (unfold zlen; lia).
  rewrite <- app_assoc. cbn [app]. rewrite app_nth2, Nat.sub_diag by lia. cbn [nth].
  replace (c =? 10) with false by lia. reflexivity.
Qed.

(** *** strip *)
Definition blank (c : Z) : Prop := c = 32 \/ c = 9.
Lemma blank_ws c : In c WHITESPACE <-> blank c.
Proof. unfold WHITESPACE, blank. cbn. intuition lia. Qed.
Lemma strspn_blank l b : Forall blank l -> match b with [] => True | c :: _ => ~ blank c end ->
  strspn (l ++ b) WHITESPACE = zlen l.
Proof.
  induction 1 as [|c l Hc Hl IH]; intros Hb; cbn [app].
  - apply strspn_0. destruct b; [auto|]. rewrite blank_ws. assumption.
  - cbn [strspn]. rewrite <- blank_ws, <- inset_In in Hc. rewrite Hc. rewrite IH by assumption. unfold zlen; cbn [length]; lia.
Qed.
Lemma cstr_app3 a b c : cstr (a ++ b ++ c) -> cstr a /\ cstr b /\ cstr c.
Proof. rewrite !cstr_app. tauto. Qed.
Lemma snoc_cases {A} (l : list A) : l = [] \/ exists a x, l = a ++ [x].
Proof. destruct l as [|y l]; [auto|]. right. destruct (exists_last (l := y :: l) ltac:(discriminate)) as (a & x & E). eauto. Qed.

Lemma skipn_app_exact {A} (a b : list A) : skipn (length a) (a ++ b) = b.
Proof. rewrite skipn_app, skipn_all, Nat.sub_diag. reflexivity. Qed.

(** strip on text without newline: leading blanks [l], body [b], trailing blanks [r] *)
Lemma strip_ok l b r rest : cstr (l ++ b ++ r) -> Forall blank l -> Forall blank r -> ~ In 10 b ->
  (b = [] -> r = []) ->
  match b with [] => True | c :: _ => ~ blank c end ->
  match rev b with [] => True | c :: _ => ~ blank c end ->
  (r = [] \/ (2 <= length b)%nat) ->
  exists m, zt_cstr_strip ((l ++ b ++ r) ++ 0 :: rest) = Ok m /\ cstring m = b /\
            length m = length ((l ++ b ++ r) ++ 0 :: rest).
Proof.
  intros Hc Hl Hr Hnl Hbr Hb1 Hb2 Hlen. unfold zt_cstr_strip. rewrite cstring_app by assumption. cbv zeta.
  assert (Hfirst : match b ++ r with [] => True | c :: _ => ~ blank c end).
  { destruct b; [rewrite (Hbr eq_refl); exact I|assumption]. }
  rewrite (strspn_blank l (b ++ r) Hl Hfirst). replace (Z.to_nat (zlen l)) with (length l) by (unfold zlen; lia). rewrite skipn_app_exact.
  destruct (cstr_app3 _ _ _ Hc) as (Cl & Cb & Cr).
  assert (Hin : inset (b ++ r) 10 = false).
  { apply not_true_iff_false. rewrite inset_In, in_app_iff. intros [H|H]; [auto|].
    rewrite Forall_forall in Hr. specialize (Hr 10 H). unfold blank in Hr. lia. }
  assert (HrA : Forall (fun x => In x (WHITESPACE ++ [10])) r).
  { eapply Forall_impl; [|exact Hr]. intros x Hx. apply in_app_iff. left. apply blank_ws, Hx. }
  assert (Hlm : length (l ++ b ++ r) = (length l + length (b ++ r))%nat) by (rewrite app_length; reflexivity).
  assert (Hm : length ((b ++ r) ++ 0 :: skipn (length (b ++ r) + 1) ((l ++ b ++ r) ++ 0 :: rest)) = length ((l ++ b ++ r) ++ 0 :: rest)).
  { rewrite app_length. cbn [length]. rewrite skipn_length, (app_length (l ++ b ++ r)). cbn [length]. lia. }
  set (tail := skipn (length (b ++ r) + 1) ((l ++ b ++ r) ++ 0 :: rest)) in *.
  rewrite Hin.
  destruct (snoc_cases b) as [->|(b' & x & Eb)].
  - rewrite (Hbr eq_refl) in *. cbn [app] in *. exists (0 :: tail). change (zt_cstr_rspn [] (WHITESPACE ++ [10])) with 0.
    change (zlen [] - 0 =? 0) with true. cbv iota. split; [reflexivity|]. split; [reflexivity|exact Hm].
  - assert (Hx : ~ In x (WHITESPACE ++ [10])).
    { subst b. rewrite rev_app_distr in Hb2. cbn in Hb2. rewrite in_app_iff, blank_ws. cbn. intros [H|[H|[]]]; [auto|].
      apply Hnl. apply in_app_iff. right. left. auto. }
    destruct b' as [|y b'].
    + cbn [app] in Eb. assert (r = []) by (destruct Hlen as [|Hlen]; [assumption|subst b; cbn in Hlen; lia]). subst b r.
      cbn [app] in *. rewrite rspn_single by constructor. rewrite !zlen1. change (1 - 1 =? 0) with true. cbv iota.
      eexists; split; [reflexivity|]. split; [|exact Hm]. apply (cstring_app [x] tail). assumption.
    + assert (Hrs : zt_cstr_rspn (b ++ r) (WHITESPACE ++ [10]) = zlen r).
      { subst b. rewrite <- app_assoc. cbn [app]. apply (rspn_ok (y :: b') x r); [discriminate|assumption|assumption]. }
      rewrite Hrs. assert (HL : zlen (b ++ r) - zlen r = zlen b) by (rewrite zlen_app; lia).
      rewrite HL. assert (0 < zlen b) by (apply zlen_pos; subst b; discriminate).
      replace (zlen b =? 0) with false by lia.
      rewrite mset_ok by (unfold zlen; rewrite Hm, !app_length; cbn [length]; lia).
      eexists. split; [reflexivity|]. unfold zlen. rewrite Nat2Z.id. split; [|rewrite upd_length; exact Hm].
      rewrite <- app_assoc. destruct r as [|z r]; cbn [app]; rewrite upd_mid; apply cstring_app; assumption.
Qed.

(** strip when the trailing run contains a newline: the newline is kept *)
Lemma strip_newline l b x r rest : cstr (l ++ (b ++ [x]) ++ r) -> Forall blank l ->
  Forall (fun c => blank c \/ c = 10) r -> In 10 r ->
  b <> [] -> ~ blank (hd 0 (b ++ [x])) -> ~ (blank x \/ x = 10) ->
  exists m, zt_cstr_strip ((l ++ (b ++ [x]) ++ r) ++ 0 :: rest) = Ok m /\ cstring m = b ++ [x; 10].
Proof.
  intros Hc Hl Hr Hnl Hb Hh Hx. unfold zt_cstr_strip. rewrite cstring_app by assumption. cbv zeta.
  assert (Hfirst : match (b ++ [x]) ++ r with [] => True | c :: _ => ~ blank c end).
  { destruct b; [congruence|]. exact Hh. }
  rewrite (strspn_blank l _ Hl Hfirst). replace (Z.to_nat (zlen l)) with (length l) by (unfold zlen; lia). rewrite skipn_app_exact.
  destruct (cstr_app3 _ _ _ Hc) as (Cl & Cb & Cr).
  replace (inset ((b ++ [x]) ++ r) 10) with true by (symmetry; rewrite inset_In, in_app_iff; auto).
  assert (Hrs : zt_cstr_rspn ((b ++ [x]) ++ r) (WHITESPACE ++ [10]) = zlen r).
  { rewrite <- app_assoc. cbn [app]. apply rspn_ok; [assumption| |].
    - rewrite in_app_iff, blank_ws. cbn. intros [H|[H|[]]]; apply Hx; auto.
    - eapply Forall_impl; [|exact Hr]. cbv beta. intros c Hc'. rewrite in_app_iff, blank_ws. cbn. intuition. }
  rewrite Hrs. set (bx := b ++ [x]) in *.
  assert (HL : zlen (bx ++ r) - zlen r = zlen bx) by (rewrite zlen_app; lia).
  rewrite HL. assert (0 < zlen bx) by (apply zlen_pos; unfold bx; destruct b; discriminate).
  replace (zlen bx =? 0) with false by lia.
  set (tail := skipn _ _).
  destruct r as [|z r]; [destruct Hnl|].
  rewrite <- app_assoc. cbn [app].
  rewrite mset_ok by (unfold zlen; rewrite !app_length; cbn [length]; lia). cbn [obind].
  replace (Z.to_nat (zlen bx)) with (length bx) by (unfold zlen; lia). rewrite upd_mid.
  rewrite mset_ok by (unfold zlen; rewrite !app_length; cbn [length]; rewrite app_length; cbn [length]; lia).
  eexists; split; [reflexivity|].
  replace (Z.to_nat (zlen bx + 1)) with (length (bx ++ [10])) by (rewrite app_length; unfold zlen; cbn [length]; lia).
  destruct r as [|z' r]; cbn [app].
  - change (bx ++ 10 :: 0 :: tail) with (bx ++ [10] ++ 0 :: tail). rewrite app_assoc, upd_mid.
    rewrite cstring_app by (apply cstr_app; split; [assumption|constructor; [lia|constructor]]). unfold bx. rewrite <- app_assoc. reflexivity.
  - change (bx ++ 10 :: z' :: r ++ 0 :: tail) with (bx ++ [10] ++ z' :: (r ++ 0 :: tail)). rewrite app_assoc, upd_mid.
    rewrite cstring_app by (apply cstr_app; split; [assumption|constructor; [lia|constructor]]). unfold bx. rewrite <- app_assoc. reflexivity.
Qed.

(** *** basename / dirname *)
Lemma memset0_ok m len : 0 <= len <= zlen m -> memset0 m len = Ok (repeat 0 (Z.to_nat len) ++ skipn (Z.to_nat len) m).
Proof. intros H. unfold memset0. replace (len <=? zlen m) with true by lia. reflexivity. Qed.

(** copying a slice shorter than the zeroed buffer yields a proper string *)
Lemma copy_zeroed s i j len rest : in_range s i j -> cstr s -> 0 <= len -> zlen (slice s i j) < len ->
  exists n m, zt_cstr_copy s i j (repeat 0 (Z.to_nat len) ++ rest) len = Ok (n, m) /\ cstring m = slice s i j.
Proof.
  intros H Hc Hl Hlen. rewrite copy_ok; [|assumption|rewrite zlen_app; unfold zlen; rewrite repeat_length; lia].
  do 2 eexists; split; [reflexivity|].
  destruct s as [|c s].
  - rewrite slice_nil in *. cbn [piece]. destruct (Z.to_nat len) eqn:E; [unfold zlen in Hlen; cbn in Hlen; lia|]. reflexivity.
  - rewrite piece_ne by discriminate. set (sl := slice (c :: s) i j) in *.
    rewrite Z.min_l by lia. unfold zlen in *. rewrite Nat2Z.id.
    rewrite firstn_all2 by lia.
    assert (HR : skipn (length sl) (repeat 0 (Z.to_nat len) ++ rest) = 0 :: (repeat 0 (Z.to_nat len - length sl - 1) ++ rest)).
    { replace (Z.to_nat len) with (length sl + S (Z.to_nat len - length sl - 1))%nat at 1 by lia.
      rewrite repeat_app. rewrite <- app_assoc. rewrite <- (repeat_length 0 (length sl)) at 1. rewrite skipn_app_exact. reflexivity. }
    rewrite HR. apply cstring_app, cstr_slice, Hc.
Qed.

Lemma occ_iff_nth s c k : occ s [c] k -> 0 <= k < zlen s /\ nth (Z.to_nat k) s 0 = c.
Proof.
  intros (b & a & E & L). assert (0 <= k < zlen s) by (rewrite E, zlen_app; cbn [app]; unfold zlen in *; cbn [length]; lia).
  split; [assumption|]. apply occ_single; [assumption|]. exists b, a. auto.
Qed.

(** rfind of a one-character separator *)
Lemma rfind_sep_found p c q i j : low (zlen (p ++ c :: q)) i j <= zlen p -> zlen p <= high (zlen (p ++ c :: q)) i j ->
  in_range (p ++ c :: q) i j -> 0 < c < 256 ->
  (forall k, zlen p < k <= high (zlen (p ++ c :: q)) i j -> nth (Z.to_nat k) (p ++ c :: q) 0 <> c) ->
  zt_cstr_rfind (p ++ c :: q) i j [c] = Ok (zlen p).
Proof.
  intros Hlo Hhi Hr Hc Hno. set (s := p ++ c :: q) in *.
  destruct (rfind_ok s i j [c] Hr) as (r & E & HR); [constructor; [assumption|constructor]|discriminate|].
  rewrite E. f_equal.
  assert (Hocc : occurs s [c] i j (zlen p)).
  { unfold occurs. fold (zlen s). cbn [length]. split; [lia|]. split; [change (Z.of_nat 1) with 1; lia|]. exists p, q. split; [reflexivity|reflexivity]. }
  destruct HR as [(O & Hmax)|(-> & Hn)]; [|exfalso; eapply Hn; eassumption].
  destruct (Z_lt_le_dec r (zlen p)) as [Hlt|Hge]; [exfalso; apply (Hmax (zlen p) Hlt Hocc)|].
  destruct (Z.eq_dec r (zlen p)) as [->|Hne]; [reflexivity|].
  exfalso. destruct O as (O1 & O2 & O3). fold (zlen s) in O2. cbn [length] in O2. 
  assert (O3' : occ s [c] r) by exact O3. apply occ_iff_nth in O3' as (B & N).
  apply (Hno r); [lia|assumption].
Qed.
Lemma rfind_sep_none s c i j : in_range s i j -> 0 < c < 256 ->
  (s <> [] -> forall k, low (zlen s) i j <= k <= high (zlen s) i j -> nth (Z.to_nat k) s 0 <> c) ->
  zt_cstr_rfind s i j [c] = Ok (-1).
Proof.
  intros Hr Hc Hno.
  destruct (rfind_ok s i j [c] Hr) as (r & E & HR); [constructor; [assumption|constructor]|discriminate|].
  rewrite E. f_equal. destruct HR as [(O & Hmax)|(-> & Hn)]; [|reflexivity].
  exfalso. destruct s as [|x s]; [eapply occurs_nil; [|exact O]; discriminate|].
  destruct O as (O1 & O2 & O3). fold (zlen (x :: s)) in O1, O2. cbn [length] in O2. change (Z.of_nat 1) with 1 in O2.
  assert (O3' : occ (x :: s) [c] r) by exact O3. apply occ_iff_nth in O3' as (B & N).
  apply (Hno ltac:(discriminate) r); [lia|assumption].
Qed.

Ltac idx := unfold low, high, index; change (0 <? 0) with false; change (-1 <? 0) with true; change (-2 <? 0) with true; cbv iota; lia.
Lemma low_all n : 0 < n -> low n 0 (-1) = 0. Proof. intros. idx. Qed.
Lemma high_all n : 0 < n -> high n 0 (-1) = n - 1. Proof. intros. idx. Qed.
Lemma slice_suffix p q : q <> [] -> slice (p ++ q) (zlen p) (-1) = q.
Proof.
  intros Hq. pose proof (zlen_pos q Hq). pose proof (zlen_nonneg p). unfold slice. fold (zlen (p ++ q)). rewrite zlen_app.
  unfold low, high, index. replace (zlen p <? 0) with false by lia. change (-1 <? 0) with true. cbv iota.
  replace (Z.to_nat (Z.min (Z.min (zlen p) (zlen p + zlen q - 1)) (-1 + (zlen p + zlen q)))) with (length p) by (unfold zlen in *; lia).
  rewrite skipn_app_exact. apply firstn_all2. unfold zlen in *. lia.
Qed.
Lemma slice_prefix0 p q k : p <> [] -> k = zlen p - 1 -> slice (p ++ q) 0 k = p.
Proof.
  intros Hp ->. pose proof (zlen_pos p Hp). pose proof (zlen_nonneg q). unfold slice. fold (zlen (p ++ q)). rewrite zlen_app.
  unfold low, high, index. change (0 <? 0) with false. replace (zlen p - 1 <? 0) with false by lia. cbv iota.
  replace (Z.to_nat (Z.min (Z.min 0 (zlen p + zlen q - 1)) (Z.min (zlen p - 1) (zlen p + zlen q - 1)))) with O by lia.
  cbn [skipn].
  replace (Z.to_nat _) with (length p) by (unfold zlen in *; lia).
  rewrite firstn_app, firstn_all, Nat.sub_diag. cbn. now rewrite app_nil_r.
Qed.
Lemma slice_all s : slice s 0 (-1) = s.
Proof.
  destruct s as [|c s]; [reflexivity|]. unfold slice. fold (zlen (c :: s)). 
  assert (0 < zlen (c :: s)) by (apply zlen_pos; discriminate). rewrite low_all, high_all by assumption.
  cbn [Z.to_nat skipn]. apply firstn_all2. unfold zlen. lia.
Qed.
Lemma slice_mid p q r a b : q <> [] -> a = zlen p -> b = zlen p + zlen q - 1 -> slice (p ++ q ++ r) a b = q.
Proof.
  intros Hq -> ->. pose proof (zlen_pos q Hq). pose proof (zlen_nonneg p). pose proof (zlen_nonneg r).
  unfold slice. fold (zlen (p ++ q ++ r)). rewrite !zlen_app.
  unfold low, high, index. replace (zlen p <? 0) with false by lia. replace (zlen p + zlen q - 1 <? 0) with false by lia. cbv iota.
  replace (Z.to_nat (Z.min (Z.min (zlen p) (zlen p + (zlen q + zlen r) - 1)) (Z.min (zlen p + zlen q - 1) (zlen p + (zlen q + zlen r) - 1)))) with (length p) by (unfold zlen in *; lia).
  rewrite skipn_app_exact. replace (Z.to_nat _) with (length q) by (unfold zlen in *; lia).
  rewrite firstn_app, firstn_all, Nat.sub_diag. cbn. now rewrite app_nil_r.
Qed.

Lemma nth_mid p c q k : zlen p < k -> nth (Z.to_nat k) (p ++ c :: q) 0 = nth (Z.to_nat (k - zlen p - 1)) q 0.
Proof.
  intros H. rewrite app_nth2 by (unfold zlen in *; lia).
  replace (Z.to_nat k - length p)%nat with (S (Z.to_nat (k - zlen p - 1))) by (unfold zlen in *; lia). reflexivity.
Qed.
Lemma nth_notin q k c : ~ In c q -> c <> 0 -> nth k q 0 <> c.
Proof.
  intros H H0 E. destruct (le_lt_dec (length q) k); [rewrite nth_overflow in E by assumption; lia|].
  apply H. rewrite <- E. apply nth_In. assumption.
Qed.

(* the last path component *)
Lemma rfind_last_sep d b : ~ In 47 b -> zt_cstr_rfind (d ++ 47 :: b) 0 (-1) PATH_SEPERATOR = Ok (zlen d).
Proof.
  intros Hb. pose proof (zlen_nonneg d). pose proof (zlen_nonneg b).
  assert (Hz : zlen (d ++ 47 :: b) = zlen d + zlen b + 1) by (rewrite zlen_app; unfold zlen; cbn [length]; lia).
  apply rfind_sep_found; try rewrite Hz; try rewrite low_all by lia; try rewrite high_all by lia; try lia.
  - right. fold (zlen (d ++ 47 :: b)). lia.
  - intros k Hk. rewrite nth_mid by lia. apply nth_notin; [assumption|lia].
Qed.
Lemma rfind_no_sep b : ~ In 47 b -> zt_cstr_rfind b 0 (-1) PATH_SEPERATOR = Ok (-1).
Proof.
  intros Hb. apply rfind_sep_none; [|lia|].
  - destruct b; [left; reflexivity|right; fold (zlen (z :: b)); assert (0 < zlen (z :: b)) by (apply zlen_pos; discriminate); lia].
  - intros _ k _. apply nth_notin; [assumption|lia].
Qed.

Lemma basename_ok d b npath len : cstr d -> cstr b -> ~ In 47 b -> b <> [] -> zlen b < len <= zlen npath ->
  (exists m, zt_cstr_basename npath len (d ++ 47 :: b) None = Ok m /\ cstring m = b) /\
  (exists m, zt_cstr_basename npath len b None = Ok m /\ cstring m = b).
Proof.
  intros Hd Hcb Hb Hne Hl. pose proof (zlen_nonneg d). pose proof (zlen_pos b Hne).
  assert (Hc : cstr (d ++ 47 :: b)) by (apply cstr_app; split; [assumption|constructor; [lia|assumption]]).
  split.
  - unfold zt_cstr_basename. rewrite memset0_ok by lia. cbn [obind]. rewrite rfind_last_sep by assumption. cbn [obind].
    replace (negb (zlen d =? -1)) with true by lia. change (zlen PATH_SEPERATOR) with 1.
    assert (Es : d ++ 47 :: b = (d ++ [47]) ++ b) by (rewrite <- app_assoc; reflexivity).
    assert (Ez : zlen d + 1 = zlen (d ++ [47])) by (rewrite zlen_app; reflexivity).
    rewrite Ez, Es. pose proof (slice_suffix (d ++ [47]) b Hne) as Hs.
    destruct (copy_zeroed ((d ++ [47]) ++ b) (zlen (d ++ [47])) (-1) len (skipn (Z.to_nat len) npath)) as (n & m & E & R).
    { right. fold (zlen ((d ++ [47]) ++ b)). rewrite (zlen_app _ b). pose proof (zlen_nonneg (d ++ [47])). lia. }
    { rewrite <- Es. assumption. } { lia. } { rewrite Hs. lia. }
    rewrite E. cbn [obind]. eexists; split; [reflexivity|]. rewrite R. exact Hs.
  - unfold zt_cstr_basename. rewrite memset0_ok by lia. cbn [obind]. rewrite rfind_no_sep by assumption. cbn [obind].
    change (negb (-1 =? -1)) with false. cbv iota.
    destruct (copy_zeroed b 0 (-1) len (skipn (Z.to_nat len) npath)) as (n & m & E & R);
      [right; fold (zlen b); lia|assumption|lia|rewrite slice_all; lia|].
    rewrite E. cbn [obind]. eexists; split; [reflexivity|]. rewrite R. apply slice_all.
Qed.

Lemma occ_suffix s t : occ (s ++ t) t (zlen s).
Proof. exists s, []. rewrite app_nil_r. auto. Qed.
Lemma rfind_suffix s t i : t <> [] -> cstr t -> - zlen (s ++ t) <= i -> low (zlen (s ++ t)) i (-1) <= zlen s ->
  zt_cstr_rfind (s ++ t) i (-1) t = Ok (zlen s).
Proof.
  intros Ht Hc Hi Hlo. pose proof (zlen_pos t Ht). pose proof (zlen_nonneg s). pose proof (zlen_app s t) as Hz.
  assert (Hhi : high (zlen (s ++ t)) i (-1) = zlen s + zlen t - 1).
  { unfold high, index. change (-1 <? 0) with true. cbv iota. destruct (i <? 0) eqn:E; lia. }
  destruct (rfind_ok (s ++ t) i (-1) t) as (r & E & HR); [right; fold (zlen (s ++ t)); lia|assumption|assumption|].
  rewrite E. f_equal.
  assert (Hocc : occurs (s ++ t) t i (-1) (zlen s)).
  { unfold occurs. fold (zlen (s ++ t)). fold (zlen t). rewrite Hhi. split; [lia|]. split; [lia|]. apply occ_suffix. }
  destruct HR as [(O & Hmax)|(-> & Hn)]; [|exfalso; eapply Hn; eassumption].
  destruct (Z_lt_le_dec r (zlen s)) as [Hlt|Hge]; [exfalso; apply (Hmax (zlen s) Hlt Hocc)|].
  destruct O as (O1 & O2 & _). fold (zlen (s ++ t)) in O2. fold (zlen t) in O2. rewrite Hhi in O2. lia.
Qed.

(** suffix starting with a dot, at the end of the last component *)
Lemma basename_suffix_ok d st e npath len : cstr d -> cstr st -> cstr e -> ~ In 47 (st ++ 46 :: e) -> st <> [] ->
  zlen st < len <= zlen npath ->
  exists m, zt_cstr_basename npath len (d ++ 47 :: st ++ 46 :: e) (Some (46 :: e)) = Ok m /\ cstring m = st.
Proof.
  intros Hd Hst He Hb Hne Hl. pose proof (zlen_nonneg d). pose proof (zlen_pos st Hne). pose proof (zlen_nonneg e).
  assert (Hc1 : cstr (46 :: e)) by (constructor; [lia|assumption]).
  assert (Hc : cstr (d ++ 47 :: st ++ 46 :: e)) by (apply cstr_app; split; [assumption|constructor; [lia|apply cstr_app; auto]]).
  unfold zt_cstr_basename. rewrite memset0_ok by lia. cbn [obind]. rewrite rfind_last_sep by assumption. cbn [obind].
  replace (negb (zlen d =? -1)) with true by lia. change (zlen PATH_SEPERATOR) with 1.
  assert (Es : d ++ 47 :: st ++ 46 :: e = (d ++ 47 :: st) ++ 46 :: e) by (rewrite <- app_assoc; reflexivity).
  assert (Hzp : zlen (d ++ 47 :: st) = zlen d + 1 + zlen st) by (rewrite zlen_app; unfold zlen; cbn [length]; lia).
  assert (Hz1 : zlen (46 :: e) = zlen e + 1) by (unfold zlen; cbn [length]; lia).
  assert (Hz : zlen ((d ++ 47 :: st) ++ 46 :: e) = zlen d + 1 + zlen st + 1 + zlen e) by (rewrite zlen_app; lia).
  rewrite Es, rfind_suffix; [|discriminate|assumption|lia|unfold low, index; replace (zlen d + 1 <? 0) with false by lia; lia].
  cbn [obind]. rewrite Hzp. replace (0 <? zlen d + 1 + zlen st) with true by lia.
  rewrite rd_in by lia.
  replace (nth (Z.to_nat (zlen d + 1 + zlen st)) ((d ++ 47 :: st) ++ 46 :: e) 0) with 46.
  2:{ rewrite app_nth2 by (unfold zlen in *; lia). replace (Z.to_nat (zlen d + 1 + zlen st) - length (d ++ 47%Z :: st))%nat with O by (unfold zlen in *; lia). reflexivity. }
  cbn [obind]. change (46 =? 46) with true. cbv iota.
  assert (Hs : slice ((d ++ 47 :: st) ++ 46 :: e) (zlen d + 1) (zlen d + 1 + zlen st - 1) = st).
  { replace ((d ++ 47 :: st) ++ 46 :: e) with ((d ++ [47]) ++ st ++ 46 :: e) by (rewrite <- !app_assoc; reflexivity).
    apply slice_mid; [assumption| |]; rewrite zlen_app, zlen1; lia. }
  destruct (copy_zeroed ((d ++ 47 :: st) ++ 46 :: e) (zlen d + 1) (zlen d + 1 + zlen st - 1) len (skipn (Z.to_nat len) npath)) as (n & m & E & R).
  { right. fold (zlen ((d ++ 47 :: st) ++ 46 :: e)). lia. } { rewrite <- Es. assumption. } { lia. } { rewrite Hs. lia. }
  rewrite E. cbn [obind]. eexists; split; [reflexivity|]. rewrite R. exact Hs.
Qed.

(** dirname *)
Lemma dirname_tail_no p b x : x <> 47 ->
  at_ (p ++ b ++ [x]) (zlen (p ++ b ++ [x]) - zlen PATH_SEPERATOR) = Ok [x] /\ (strncmp [x] PATH_SEPERATOR 2 =? 0) = false.
Proof.
  intros Hx. split.
  - pose proof (zlen_nonneg (p ++ b)). rewrite app_assoc, (zlen_app (p ++ b) [x]), zlen1. change (zlen PATH_SEPERATOR) with 1.
    rewrite at_ok by (rewrite (zlen_app _ [x]), zlen1; lia).
    replace (Z.to_nat (zlen (p ++ b) + 1 - 1)) with (length (p ++ b)) by (unfold zlen; lia). rewrite skipn_app_exact. reflexivity.
  - cbn. destruct (x =? 47) eqn:E; [lia|]. destruct (x <? 47); reflexivity.
Qed.
Lemma dirname_tail_yes p : 
  at_ (p ++ [47]) (zlen (p ++ [47]) - zlen PATH_SEPERATOR) = Ok [47].
Proof.
  pose proof (zlen_nonneg p). rewrite (zlen_app p [47]), zlen1. change (zlen PATH_SEPERATOR) with 1.
  rewrite at_ok by (rewrite zlen_app, zlen1; lia).
  replace (Z.to_nat (zlen p + 1 - 1)) with (length p) by (unfold zlen; lia). rewrite skipn_app_exact. reflexivity.
Qed.

Lemma dirname_finish path d q npath len : path = d ++ q -> cstr path -> d <> [] -> zlen d < len <= zlen npath ->
  exists m, (' (_, np) <- zt_cstr_copy path 0 (zlen d - 1) (repeat 0 (Z.to_nat len) ++ skipn (Z.to_nat len) npath) len ;; Ok np) = Ok m
    /\ cstring m = d.
Proof.
  intros -> Hc Hd Hl. pose proof (zlen_pos d Hd). pose proof (slice_prefix0 d q (zlen d - 1) Hd eq_refl) as Hs.
  destruct (copy_zeroed (d ++ q) 0 (zlen d - 1) len (skipn (Z.to_nat len) npath)) as (n & m & E & R).
  { right. fold (zlen (d ++ q)). rewrite zlen_app. pose proof (zlen_nonneg q). lia. } { assumption. } { lia. } { rewrite Hs. lia. }
  rewrite E. cbn [obind]. eexists; split; [reflexivity|]. rewrite R. exact Hs.
Qed.

Lemma dirname_ok d b npath len : cstr d -> cstr b -> ~ In 47 b -> b <> [] -> d <> [] -> zlen d < len <= zlen npath ->
  (exists m, zt_cstr_dirname npath len (d ++ 47 :: b) = Ok m /\ cstring m = d) /\
  (exists m, zt_cstr_dirname npath len (d ++ 47 :: b ++ [47]) = Ok m /\ cstring m = d).
Proof.
  intros Hd Hcb Hb Hne Hdn Hl. pose proof (zlen_pos d Hdn). pose proof (zlen_pos b Hne).
  assert (Hc : cstr (d ++ 47 :: b)) by (apply cstr_app; split; [assumption|constructor; [lia|assumption]]).
  split.
  - unfold zt_cstr_dirname. rewrite memset0_ok by lia. cbn [obind].
    destruct (snoc_cases b) as [->|(b' & x & Eb)]; [congruence|].
    assert (Hx : x <> 47) by (intros ->; apply Hb; rewrite Eb; apply in_app_iff; right; left; reflexivity).
    replace (d ++ 47 :: b) with (d ++ (47 :: b') ++ [x]) by (rewrite Eb; reflexivity).
    destruct (dirname_tail_no d (47 :: b') x Hx) as (E1 & E2). rewrite E1. cbn [obind]. rewrite E2.
    replace (d ++ (47 :: b') ++ [x]) with (d ++ 47 :: b) by (rewrite Eb; reflexivity).
    rewrite rfind_last_sep by assumption. cbn [obind]. replace (zlen d =? -1) with false by lia.
    eapply dirname_finish; [reflexivity|assumption|assumption|assumption].
  - unfold zt_cstr_dirname. rewrite memset0_ok by lia. cbn [obind].
    replace (d ++ 47 :: b ++ [47]) with ((d ++ 47 :: b) ++ [47]) by (rewrite <- app_assoc; reflexivity).
    rewrite dirname_tail_yes. cbn [obind]. change (strncmp [47] PATH_SEPERATOR 2 =? 0) with true. cbv iota.
    change (zlen PATH_SEPERATOR) with 1. change (-1 - 1) with (-2).
    replace ((d ++ 47 :: b) ++ [47]) with (d ++ 47 :: (b ++ [47])) by (rewrite <- app_assoc; reflexivity).
    assert (Hz : zlen (d ++ 47 :: (b ++ [47])) = zlen d + zlen b + 2) by (rewrite zlen_app; unfold zlen; cbn [length]; rewrite app_length; cbn [length]; lia).
    assert (Hlo : low (zlen (d ++ 47 :: b ++ [47])) 0 (-2) = 0) by idx.
    assert (Hhi : high (zlen (d ++ 47 :: b ++ [47])) 0 (-2) = zlen d + zlen b) by idx.
    unfold PATH_SEPERATOR. rewrite rfind_sep_found; [|rewrite Hlo; lia|rewrite Hhi; lia|right; fold (zlen (d ++ 47 :: b ++ [47])); lia|lia|].
    + cbn [obind]. replace (zlen d =? -1) with false by lia.
      eapply dirname_finish; [reflexivity| |assumption|assumption].
      apply cstr_app; split; [assumption|]. constructor; [lia|]. apply cstr_app; split; [assumption|constructor; [lia|constructor]].
    + rewrite Hhi. intros k Hk. rewrite nth_mid by lia. rewrite app_nth1 by (unfold zlen in *; lia).
      apply nth_notin; [assumption|lia].
Qed.

Lemma dirname_none b npath len : cstr b -> ~ In 47 b -> b <> [] -> 1 < len <= zlen npath ->
  (exists m, zt_cstr_dirname npath len b = Ok m /\ cstring m = [46]) /\
  (exists m, zt_cstr_dirname npath len (b ++ [47]) = Ok m /\ cstring m = [46]).
Proof.
  intros Hcb Hb Hne Hl. pose proof (zlen_pos b Hne).
  assert (Hfin : exists m, (' (_, np) <- zt_cstr_copy [46] 0 (-1) (repeat 0 (Z.to_nat len) ++ skipn (Z.to_nat len) npath) len ;; Ok np) = Ok m
    /\ cstring m = [46]).
  { destruct (copy_zeroed [46] 0 (-1) len (skipn (Z.to_nat len) npath)) as (n & m & E & R).
    { right. cbn. lia. } { constructor; [lia|constructor]. } { lia. } { rewrite slice_all. rewrite zlen1. lia. }
    rewrite E. cbn [obind]. eexists; split; [reflexivity|]. rewrite R. apply slice_all. }
  split.
  - unfold zt_cstr_dirname. rewrite memset0_ok by lia. cbn [obind].
    destruct (snoc_cases b) as [->|(b' & x & Eb)]; [congruence|].
    assert (Hx : x <> 47) by (intros ->; apply Hb; rewrite Eb; apply in_app_iff; right; left; reflexivity).
    rewrite Eb. destruct (dirname_tail_no [] b' x Hx) as (E1 & E2). cbn [app] in E1. rewrite E1. cbn [obind]. rewrite E2.
    rewrite <- Eb. rewrite rfind_no_sep by assumption. cbn [obind]. change (-1 =? -1) with true. exact Hfin.
  - unfold zt_cstr_dirname. rewrite memset0_ok by lia. cbn [obind].
    rewrite dirname_tail_yes. cbn [obind]. change (strncmp [47] PATH_SEPERATOR 2 =? 0) with true. cbv iota.
    change (zlen PATH_SEPERATOR) with 1. change (-1 - 1) with (-2).
    assert (Hz : zlen (b ++ [47]) = zlen b + 1) by (rewrite zlen_app; reflexivity).
    unfold PATH_SEPERATOR. rewrite rfind_sep_none; [|right; fold (zlen (b ++ [47])); lia|lia|].
    + cbn [obind]. change (-1 =? -1) with true. exact Hfin.
    + intros _ k Hk. assert (Hhi : high (zlen (b ++ [47])) 0 (-2) <= zlen b - 1) by idx.
      assert (0 <= low (zlen (b ++ [47])) 0 (-2)) by idx.
      rewrite app_nth1 by (unfold zlen in *; lia). apply nth_notin; [assumption|lia].
Qed.

(** *** path_append *)
Lemma trail_loop_ok p n : forall k, (k <= n)%nat -> p <> [] -> last p 0 <> 47 ->
  trail_loop (length p - 1 + k) (p ++ repeat 47 n) = zlen p - 1.
Proof.
  intros k Hk Hp Hl. destruct (snoc_cases p) as [->|(a & x & ->)]; [congruence|].
  rewrite last_last in Hl. rewrite app_length. cbn [length].
  induction k as [|k IH].
  - replace (length a + 1 - 1 + 0)%nat with (length a) by lia. destruct (length a) eqn:El.
    + cbn. rewrite zlen_app, zlen1. unfold zlen. rewrite El. reflexivity.
    + change (trail_loop (S n0) ((a ++ [x]) ++ repeat 47 n)) with
        (if strncmp (skipn (S n0) ((a ++ [x]) ++ repeat 47 n)) PATH_SEPERATOR 1 =? 0 then trail_loop n0 ((a ++ [x]) ++ repeat 47 n) else Z.of_nat (S n0)).
      rewrite <- El. rewrite <- app_assoc. rewrite skipn_app_exact. cbn [app strncmp PATH_SEPERATOR].
      destruct (x =? 47) eqn:E; [lia|]. rewrite zlen_app, zlen1. unfold zlen. destruct (x <? 47); cbn; lia.
  - replace (length a + 1 - 1 + S k)%nat with (S (length a + k)) by lia.
    change (trail_loop (S (length a + k)) ((a ++ [x]) ++ repeat 47 n)) with
        (if strncmp (skipn (S (length a + k)) ((a ++ [x]) ++ repeat 47 n)) PATH_SEPERATOR 1 =? 0 then trail_loop (length a + k) ((a ++ [x]) ++ repeat 47 n) else Z.of_nat (S (length a + k))).
    replace (skipn (S (length a + k)) ((a ++ [x]) ++ repeat 47 n)) with (47 :: repeat 47 (n - k - 1)).
    + cbn [strncmp PATH_SEPERATOR]. change (47 =? 47) with true. cbv iota. change (0 =? 0) with true. cbv iota.
      replace (length a + k)%nat with (length a + 1 - 1 + k)%nat by lia. apply IH. lia.
    + rewrite skipn_app. rewrite app_length. cbn [length]. rewrite skipn_all2 by (rewrite app_length; cbn [length]; lia).
      replace (S (length a + k) - (length a + 1))%nat with k by lia. cbn [app].
      assert (HR : repeat 47 n = repeat 47 k ++ repeat 47 (S (n - k - 1))) by (rewrite <- repeat_app; f_equal; lia).
      rewrite HR. pose proof (skipn_app_exact (repeat 47 k) (repeat 47 (S (n - k - 1)))) as HS.
      rewrite repeat_length in HS. rewrite HS. reflexivity.
Qed.
Lemma lead_loop_ok m q : match q with [] => True | c :: _ => c <> 47 end -> lead_loop (repeat 47 m ++ q) = Z.of_nat m.
Proof.
  intros Hq. induction m as [|m IH]; cbn [repeat app lead_loop].
  - destruct q; [reflexivity|]. cbn [lead_loop]. replace (z =? 47) with false by lia. reflexivity.
  - change (47 =? 47) with true. cbv iota. rewrite IH. lia.
Qed.
Lemma path_append_ok p n m q : cstr p -> cstr q -> p <> [] -> last p 0 <> 47 -> q <> [] -> hd 0 q <> 47 ->
  exists r, zt_cstr_path_append (p ++ repeat 47 n) (repeat 47 m ++ q) = Ok r /\ cstring r = p ++ 47 :: q.
Proof.
  intros Cp Cq Hp Hl Hq Hh. pose proof (zlen_pos p Hp). pose proof (zlen_pos q Hq).
  assert (Cs : forall k, cstr (repeat 47 k)) by (intros k; apply Forall_forall; intros x Hx; apply repeat_spec in Hx; lia).
  unfold zt_cstr_path_append.
  assert (Hy : match p ++ repeat 47 n with [] => -1 | _ => trail_loop (length (p ++ repeat 47 n) - 1) (p ++ repeat 47 n) end = zlen p - 1).
  { assert (Hne : p ++ repeat 47 n <> []) by (destruct p; [congruence|discriminate]).
    destruct (p ++ repeat 47 n) eqn:E; [congruence|]. rewrite <- E.
    replace (length (p ++ repeat 47%Z n) - 1)%nat with (length p - 1 + n)%nat.
    - apply trail_loop_ok; auto.
    - rewrite app_length, repeat_length. unfold zlen in *. lia. }
  rewrite Hy. rewrite lead_loop_ok by (destruct q; [congruence|assumption]).
  destruct (catv_ok [(p ++ repeat 47 n, 0, zlen p - 1); (PATH_SEPERATOR, 0, -1); (repeat 47 m ++ q, Z.of_nat m, -1)]) as (r & E & R).
  - pose proof (zlen_nonneg (repeat 47 n)). pose proof (zlen_nonneg (repeat 47 m)).
    constructor; [|constructor; [|constructor; [|constructor]]]; unfold arg_ok.
    + split; [apply cstr_app; auto|]. right. fold (zlen (p ++ repeat 47 n)). rewrite zlen_app. lia.
    + split; [constructor; [lia|constructor]|]. right. cbn. lia.
    + split; [apply cstr_app; auto|]. right. fold (zlen (repeat 47 m ++ q)). rewrite zlen_app. lia.
  - constructor; [|constructor; [|constructor; [|constructor]]]; cbn [fst].
    + destruct p; [congruence|discriminate]. + discriminate. + destruct q; [congruence|]. destruct m; discriminate.
  - exists r. split; [exact E|]. rewrite R. cbn [map concat aslice].
    rewrite slice_prefix0 by auto. change (slice PATH_SEPERATOR 0 (-1)) with [47].
    replace (Z.of_nat m) with (zlen (repeat 47 m)) by (unfold zlen; rewrite repeat_length; reflexivity).
    rewrite slice_suffix by assumption. rewrite app_nil_r. reflexivity.
Qed.

Lemma abspath_ok p : zt_cstr_abspath p = true <-> (exists r, p = 47 :: r) \/ (exists r, p = 46 :: 47 :: r).
Proof.
  assert (H1 : forall l, (strncmp l PATH_SEPERATOR 1 =? 0) = true <-> exists r, l = 47 :: r).
  { intros [|c l]; cbn; [split; [discriminate|intros (r & Hr); discriminate]|].
    destruct (c =? 47) eqn:E; [|destruct (c <? 47)]; cbn; split; try discriminate; try (intros (r & Hr); injection Hr; lia).
    intros _. exists l. f_equal. lia. }
  unfold zt_cstr_abspath. rewrite orb_true_iff, H1. destruct p as [|c p].
  - split; [intros [H|H]; [auto|discriminate]|intros [H|(r & H)]; [auto|discriminate]].
  - rewrite andb_true_iff, H1. split.
    + intros [H|(H & r & ->)]; [auto|]. right. exists r. f_equal. lia.
    + intros [H|(r & H)]; [auto|]. injection H as -> ->. right. split; [reflexivity|eauto].
Qed.
