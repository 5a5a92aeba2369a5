(** C07, C08, C12, C13: what the functions do outside the domain of the claim.  C13: what zt_cstr_strip, path_append, dirname and basename do with every argument, not only where the claim holds. *)
From Verif Require Import Prelude CstrModel CstrSpec CstrProofs CstrSearch CstrText CstrNum CstrItoa.
Local Open Scope Z_scope.

Definition white (c : Z) : Prop := c = 32 \/ c = 9 \/ c = 10.
Lemma white_in c : In c (WHITESPACE ++ [10]) <-> white c.
Proof. unfold WHITESPACE, white. cbn. intuition lia. Qed.
Lemma blank_dec c : {blank c} + {~ blank c}.
Proof. unfold blank. destruct (Z.eq_dec c 32) as [->|]; [left; auto|]. destruct (Z.eq_dec c 9) as [->|]; [left; auto|]. right. intros [H|H]; auto. Qed.
Lemma white_dec c : {white c} + {~ white c}.
Proof. unfold white. destruct (Z.eq_dec c 32) as [->|]; [left; auto|]. destruct (Z.eq_dec c 9) as [->|]; [left; auto|]. destruct (Z.eq_dec c 10) as [->|]; [left; auto|]. right. intros [H|[H|H]]; auto. Qed.
(** every string is blanks only or can be cut as the next theorem says *)
Theorem C13_strip_cases : forall s, Forall blank s \/ exists l c v r, s = l ++ c :: v ++ r /\ Forall blank l /\ ~ blank c /\ Forall white r /\ (v = [] \/ ~ white (last v 0)).
Proof.
  induction s as [|x s IH]; [left; constructor|]. destruct (blank_dec x) as [B|B].
  - destruct IH as [F|(l & c & v & r & -> & F & NB & FR & LV)]; [left; constructor; assumption|]. right. exists (x :: l), c, v, r. split; [reflexivity|]. split; [constructor; assumption|]. auto.
  - right. exists [], x.
    assert (T : exists v r, s = v ++ r /\ Forall white r /\ (v = [] \/ ~ white (last v 0))).
    { clear. induction s as [|y s (v & r & -> & F & L)]; [exists [], []; auto|]. destruct v as [|z v].
      - destruct (white_dec y) as [W|W]; [exists [], (y :: r); split; [reflexivity|]; split; [constructor; assumption|left; reflexivity]|exists [y], r; split; [reflexivity|]; split; [exact F|right; exact W]].
      - exists (y :: z :: v), r. split; [reflexivity|]. split; [exact F|]. destruct L as [L|L]; [discriminate L|]. right. exact L. }
    destruct T as (v & r & -> & F & L). exists v, r. split; [reflexivity|]. split; [constructor|]. auto.
Qed.
(** The blanks in front go.  If nothing but white space follows the first character, the rest is left as it is; otherwise the white space at the end goes, and if there is a newline anywhere one is put at the end,
    which needs a byte more than the text had if nothing was removed: writing past the end of a block that has no room. *)
Theorem C13_strip_exact : forall l c v r rest, cstr (l ++ c :: v ++ r) -> Forall blank l -> ~ blank c -> Forall white r -> (v = [] \/ ~ white (last v 0)) ->
  let out := zt_cstr_strip ((l ++ c :: v ++ r) ++ 0 :: rest) in
  let gives t := exists m, out = Ok m /\ cstring m = t /\ length m = length ((l ++ c :: v ++ r) ++ 0 :: rest) in
  (v = [] -> gives (c :: r)) /\
  (v <> [] -> ~ In 10 (c :: v ++ r) -> gives (c :: v)) /\
  (v <> [] -> In 10 (c :: v ++ r) -> l <> [] \/ r <> [] \/ rest <> [] -> gives (c :: v ++ [10])) /\
  (v <> [] -> In 10 (c :: v ++ r) -> l = [] -> r = [] -> rest = [] -> out = UB).
Proof.
  intros l c v r rest C L NB R LV out gives. assert (OE : out = zt_cstr_strip ((l ++ c :: v ++ r) ++ 0 :: rest)) by reflexivity. unfold gives. clear gives. clearbody out. unfold zt_cstr_strip in OE. rewrite cstring_app in OE by exact C. cbv zeta in OE.
  rewrite (strspn_blank l (c :: v ++ r) L NB) in OE. replace (Z.to_nat (zlen l)) with (length l) in OE by (unfold zlen; lia). rewrite skipn_app_exact in OE.
  set (s1 := c :: v ++ r) in *. set (tail := skipn (length s1 + 1) ((l ++ s1) ++ 0 :: rest)) in *.
  assert (LT : length tail = (length l + length rest)%nat) by (unfold tail; rewrite skipn_length, !app_length; cbn [length]; lia).
  assert (LM : length (s1 ++ 0 :: tail) = length ((l ++ s1) ++ 0 :: rest)) by (rewrite !app_length; cbn [length]; lia).
  assert (C1 : cstr s1) by (apply cstr_app in C; apply C).
  assert (RW : Forall (fun x => In x (WHITESPACE ++ [10])) r) by (eapply Forall_impl; [|exact R]; intros x X; apply white_in, X).
  destruct (snoc_cases v) as [->|(a & x & ->)].
  - assert (E : out = Ok (s1 ++ 0 :: tail)).
    { rewrite OE. assert (RS : zt_cstr_rspn s1 (WHITESPACE ++ [10]) = zlen s1) by (apply (rspn_single c r); exact RW). rewrite RS, Z.sub_diag. reflexivity. }
    split; [|split; [|split]]; try congruence. intros _. exists (s1 ++ 0 :: tail). split; [exact E|]. split; [apply cstring_app; exact C1|exact LM].
  - destruct LV as [LV|LV]; [destruct a; discriminate LV|]. rewrite last_last in LV.
    assert (VN : a ++ [x] <> []) by (destruct a; discriminate).
    assert (RS : zt_cstr_rspn s1 (WHITESPACE ++ [10]) = zlen r).
    { unfold s1. rewrite <- app_assoc. change (c :: a ++ [x] ++ r) with ((c :: a) ++ x :: r). apply rspn_ok; [discriminate| |exact RW]. rewrite white_in. exact LV. }
    set (cv := c :: a ++ [x]) in *. assert (S1 : s1 = cv ++ r) by reflexivity. assert (CV : cstr cv) by (rewrite S1 in C1; apply cstr_app in C1; apply C1).
    rewrite RS in OE. replace (zlen s1 - zlen r) with (zlen cv) in OE by (rewrite S1, zlen_app; lia). assert (PV : 0 < zlen cv) by (apply zlen_pos; discriminate).
    replace (zlen cv =? 0) with false in OE by lia.
    assert (ZN : Z.to_nat (zlen cv) = length cv) by (unfold zlen; lia).
    split; [congruence|]. split; [|split].
    + intros _ N. assert (IN : inset s1 10 = false) by (apply not_true_iff_false; rewrite inset_In; exact N). rewrite IN in OE. rewrite mset_ok in OE by (unfold zlen; rewrite app_length, S1, app_length; cbn [length]; lia).
      rewrite ZN in OE. assert (EQ : upd (s1 ++ 0 :: tail) (length cv) 0 = cv ++ 0 :: skipn 1 (r ++ 0 :: tail)) by (rewrite S1, <- app_assoc; destruct r as [|z r0]; cbn [app skipn]; apply upd_mid).
      exists (upd (s1 ++ 0 :: tail) (length cv) 0). split; [exact OE|]. split; [rewrite EQ; apply cstring_app; exact CV|rewrite upd_length; exact LM].
    + intros _ N X. assert (IN : inset s1 10 = true) by (rewrite inset_In; exact N). rewrite IN in OE. rewrite mset_ok in OE by (unfold zlen; rewrite app_length, S1, app_length; cbn [length]; lia).
      cbn [obind] in OE. rewrite ZN in OE. assert (EQ : upd (s1 ++ 0 :: tail) (length cv) 10 = cv ++ 10 :: skipn 1 (r ++ 0 :: tail)) by (rewrite S1, <- app_assoc; destruct r as [|z r0]; cbn [app skipn]; apply upd_mid).
      assert (LK : (1 <= length (skipn 1 (r ++ 0%Z :: tail)))%nat).
      { rewrite skipn_length, app_length. cbn [length]. destruct X as [X|[X|X]]; [destruct l; [congruence|cbn [length] in *; lia]|destruct r; [congruence|cbn [length]; lia]|destruct rest; [congruence|cbn [length] in *; lia]]. }
      rewrite mset_ok in OE by (unfold zlen; rewrite upd_length, LM, !app_length; rewrite skipn_length, app_length in LK; cbn [length] in *; rewrite S1, app_length; lia).
      replace (Z.to_nat (zlen cv + 1)) with (length (cv ++ [10])) in OE by (rewrite app_length; unfold zlen; cbn [length]; lia).
      exists (upd (upd (s1 ++ 0 :: tail) (length cv) 10) (length (cv ++ [10])) 0). split; [exact OE|]. split; [|rewrite !upd_length; exact LM].
      rewrite EQ. destruct (skipn 1 (r ++ 0 :: tail)) as [|z k]; [cbn [length] in LK; lia|]. change (cv ++ 10 :: z :: k) with (cv ++ [10] ++ z :: k). rewrite app_assoc, upd_mid.
      rewrite cstring_app by (apply cstr_app; split; [exact CV|constructor; [lia|constructor]]). reflexivity.
    + intros _ N EL ER EQ. assert (IN : inset s1 10 = true) by (rewrite inset_In; exact N). rewrite IN in OE. rewrite mset_ok in OE by (unfold zlen; rewrite app_length, S1, app_length; cbn [length]; lia).
      cbn [obind] in OE. unfold mset in OE. unfold zlen at 3 in OE. rewrite upd_length, LM in OE.
      replace ((0 <=? zlen cv + 1) && (zlen cv + 1 <? Z.of_nat (length ((l ++ s1) ++ 0 :: rest)))) with false in OE by (rewrite EL, EQ, S1, ER, app_nil_r; rewrite !app_length; unfold zlen; cbn [length]; lia). exact OE.
Qed.
Theorem C13_strip_blank : forall s rest, cstr s -> Forall blank s -> exists m, zt_cstr_strip (s ++ 0 :: rest) = Ok m /\ cstring m = [] /\ length m = length (s ++ 0 :: rest).
Proof.
  intros s rest C B. unfold zt_cstr_strip. rewrite cstring_app by exact C. cbv zeta. pose proof (strspn_blank s [] B Logic.I) as E. rewrite app_nil_r in E. rewrite E. replace (Z.to_nat (zlen s)) with (length s) by (unfold zlen; lia). rewrite skipn_all.
  eexists. split; [reflexivity|]. split; [reflexivity|]. cbn [app length]. rewrite skipn_length, app_length. cbn [length]. lia.
Qed.
Example C13_strip_ex : exists m, zt_cstr_strip ([32; 97; 10; 98; 32; 10; 9] ++ [0]) = Ok m /\ cstring m = [97; 10; 98; 10].
Proof. eexists. split; [vm_compute; reflexivity|reflexivity]. Qed.

(** path_append: of the first path the first character always stays *)
Lemma cstr_slashes n : cstr (repeat 47 n).
Proof. apply Forall_forall. intros x X. apply repeat_spec in X. lia. Qed.
Lemma trail_first : forall n c, trail_loop n (c :: repeat 47 n) = 0.
Proof.
  intros n c. assert (H : forall k, (k <= n)%nat -> trail_loop k (c :: repeat 47 n) = 0).
  { induction k as [|k IH]; intros K; [reflexivity|]. cbn [trail_loop skipn].
    assert (HS : skipn k (repeat 47 n) = 47 :: repeat 47 (n - k - 1)).
    { replace n with (k + S (n - k - 1))%nat at 1 by lia. rewrite repeat_app. rewrite <- (repeat_length 47 k) at 1. rewrite skipn_app_exact. reflexivity. }
    rewrite HS. cbn [strncmp PATH_SEPERATOR]. change (47 =? 47) with true. cbv iota. change (0 =? 0) with true. cbv iota. apply IH. lia. }
  apply H. lia.
Qed.
Theorem C13_path_append_exact : forall c v n m q, cstr (c :: v) -> cstr q -> (v = [] \/ last v 0 <> 47) -> match q with [] => True | x :: _ => x <> 47 end ->
  exists r, zt_cstr_path_append (c :: v ++ repeat 47 n) (repeat 47 m ++ q) = Ok r /\
  cstring r = c :: v ++ 47 :: match q, m with [], S _ => [47] | _, _ => q end.
Proof.
  intros c v n m q Cp Cq HV HQ. unfold zt_cstr_path_append.
  assert (Hy : trail_loop (length (c :: v ++ repeat 47 n) - 1) (c :: v ++ repeat 47 n) = zlen v).
  { destruct HV as [->|HV].
    - cbn [app length]. rewrite repeat_length. replace (S n - 1)%nat with n by lia. apply trail_first.
    - destruct (snoc_cases v) as [->|(a & x & ->)]; [cbn [app length]; rewrite repeat_length; replace (S n - 1)%nat with n by lia; apply trail_first|]. rewrite last_last in HV.
      replace (length (c :: (a ++ [x]) ++ repeat 47%Z n) - 1)%nat with (length (c :: a ++ [x]) - 1 + n)%nat by (cbn [length]; rewrite !app_length, repeat_length; cbn [length]; lia).
      change (c :: (a ++ [x]) ++ repeat 47 n) with ((c :: a ++ [x]) ++ repeat 47 n). rewrite trail_loop_ok; [|lia|discriminate|]; [unfold zlen; cbn [length]; lia|]. change (c :: a ++ [x]) with ((c :: a) ++ [x]). rewrite last_last. exact HV. }
  rewrite Hy. rewrite lead_loop_ok by exact HQ. pose proof (zlen_nonneg v).
  assert (A1 : arg_ok (c :: v ++ repeat 47 n, 0, zlen v)).
  { split; [change (c :: v ++ repeat 47 n) with ((c :: v) ++ repeat 47 n); apply cstr_app; split; [exact Cp|apply cstr_slashes]|]. right. unfold zlen in *. cbn [length]. lia. }
  assert (A2 : arg_ok (PATH_SEPERATOR, 0, -1)) by (split; [constructor; [lia|constructor]|right; cbn; lia]).
  assert (SL : slice (c :: v ++ repeat 47 n) 0 (zlen v) = c :: v) by (apply (slice_prefix0 (c :: v) (repeat 47 n)); [discriminate|unfold zlen; cbn [length]; lia]).
  destruct q as [|x q].
  - rewrite app_nil_r. destruct m as [|m].
    + destruct (catv_ok_all [(c :: v ++ repeat 47 n, 0, zlen v); (PATH_SEPERATOR, 0, -1); (@nil Z, 0, -1)]) as (r & E & R); [constructor; [exact A1|constructor; [exact A2|constructor; [split; [constructor|left; reflexivity]|constructor]]]|].
      exists r. split; [exact E|]. rewrite R. cbn [upto_empty map concat aslice]. rewrite SL. change (slice PATH_SEPERATOR 0 (-1)) with [47]. cbn [app]. reflexivity.
    + destruct (catv_ok [(c :: v ++ repeat 47 n, 0, zlen v); (PATH_SEPERATOR, 0, -1); (repeat 47 (S m), Z.of_nat (S m), -1)]) as (r & E & R).
      * constructor; [exact A1|constructor; [exact A2|constructor; [|constructor]]]. split; [apply cstr_slashes|]. right. rewrite repeat_length. lia.
      * constructor; [discriminate|constructor; [discriminate|constructor; [discriminate|constructor]]].
      * exists r. split; [exact E|]. rewrite R. cbn [map concat aslice]. rewrite SL. change (slice PATH_SEPERATOR 0 (-1)) with [47]. 
        assert (SQ : slice (repeat 47 (S m)) (Z.of_nat (S m)) (-1) = [47]).
        { unfold slice. rewrite repeat_length. unfold low, high, index. replace (Z.of_nat (S m) <? 0) with false by lia. change (-1 <? 0) with true. cbv iota.
          replace (Z.to_nat (Z.min (Z.min (Z.of_nat (S m)) (Z.of_nat (S m) - 1)) (-1 + Z.of_nat (S m)))) with m by lia.
          replace (Z.to_nat _) with 1%nat by lia. replace (S m) with (m + 1)%nat by lia. rewrite repeat_app. rewrite <- (repeat_length 47 m) at 1. rewrite skipn_app_exact. reflexivity. }
        rewrite SQ. cbn [app]. reflexivity.
  - destruct (catv_ok [(c :: v ++ repeat 47 n, 0, zlen v); (PATH_SEPERATOR, 0, -1); (repeat 47 m ++ x :: q, Z.of_nat m, -1)]) as (r & E & R).
    + constructor; [exact A1|constructor; [exact A2|constructor; [|constructor]]]. split; [apply cstr_app; split; [apply cstr_slashes|exact Cq]|]. right. rewrite app_length. cbn [length]. lia.
    + constructor; [discriminate|constructor; [discriminate|constructor; [|constructor]]]. cbn [fst]. destruct m; discriminate.
    + exists r. split; [exact E|]. rewrite R. cbn [map concat aslice]. rewrite SL. change (slice PATH_SEPERATOR 0 (-1)) with [47].
      replace (Z.of_nat m) with (zlen (repeat 47 m)) by (unfold zlen; rewrite repeat_length; reflexivity). rewrite slice_suffix by discriminate. rewrite app_nil_r. destruct m; reflexivity.
Qed.
Theorem C13_path_append_empty : forall q, cstr q -> exists r, zt_cstr_path_append [] q = Ok r /\ cstring r = [].
Proof.
  intros q C. unfold zt_cstr_path_append. set (x := lead_loop q). assert (X : 0 <= x <= zlen q).
  { unfold x. clear. induction q as [|c q IH]; cbn [lead_loop]; [unfold zlen; cbn [length]; lia|]. destruct (c =? 47); unfold zlen in *; cbn [length]; lia. }
  destruct (catv_ok_all [(@nil Z, 0, -1); (PATH_SEPERATOR, 0, -1); (q, x, -1)]) as (r & E & R).
  - constructor; [split; [constructor|left; reflexivity]|constructor; [split; [constructor; [lia|constructor]|right; cbn; lia]|constructor; [|constructor]]].
    split; [exact C|]. destruct q; [left; reflexivity|right]. unfold zlen in X. cbn [length] in *. lia.
  - exists r. split; [exact E|]. rewrite R. reflexivity.
Qed.
Example C13_path_append_ex : exists r, zt_cstr_path_append [47; 97; 47; 47] [47; 98] = Ok r /\ cstring r = [47; 97; 47; 98].
Proof. eexists. split; [vm_compute; reflexivity|reflexivity]. Qed.

(** the n bytes of the buffer: as much of d as fits, then NULs (none if d does not fit); what is behind stays *)
Definition shown (n : nat) (d npath : list Z) : list Z := firstn n d ++ repeat 0 (n - length d) ++ skipn n npath.
Lemma shown_ok s i j len npath : in_range s i j -> 0 <= len <= zlen npath ->
  (' (_, np) <- zt_cstr_copy s i j (repeat 0 (Z.to_nat len) ++ skipn (Z.to_nat len) npath) len ;; Ok np) = Ok (shown (Z.to_nat len) (slice s i j) npath).
Proof.
  intros R L. rewrite copy_ok; [|exact R|rewrite zlen_app; unfold zlen at 1; rewrite repeat_length; pose proof (zlen_nonneg (skipn (Z.to_nat len) npath)); lia]. cbn [obind]. unfold shown.
  assert (K : forall d : list Z, skipn (Z.to_nat (Z.min (zlen d) len)) (repeat 0 (Z.to_nat len) ++ skipn (Z.to_nat len) npath) = repeat 0 (Z.to_nat len - length d) ++ skipn (Z.to_nat len) npath).
  { intros d. set (k := Z.to_nat (Z.min (zlen d) len)). assert (KL : (k <= Z.to_nat len)%nat) by (unfold k, zlen; lia). replace (Z.to_nat len - length d)%nat with (Z.to_nat len - k)%nat by (unfold k, zlen; lia).
    replace (repeat 0 (Z.to_nat len)) with (repeat 0 k ++ repeat 0 (Z.to_nat len - k)) by (rewrite <- repeat_app; f_equal; lia). rewrite <- app_assoc. rewrite <- (repeat_length 0 k) at 1. apply skipn_app_exact. }
  rewrite K. destruct s as [|c s]; [|reflexivity]. rewrite slice_nil. cbn [piece length]. f_equal. destruct (Z.to_nat len) as [|n]; [reflexivity|]. cbn [firstn]. rewrite firstn_nil. rewrite Nat.sub_0_r. replace (S n - 1)%nat with n by lia. reflexivity.
Qed.
Theorem C13_shown : forall n d npath, cstr d -> (length d < n)%nat -> cstring (shown n d npath) = d.
Proof. intros n d npath C L. unfold shown. rewrite firstn_all2 by lia. destruct (n - length d)%nat as [|k] eqn:K; [lia|]. cbn [repeat app]. apply cstring_app. exact C. Qed.
Theorem C13_basename_exact : forall npath len, 0 <= len <= zlen npath ->
  (forall p, ~ In 47 p -> zt_cstr_basename npath len p None = Ok (shown (Z.to_nat len) p npath)) /\
  (forall d e, ~ In 47 e -> zt_cstr_basename npath len (d ++ 47 :: e) None = Ok (shown (Z.to_nat len) (if list_eq_dec Z.eq_dec e [] then [47] else e) npath)).
Proof.
  intros npath len L. split.
  - intros p N. unfold zt_cstr_basename. rewrite memset0_ok by lia. cbn [obind]. rewrite rfind_no_sep by exact N. cbn [obind]. change (negb (-1 =? -1)) with false. cbv iota zeta.
    rewrite shown_ok; [rewrite slice_all; reflexivity| |lia]. destruct p as [|c p]; [left; reflexivity|right; cbn [length]; lia].
  - intros d e N. unfold zt_cstr_basename. rewrite memset0_ok by lia. cbn [obind]. rewrite rfind_last_sep by exact N. cbn [obind]. pose proof (zlen_nonneg d). replace (zlen d =? -1) with false by lia. cbn [negb]. cbv zeta. cbn [obind]. change (zlen PATH_SEPERATOR) with 1.
    rewrite shown_ok; [|right; rewrite app_length; cbn [length]; unfold zlen in *; lia|lia]. do 2 f_equal. destruct (list_eq_dec Z.eq_dec e []) as [->|NE].
    + unfold slice. rewrite app_length. cbn [length]. unfold low, high, index. replace (zlen d + 1 <? 0) with false by lia. change (-1 <? 0) with true. cbv iota. unfold zlen.
      replace (Z.to_nat (Z.min (Z.min (Z.of_nat (length d) + 1) (Z.of_nat (length d + 1) - 1)) (-1 + Z.of_nat (length d + 1)))) with (length d) by lia. rewrite skipn_app_exact. replace (Z.to_nat _) with 1%nat by lia. reflexivity.
    + replace (d ++ 47 :: e) with ((d ++ [47]) ++ e) by (rewrite <- app_assoc; reflexivity). replace (zlen d + 1) with (zlen (d ++ [47])) by (rewrite zlen_app; reflexivity). apply slice_suffix. exact NE.
Qed.
(** dirname: one separator at the end does not count *)
Theorem C13_dirname_exact : forall npath len b p, 0 <= len <= zlen npath -> b <> [] -> (p = b /\ last b 0 <> 47) \/ p = b ++ [47] ->
  (~ In 47 b -> zt_cstr_dirname npath len p = Ok (shown (Z.to_nat len) [46] npath)) /\
  (forall d e, b = d ++ 47 :: e -> ~ In 47 e -> zt_cstr_dirname npath len p = Ok (shown (Z.to_nat len) (if list_eq_dec Z.eq_dec d [] then p else d) npath)).
Proof.
  intros npath len b p L BN PB. pose proof (zlen_pos b BN) as ZB.
  set (en := if strncmp (skipn (Z.to_nat (zlen p - 1)) p) PATH_SEPERATOR 2 =? 0 then -2 else -1).
  assert (DN : zt_cstr_dirname npath len p = (e <- zt_cstr_rfind p 0 en PATH_SEPERATOR ;; if e =? -1 then ' (_, np) <- zt_cstr_copy [46] 0 (-1) (repeat 0 (Z.to_nat len) ++ skipn (Z.to_nat len) npath) len ;; Ok np else ' (_, np) <- zt_cstr_copy p 0 (e - 1) (repeat 0 (Z.to_nat len) ++ skipn (Z.to_nat len) npath) len ;; Ok np)).
  { unfold zt_cstr_dirname. rewrite memset0_ok by lia. cbn [obind]. change (zlen PATH_SEPERATOR) with 1. rewrite at_ok by (destruct PB as [[-> _]| ->]; [lia|rewrite zlen_app; change (zlen [47]) with 1; lia]). cbn [obind]. reflexivity. }
  assert (HI : in_range p 0 en /\ low (zlen p) 0 en = 0 /\ high (zlen p) 0 en = zlen b - 1 /\ firstn (length b) p = b).
  { destruct PB as [[-> NL]| ->].
    - destruct (snoc_cases b) as [->|(a & x & E)]; [congruence|]. assert (X : x <> 47) by (rewrite E, last_last in NL; exact NL). assert (EN : en = -1).
      { unfold en. rewrite E, zlen_app. change (zlen [x]) with 1. replace (Z.to_nat (zlen a + 1 - 1)) with (length a) by (unfold zlen; lia). rewrite skipn_app_exact. cbn. replace (x =? 47) with false by lia. destruct (x <? 47); reflexivity. }
      rewrite EN. split; [right; unfold zlen in ZB; lia|]. split; [apply low_all; lia|]. split; [apply high_all; lia|apply firstn_all].
    - assert (EN : en = -2).
      { unfold en. rewrite zlen_app. change (zlen [47]) with 1. replace (Z.to_nat (zlen b + 1 - 1)) with (length b) by (unfold zlen; lia). rewrite skipn_app_exact. reflexivity. }
      rewrite EN. assert (ZP : zlen (b ++ [47]) = zlen b + 1) by (rewrite zlen_app; reflexivity). split; [right; rewrite app_length; cbn [length]; unfold zlen in ZB; lia|]. rewrite ZP. split; [idx|]. split; [idx|]. rewrite firstn_app, firstn_all, Nat.sub_diag, app_nil_r. reflexivity. }
  clearbody en. destruct HI as (R & LO & HI & FB). split.
  - intros N. rewrite DN. unfold PATH_SEPERATOR. rewrite rfind_sep_none; [|exact R|lia|].
    + cbn [obind]. change (-1 =? -1) with true. cbv iota. rewrite shown_ok; [rewrite slice_all; reflexivity|right; cbn; lia|lia].
    + intros _ k K. rewrite LO, HI in K. assert (PK : nth (Z.to_nat k) p 0 = nth (Z.to_nat k) b 0) by (rewrite <- (firstn_skipn (length b) p), FB; apply app_nth1; unfold zlen in *; lia). rewrite PK. apply nth_notin; [exact N|lia].
  - intros d e EB N. assert (PD : exists t, p = d ++ 47 :: e ++ t) by (destruct PB as [[-> _]| ->]; [exists []; rewrite app_nil_r; exact EB|exists [47]; rewrite EB, <- app_assoc; reflexivity]). destruct PD as (t & PD). rewrite DN.
    assert (RF : zt_cstr_rfind p 0 en PATH_SEPERATOR = Ok (zlen d)).
    { rewrite PD in *. assert (ZE : zlen b = zlen d + zlen e + 1) by (rewrite EB, zlen_app; unfold zlen; cbn [length]; lia). pose proof (zlen_nonneg d). pose proof (zlen_nonneg e). apply rfind_sep_found; [lia|lia|exact R|lia|].
      intros k K. rewrite HI in K. rewrite nth_mid by lia. rewrite app_nth1 by (unfold zlen in *; lia). apply nth_notin; [exact N|lia]. }
    rewrite RF. cbn [obind]. pose proof (zlen_nonneg d). replace (zlen d =? -1) with false by lia. rewrite shown_ok; [|right; rewrite PD, app_length; cbn [length]; unfold zlen in *; lia|lia]. do 2 f_equal.
    destruct (list_eq_dec Z.eq_dec d []) as [->|DN']; [change (zlen [] - 1) with (-1); apply slice_all|]. rewrite PD. apply slice_prefix0; [exact DN'|reflexivity].
Qed.
Theorem C13_dirname_none : forall npath len, 0 <= len <= zlen npath -> zt_cstr_dirname npath len [] = UB /\ zt_cstr_dirname npath len [47] = Abort.
Proof. intros npath len L. unfold zt_cstr_dirname. rewrite memset0_ok by lia. split; reflexivity. Qed.
Example C13_dirname_ex : exists m, zt_cstr_dirname (repeat 9 5) 3 [97; 98; 99; 100; 47; 101; 47] = Ok m /\ m = [97; 98; 99; 9; 9].
Proof. eexists. split; vm_compute; reflexivity. Qed.
(** C07: a buffer of odd size that is too small for the text is always overrun by one byte *)
Lemma b2h_over data k (hex : list Z) : zlen hex = 2 * k + 1 -> k < zlen data -> forall fuel n (h : list Z), 0 <= n <= k -> zlen h = zlen hex -> (Z.to_nat (k - n) < fuel)%nat -> b2h_loop data n (zlen data) (zlen hex) fuel (Some h) = UB.
Proof.
  intros K D. induction fuel as [|f IH]; intros n h N H F; [lia|]. cbn [b2h_loop]. replace ((n <? zlen data) && (n * 2 <? zlen hex)) with true by lia. replace (n <? zlen data) with true by lia. cbn [safe obind]. rewrite mset_ok by lia. cbn [obind].
  destruct (Z.eq_dec n k) as [->|NE].
  - unfold mset at 1. replace ((0 <=? 2 * k + 1) && (2 * k + 1 <? zlen (upd h (Z.to_nat (2 * k)) (nth (Z.to_nat (Z.land (Z.shiftr (nth (Z.to_nat k) data 0) 4) 15)) HEX_DIGITS 0)))) with false; [reflexivity|]. unfold zlen at 1. rewrite upd_length. fold (zlen h). lia.
  - rewrite mset_ok by (unfold zlen; rewrite upd_length; fold (zlen h); lia). cbn [obind]. apply IH; [lia| |lia]. unfold zlen at 1. rewrite !upd_length. exact H.
Qed.
Theorem C07_odd_overrun : forall data hex, Z.odd (zlen hex) = true -> zlen hex < 2 * zlen data -> zt_binary_to_hex data (zlen data) (Some hex) (zlen hex) = UB.
Proof.
  intros data hex O L. unfold zt_binary_to_hex. pose proof (zlen_nonneg hex). apply Z.odd_spec in O. destruct O as (k & K). apply (b2h_over data k hex K); try lia.
Qed.
(** C07: an odd number of digits at the end of a block: the byte behind the block is read *)
Lemma h2b_over hex k dlen : zlen hex = 2 * k + 1 -> Forall (fun c => c <> 0 /\ hex_to_char c <> -1) hex -> k < dlen -> forall fuel y data, 0 <= y <= k -> dlen <= zlen data -> (Z.to_nat (k - y) < fuel)%nat -> h2b_loop fuel hex (2 * y) (zlen hex) (Some data) y dlen = UB.
Proof.
  intros K A D. assert (C : forall n, 0 <= n < zlen hex -> exists c, mrd hex n = Ok c /\ c <> 0 /\ hex_to_char c <> -1).
  { intros n N. exists (nth (Z.to_nat n) hex 0). unfold mrd. replace ((0 <=? n) && (n <? zlen hex)) with true by lia. split; [reflexivity|]. rewrite Forall_forall in A. apply A, nth_In. unfold zlen in N. lia. }
  induction fuel as [|f IH]; intros y data Y L F; [lia|]. cbn [h2b_loop]. replace (negb (2 * y <? zlen hex)) with false by lia. destruct (C (2 * y) ltac:(lia)) as (c & -> & C0 & CH). cbn [obind]. replace ((c =? 0) || negb (y <? dlen)) with false by lia. cbv zeta.
  replace (hex_to_char c =? -1) with false by lia. destruct (Z.eq_dec y k) as [->|NE].
  - unfold mrd. replace ((0 <=? 2 * k + 1) && (2 * k + 1 <? zlen hex)) with false by lia. reflexivity.
  - destruct (C (2 * y + 1) ltac:(lia)) as (c1 & -> & D0 & DH). cbn [obind]. replace (hex_to_char c1 =? -1) with false by lia. rewrite mset_ok by lia. cbn [obind]. replace (2 * y + 2) with (2 * (y + 1)) by lia. apply IH; [lia| |lia]. unfold zlen. rewrite upd_length. exact L.
Qed.
Theorem C07_odd_overread : forall hex data, Z.odd (zlen hex) = true -> Forall (fun c => 48 <= c <= 57 \/ 65 <= c <= 70 \/ 97 <= c <= 102) hex -> zlen hex < 2 * zlen data -> zt_hex_to_binary hex (zlen hex) (Some data) (zlen data) = UB.
Proof.
  intros hex data O A L. unfold zt_hex_to_binary. cbv zeta. pose proof (zlen_nonneg hex). apply Z.odd_spec in O. destruct O as (k & K). change 0 with (2 * 0) at 1. apply (h2b_over hex k (zlen data) K); try lia; [|unfold zlen in *; lia].
  eapply Forall_impl; [|exact A]. intros c X. cbv beta in X. unfold hex_to_char. destruct ((48 <=? c) && (c <=? 57)) eqn:E1; [lia|]. destruct ((65 <=? c) && (c <=? 70)) eqn:E2; [lia|]. destruct ((97 <=? c) && (c <=? 102)) eqn:E3; [lia|]. lia.
Qed.
Example C07_odd_ex : zt_binary_to_hex [1; 2] 2 (Some [9; 9; 9]) 3 = UB /\ zt_hex_to_binary [49; 50; 51] 3 (Some [9; 9]) 2 = UB.
Proof. split; vm_compute; reflexivity. Qed.
(** C08: a number that fills the buffer to its end: the NUL is written behind it, for every number *)
Theorem C08_itoa_overrun : forall a b v, - 2 ^ 31 <= v < 2 ^ 31 -> zlen b = zlen (decimal v) -> zt_cstr_itoa (Some (a ++ b)) v (zlen a) (zlen (a ++ b)) = UB.
Proof.
  intros a b v V LB. unfold zt_cstr_itoa. rewrite int_display_len_ok by exact V. cbn [obind]. cbv zeta. rewrite zlen_app, LB. replace (zlen a + zlen (decimal v) <? zlen a + zlen (decimal v)) with false by lia.
  pose proof (zlen_nonneg a). assert (PB : 0 < zlen (decimal v)) by (apply zlen_pos; rewrite decimal_abs; destruct (v <? 0) eqn:VN; [discriminate|]; destruct (absdigits_head v ltac:(lia)) as (dg & dr & -> & _); discriminate).
  destruct (v <? 0); [rewrite mset_ok by (rewrite zlen_app; lia)|]; cbn [obind].
  - unfold mset. replace ((0 <=? zlen a + zlen (decimal v)) && (zlen a + zlen (decimal v) <? zlen (upd (a ++ b) (Z.to_nat (zlen a)) 45))) with false; [reflexivity|]. unfold zlen at 5. rewrite upd_length. fold (zlen (a ++ b)). rewrite zlen_app. lia.
  - unfold mset. rewrite zlen_app. replace ((0 <=? zlen a + zlen (decimal v)) && (zlen a + zlen (decimal v) <? zlen a + zlen b)) with false by lia. reflexivity.
Qed.
(** C12: an empty string is compared as if it had one character, which is not looked at when the other has one *)
Theorem C12_cmp_empty : forall s i j i' j', s <> [] -> in_range s i j ->
  zt_cstr_cmp [] i' j' s i j = Ok (if Nat.eqb (length (slice s i j)) 1 then 0 else -1) /\
  zt_cstr_cmp s i j [] i' j' = Ok (if Nat.eqb (length (slice s i j)) 1 then 0 else 1) /\ zt_cstr_cmp [] i j [] i' j' = Ok 0.
Proof.
  intros s i j i' j' NE R. apply in_range_cases in R. destruct R as [R|(_ & Ri & Rj)]; [congruence|]. destruct (CONVERT_ne s i j NE Ri Rj) as (E & L & H). pose proof (slice_length s i j NE Ri Rj) as SL.
  set (lo := low (zlen s) i j) in *. set (hi := high (zlen s) i j) in *. 
  assert (AT : exists c t, at_ s lo = Ok (c :: t)).
  { rewrite at_ok by lia. destruct (skipn (Z.to_nat lo) s) as [|c t] eqn:K; [|eauto]. apply (f_equal (@length Z)) in K. rewrite skipn_length in K. cbn [length] in K. unfold zlen in *. lia. }
  destruct AT as (c & t & AT). unfold zt_cstr_cmp. rewrite E. rewrite CONVERT_e. cbn [obind]. rewrite AT. change (at_ [] 0) with (Ok (@nil Z)). cbn [obind]. change (0 - 0) with 0.
  assert (Q : Nat.eqb (length (slice s i j)) 1 = (hi - lo =? 0)) by (unfold zlen in SL; destruct (Nat.eqb_spec (length (slice s i j)) 1); lia). rewrite Q. clear Q SL.
  destruct (Z.eqb_spec (hi - lo) 0) as [Z0|Z0].
  - rewrite Z0. change (0 <? 0) with false. cbv iota. split; [reflexivity|]. split; reflexivity.
  - replace (0 <? hi - lo) with true by lia. replace (hi - lo <? 0) with false by lia. change (IDXLEN 0 0) with (Ok 1). cbn [obind]. change (Z.to_nat 1) with 1%nat. split; [reflexivity|]. split; reflexivity.
Qed.
Example C12_cmp_empty_ex : zt_cstr_cmp [] 0 (-1) [97] 0 (-1) = Ok 0 /\ zt_cstr_cmp [] 0 (-1) [97; 98] 0 (-1) = Ok (-1).
Proof. split; reflexivity. Qed.
Print Assumptions C07_odd_overrun.
Print Assumptions C07_odd_overread.
Print Assumptions C08_itoa_overrun.
Print Assumptions C12_cmp_empty.
Print Assumptions C13_strip_cases.
Print Assumptions C13_strip_exact.
Print Assumptions C13_strip_blank.
Print Assumptions C13_path_append_exact.
Print Assumptions C13_path_append_empty.
Print Assumptions C13_shown.
Print Assumptions C13_basename_exact.
Print Assumptions C13_dirname_exact.
Print Assumptions C13_dirname_none.
