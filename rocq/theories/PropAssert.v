(** C50: failed assertions.  C51: the allocation wrappers. *)
From Verif Require Import Prelude Heap CstrModel CstrSpec CstrProofs CstrText LogModel LogSpec LogProofs PropLog AssertModel AssertSpec.
Local Open Scope Z_scope.

Lemma read_text_ok m b : cstring m = b -> (length b < length m)%nat -> read_text m = Ok b.
Proof.
  intros E L. unfold read_text. replace (existsb (Z.eqb 0) m) with true; [now rewrite E|]. symmetry. apply existsb_exists. exists 0. split; [|reflexivity].
  revert b E L. induction m as [|x m IH]; intros b E L; [cbn in L; lia|]. cbn [cstring] in E. destruct (x =? 0) eqn:X; [left; lia|].
  right. destruct b as [|y b]; [discriminate E|]. apply (IH b); [congruence|]. cbn [length] in L. lia.
Qed.
Lemma memset0_len m len r : memset0 m len = Ok r -> 0 <= len -> length r = length m.
Proof.
  unfold memset0. destruct (len <=? zlen m) eqn:E; [|discriminate]. intros H Hl. assert (X : r = repeat 0 (Z.to_nat len) ++ skipn (Z.to_nat len) m) by congruence.
  rewrite X, app_length, repeat_length, skipn_length. unfold zlen in E. lia.
Qed.
Lemma memcpy_len d src n r : memcpy d src n = Ok r -> length r = length d.
Proof.
  unfold memcpy. intros H. destruct ((n <=? zlen d) && (n <=? zlen src)) eqn:E; [|discriminate].
  match type of H with Ok ?x = _ => assert (X : r = x) by congruence end. rewrite X. rewrite app_length, firstn_length, skipn_length. unfold zlen in E. lia.
Qed.
Lemma basename_len npath len path r : 0 <= len -> zt_cstr_basename npath len path None = Ok r -> length r = length npath.
Proof.
  intros Hl H. unfold zt_cstr_basename in H. apply obind_ok in H. destruct H as (m & H1 & H). apply memset0_len in H1; [|exact Hl]. rewrite <- H1. clear H1.
  apply obind_ok in H. destruct H as (st & _ & H). cbn [obind] in H. apply obind_ok in H. destruct H as ((n & q) & H & E). assert (r = q) by congruence. subst q. clear E.
  unfold zt_cstr_copy in H. apply obind_ok in H. destruct H as ((i & j) & _ & H). apply obind_ok in H. destruct H as (fl & _ & H). cbv zeta in H.
  apply obind_ok in H. destruct H as (q & H & E). assert (r = q) by congruence. subst q. now apply memcpy_len in H.
Qed.
(** the file's name without its directories *)
Lemma base_text_ok pm junk d b : cstr d -> cstr b -> ~ In 47 b -> b <> [] -> zlen b < pm -> zlen junk = pm ->
  base_text pm junk (d ++ 47 :: b) = Ok b /\ base_text pm junk b = Ok b.
Proof.
  intros Hd Hb Hn Hne Hl Hj. destruct (basename_ok d b junk pm Hd Hb Hn Hne ltac:(lia)) as ((m1 & E1 & C1) & (m2 & E2 & C2)).
  pose proof (zlen_nonneg b).
  pose proof (basename_len junk pm _ _ ltac:(lia) E1). pose proof (basename_len junk pm _ _ ltac:(lia) E2). unfold base_text. rewrite E1, E2. cbn [obind].
  split; apply read_text_ok; try assumption; unfold zlen in *; lia.
Qed.

Lemma told_lprintf s e level fmt args t : logger_ok s -> env_ok e -> env_plain e -> dbg_ok (ctx s) -> dbg_plain (ctx s) -> 0 <= level < 8 ->
  vprintf fmt args = Ok t -> exists s', lprintf s e 0 level fmt args = Ok s' /\ told s s' e level t.
Proof.
  intros (W & L) E1 E2 D1 D2 Hl Ht. destruct (C39_default s e level fmt args) as (A & B). destruct (Nat.eq_dec (dflt s) 0) as [Z|Z].
  - destruct (B Z W) as (p & s1 & Hp & Hn & Hd & Hc & Ho & He & Hout & Hx & HL & _). rewrite HL.
    rewrite <- Hx in D1, D2. destruct (C39_filter s1 e p level fmt args _ t Hp Hc E1 E2 D1 D2 ltac:(lia) Ht) as (-> & _).
    eexists. split; [reflexivity|]. unfold told. cbn [lgs dflt exits out ctx l_level]. split; [congruence|]. intros _. exists p.
    rewrite Hout, Hx. repeat split; try assumption. replace (level <=? 8) with true by lia. f_equal. f_equal. f_equal. unfold prefix, shown_opts. cbn [l_kind l_opts].
    change (Z.testbit 2 0) with false. change (Z.testbit 2 1) with true. change (Z.testbit 2 2) with false. change (Z.testbit 2 3) with false. change (Z.testbit 2 4) with false.
    replace (level <? 8) with true by lia. change (2 =? 2) with true. change (2 =? 0) with false. cbn [andb app]. now rewrite <- app_assoc.
  - destruct (A Z) as (-> & _). specialize (L Z). destruct (cells (lgs s) (dflt s)) as [l|] eqn:C; [|congruence].
    destruct (C39_filter s e (dflt s) level fmt args l t Z C E1 E2 D1 D2 ltac:(lia) Ht) as (-> & _).
    eexists. split; [reflexivity|]. unfold told. cbn [lgs dflt exits out ctx]. split; [|congruence]. intros _. exists l. auto 10.
Qed.

(** the formats *)
Lemma fmt_shape a head c b n f : plain head -> vprintf (head ++ fmt_func) (c :: b :: n :: f :: a) = Ok (head ++ [34] ++ c ++ [34; 58; 32] ++ b ++ [91] ++ n ++ [58] ++ f ++ [93]) /\
  vprintf (head ++ fmt_nofunc) (c :: b :: n :: a) = Ok (head ++ [34] ++ c ++ [34; 58; 32] ++ b ++ [91] ++ n ++ [93]).
Proof.
  intros H. rewrite !vprintf_plain_app by exact H. unfold fmt_func, fmt_nofunc. split; cbn [vprintf Z.eqb Pos.eqb obind app]; reflexivity.
Qed.
(** ** C50 *)
(** A failed assertion is given to the default logger with the level Error: the text of the condition, whatever it contains, the name of the file without its
    directories, the line and the function. *)
Theorem C50_assertion : forall pm junk s e cond dir base line func, logger_ok s -> env_ok e -> env_plain e -> dbg_ok (ctx s) -> dbg_plain (ctx s) ->
  cstr dir -> cstr base -> ~ In 47 base -> base <> [] -> Z.of_nat (length base) < pm -> Z.of_nat (length junk) = pm ->
  forall file, file = base \/ file = dir ++ 47 :: base ->
  exists s', log_assertion pm junk s e cond file line func = Ok s' /\ told s s' e 3 (failed (match cond with Some c => c | None => nothing_asserted end) base line func).
Proof.
  intros pm junk s e cond dir base line func L E1 E2 D1 D2 Cd Cb Nb Ne Hl Hj file Hf.
  assert (B : base_text pm junk file = Ok base) by (destruct (base_text_ok pm junk dir base Cd Cb Nb Ne Hl Hj) as (B1 & B2); destruct Hf as [->| ->]; assumption).
  unfold log_assertion. rewrite B. cbn [obind]. assert (P : plain fmt_failed) by (unfold plain, fmt_failed; cbn [In]; lia).
  set (c := match cond with Some c => c | None => no_assertion end).
  change (match cond with Some c => c | None => nothing_asserted end) with c.
  destruct func as [f|].
  - destruct (fmt_shape [] fmt_failed c base (decimal line) f P) as (V & _).
    destruct (told_lprintf s e 3 _ _ _ L E1 E2 D1 D2 ltac:(lia) V) as (s' & R & T). exists s'. split; [exact R|]. exact T.
  - destruct (fmt_shape [] fmt_failed c base (decimal line) [] P) as (_ & V).
    destruct (told_lprintf s e 3 _ _ _ L E1 E2 D1 D2 ltac:(lia) V) as (s' & R & T). exists s'. split; [exact R|]. exact T.
Qed.
Print Assumptions C50_assertion.
(** zt_abort's message is given with the level Critical. *)
Theorem C50_abort : forall pm junk s e msg dir base line func, logger_ok s -> env_ok e -> env_plain e -> dbg_ok (ctx s) -> dbg_plain (ctx s) ->
  cstr dir -> cstr base -> ~ In 47 base -> base <> [] -> Z.of_nat (length base) < pm -> Z.of_nat (length junk) = pm ->
  forall file, file = base \/ file = dir ++ 47 :: base ->
  exists s', log_abort pm junk s e msg file line func = Ok s' /\ told s s' e 2 (exiting (match msg with Some c => c | None => nothing_said end) base line func).
Proof.
  intros pm junk s e msg dir base line func L E1 E2 D1 D2 Cd Cb Nb Ne Hl Hj file Hf.
  assert (B : base_text pm junk file = Ok base) by (destruct (base_text_ok pm junk dir base Cd Cb Nb Ne Hl Hj) as (B1 & B2); destruct Hf as [->| ->]; assumption).
  unfold log_abort. rewrite B. cbn [obind]. assert (P : plain fmt_exiting) by (unfold plain, fmt_exiting; cbn [In]; lia).
  set (c := match msg with Some c => c | None => no_message end).
  change (match msg with Some c => c | None => nothing_said end) with c.
  destruct func as [f|].
  - destruct (fmt_shape [] fmt_exiting c base (decimal line) f P) as (V & _).
    destruct (told_lprintf s e 2 _ _ _ L E1 E2 D1 D2 ltac:(lia) V) as (s' & R & T). exists s'. split; [exact R|]. exact T.
  - destruct (fmt_shape [] fmt_exiting c base (decimal line) [] P) as (_ & V).
    destruct (told_lprintf s e 2 _ _ _ L E1 E2 D1 D2 ltac:(lia) V) as (s' & R & T). exists s'. split; [exact R|]. exact T.
Qed.
Print Assumptions C50_abort.

(** a place whose file name fits *)
Definition place_ok (pm : Z) (w : place) (base : text) : Prop :=
  cstr base /\ ~ In 47 base /\ base <> [] /\ Z.of_nat (length base) < pm /\ (p_file w = base \/ exists dir, cstr dir /\ p_file w = dir ++ 47 :: base).
Lemma fail_at_ok pm junk s e w base f : logger_ok s -> env_ok e -> env_plain e -> dbg_ok (ctx s) -> dbg_plain (ctx s) -> place_ok pm w base -> Z.of_nat (length junk) = pm ->
  exists s', fail_at pm junk s e w f = Ok (f, s') /\ told s s' e 3 (failed (p_text w) base (p_line w) (Some (p_func w))).
Proof.
  intros L E1 E2 D1 D2 (C & N & Ne & Hl & Hf) Hj. unfold fail_at.
  assert (H : exists dir, cstr dir /\ (p_file w = base \/ p_file w = dir ++ 47 :: base)).
  { destruct Hf as [Hf|(dir & Cd & Hf)]; [exists []; split; [constructor|now left]|exists dir; auto]. }
  destruct H as (dir & Cd & Hf').
  destruct (C50_assertion pm junk s e (Some (p_text w)) dir base (p_line w) (Some (p_func w)) L E1 E2 D1 D2 Cd C N Ne Hl Hj _ Hf') as (s' & R & T).
  rewrite R. cbn [obind]. exists s'. auto.
Qed.
(** A condition that holds costs nothing: the program goes on and nothing is printed.  One that does not hold is reported, and then zt_assert and zt_assert_always abort the
    program, zt_assert_nf lets it go on, and zt_assert_return(V) leaves the function with the value given.  With NDEBUG zt_assert and zt_assert_nf do nothing;
    zt_assert_always and the other two are not affected. *)
Theorem C50_macros : forall pm junk s e w base v, logger_ok s -> env_ok e -> env_plain e -> dbg_ok (ctx s) -> dbg_plain (ctx s) -> place_ok pm w base -> Z.of_nat (length junk) = pm ->
  (forall c, zt_assert true pm junk s e w c = Ok (Goes, s) /\ zt_assert_nf true pm junk s e w c = Ok (Goes, s)) /\
  (forall ndebug, zt_assert ndebug pm junk s e w true = Ok (Goes, s) /\ zt_assert_nf ndebug pm junk s e w true = Ok (Goes, s)) /\
  zt_assert_always pm junk s e w true = Ok (Goes, s) /\ zt_assert_returnV pm junk s e w true v = Ok (Goes, s) /\
  exists s', told s s' e 3 (failed (p_text w) base (p_line w) (Some (p_func w))) /\
    zt_assert false pm junk s e w false = Ok (Aborts, s') /\ zt_assert_nf false pm junk s e w false = Ok (Goes, s') /\
    zt_assert_always pm junk s e w false = Ok (Aborts, s') /\ zt_assert_returnV pm junk s e w false v = Ok (Leaves v, s').
Proof.
  intros pm junk s e w base v L E1 E2 D1 D2 Pw Hj. split; [intros c; split; reflexivity|]. split; [intros [|]; split; reflexivity|]. split; [reflexivity|]. split; [reflexivity|].
  destruct (fail_at_ok pm junk s e w base Aborts L E1 E2 D1 D2 Pw Hj) as (s1 & R1 & T1). exists s1. split; [exact T1|].
  unfold fail_at in R1. apply obind_ok in R1. destruct R1 as (s2 & R1 & E). assert (s2 = s1) by congruence. subst s2.
  unfold zt_assert, zt_assert_nf, zt_assert_always, zt_assert_returnV, fail_at. rewrite R1. auto.
Qed.
Print Assumptions C50_macros.
(** zt_abort reports its message and aborts. *)
Theorem C50_zt_abort : forall pm junk s e w base, logger_ok s -> env_ok e -> env_plain e -> dbg_ok (ctx s) -> dbg_plain (ctx s) -> place_ok pm w base -> Z.of_nat (length junk) = pm ->
  exists s', zt_abort pm junk s e w = Ok (Aborts, s') /\ told s s' e 2 (exiting (p_text w) base (p_line w) (Some (p_func w))).
Proof.
  intros pm junk s e w base L E1 E2 D1 D2 (C & N & Ne & Hl & Hf) Hj.
  assert (H : exists dir, cstr dir /\ (p_file w = base \/ p_file w = dir ++ 47 :: base)).
  { destruct Hf as [Hf|(dir & Cd & Hf)]; [exists []; split; [constructor|now left]|exists dir; auto]. }
  destruct H as (dir & Cd & Hf').
  destruct (C50_abort pm junk s e (Some (p_text w)) dir base (p_line w) (Some (p_func w)) L E1 E2 D1 D2 Cd C N Ne Hl Hj _ Hf') as (s' & R & T).
  unfold zt_abort. rewrite R. cbn [obind]. exists s'. auto.
Qed.
Print Assumptions C50_zt_abort.
(** A file name of PATH_MAX or more characters leaves the local array without terminator: printing it reads beyond it. *)
Theorem C50_long_name_refuted : exists pm junk s e cond file, Z.of_nat (length junk) = pm /\ logger_ok s /\ env_ok e /\ env_plain e /\ cstr file /\ Z.of_nat (length file) = pm /\
  log_assertion pm junk s e cond file 1 None = UB.
Proof.
  exists 4, [9; 9; 9; 9], init, (mkenv [] None [] 1), None, [97; 98; 46; 99].
  repeat split; try (cbn; lia); try (vm_compute; congruence); try (intros []); try (repeat constructor; lia).
  all: unfold init; cbn; intros; congruence.
Qed.
Print Assumptions C50_long_name_refuted.

(** ** C51 *)
Lemma always_got A pm junk s e dir t line func (m : A) : always pm junk s e dir t line func (Some m) = Ok (Got m, s).
Proof. reflexivity. Qed.
Lemma always_stopped A pm junk s e dir t line func : logger_ok s -> env_ok e -> env_plain e -> dbg_ok (ctx s) -> dbg_plain (ctx s) -> cstr dir -> 11 < pm -> Z.of_nat (length junk) = pm ->
  exists s', @always A pm junk s e dir t line func None = Ok (Stopped, s') /\ told s s' e 3 (failed t malloc_c line (Some func)).
Proof.
  intros L E1 E2 D1 D2 Cd Hp Hj. unfold always, zt_assert_always.
  destruct (fail_at_ok pm junk s e (mkplace t (dir ++ 47 :: t_file) line func) malloc_c Aborts L E1 E2 D1 D2) as (s' & R & T); [|exact Hj|].
  - split; [repeat constructor|]. split; [change malloc_c with t_file; unfold t_file; cbn [In]; lia|]. split; [discriminate|]. split; [change (Z.of_nat (length malloc_c)) with 11; lia|]. right. exists dir. auto.
  - rewrite R. cbn [obind]. exists s'. auto.
Qed.
(** When there is memory and the sizes multiply without overflow, a block of exactly num * size bytes is returned, nothing is printed: zt_calloc's is all zeros, zt_realloc's
    starts with what the old block held. *)
Theorem C51_blocks : forall pm junk s e dir size num, 0 <= size -> 0 <= num -> num * size < 2 ^ 64 ->
  (exists b, zt_malloc pm junk s e dir size num true = Ok (Got b, s) /\ Z.of_nat (length b) = num * size) /\
  (exists b, zt_calloc pm junk s e dir size num true = Ok (Got b, s) /\ Z.of_nat (length b) = num * size /\ forall x, In x b -> x = Some 0) /\
  (exists b, zt_realloc pm junk s e dir None size num true = Ok (Got b, s) /\ Z.of_nat (length b) = num * size) /\
  (0 < num * size -> forall old, exists b, zt_realloc pm junk s e dir (Some old) size num true = Ok (Got b, s) /\ Z.of_nat (length b) = num * size /\
     forall k, (k < length old)%nat -> (k < length b)%nat -> nth_error b k = nth_error old k).
Proof.
  intros pm junk s e dir size num Hs Hn Ho. assert (P : 0 <= num * size) by nia.
  unfold zt_malloc, zt_calloc, zt_realloc, zt_malloc_p, zt_calloc_p, zt_realloc_p, malloc, calloc, realloc. rewrite Z.mod_small by lia.
  replace (num * size <? 2 ^ 64) with true by lia. set (n := num * size) in *. clearbody n.
  split; [eexists; split; [apply always_got|rewrite repeat_length; lia]|]. split.
  { eexists. split; [apply always_got|]. split; [rewrite repeat_length; lia|]. intros x Hx. now apply repeat_spec in Hx. }
  split; [eexists; split; [apply always_got|rewrite repeat_length; lia]|]. intros Hpos old. replace (n =? 0) with false by lia.
  eexists. split; [apply always_got|]. split; [rewrite app_length, firstn_length, repeat_length; lia|]. intros k H1 H2. rewrite app_length, firstn_length, repeat_length in H2.
  rewrite nth_error_app1 by (rewrite firstn_length; lia). revert H2. generalize (Z.to_nat n) as c. clear. intros c H.
  assert (K : (k < c)%nat) by lia. clear H. revert k K old. induction c as [|c IH]; intros k K old; [lia|]. destruct old as [|x old]; [now destruct k|]. destruct k as [|k]; [reflexivity|]. cbn [firstn nth_error]. apply IH. lia.
Qed.
Print Assumptions C51_blocks.
(** When there is no memory no wrapper returns: the failure is reported, with the function and its place in zt_malloc.c, and the program is aborted.  So none ever returns NULL.
    zt_calloc treats a product that does not fit size_t the same way, and zt_strdup a NULL string. *)
Theorem C51_failures : forall pm junk s e dir size num old str, logger_ok s -> env_ok e -> env_plain e -> dbg_ok (ctx s) -> dbg_plain (ctx s) -> cstr dir -> 11 < pm -> Z.of_nat (length junk) = pm ->
  0 < size -> 0 < num -> num * size < 2 ^ 64 ->
  (exists s', zt_malloc pm junk s e dir size num false = Ok (Stopped, s') /\ told s s' e 3 (failed mem_is_null malloc_c 36 (Some name_malloc))) /\
  (exists s', zt_calloc pm junk s e dir size num false = Ok (Stopped, s') /\ told s s' e 3 (failed mem_is_null malloc_c 25 (Some name_calloc))) /\
  (exists s', zt_realloc pm junk s e dir old size num false = Ok (Stopped, s') /\ told s s' e 3 (failed mem_is_null malloc_c 48 (Some name_realloc))) /\
  (exists s', zt_strdup_p pm junk s e dir (Some str) false = Ok (Stopped, s') /\ told s s' e 3 (failed copy_is_null malloc_c 60 (Some name_strdup))).
Proof.
  intros pm junk s e dir size num old str L E1 E2 D1 D2 Cd Hp Hj Hs Hn Ho. assert (P : 0 < num * size) by nia.
  unfold zt_malloc, zt_calloc, zt_realloc, zt_malloc_p, zt_calloc_p, zt_realloc_p, zt_strdup_p, malloc, calloc, realloc. rewrite Z.mod_small by lia.
  replace (num * size <? 2 ^ 64) with true by lia. replace (num * size =? 0) with false by lia.
  split; [now apply always_stopped|]. split; [now apply always_stopped|]. split; [destruct old; now apply always_stopped|]. rewrite always_got. cbn [obind]. now apply always_stopped.
Qed.
Print Assumptions C51_failures.
Theorem C51_calloc_overflow : forall pm junk s e dir size num gives, logger_ok s -> env_ok e -> env_plain e -> dbg_ok (ctx s) -> dbg_plain (ctx s) -> cstr dir -> 11 < pm -> Z.of_nat (length junk) = pm ->
  2 ^ 64 <= num * size ->
  exists s', zt_calloc pm junk s e dir size num gives = Ok (Stopped, s') /\ told s s' e 3 (failed mem_is_null malloc_c 25 (Some name_calloc)).
Proof.
  intros. unfold zt_calloc, zt_calloc_p, calloc. replace (num * size <? 2 ^ 64) with false by lia. now apply always_stopped.
Qed.
Print Assumptions C51_calloc_overflow.
Theorem C51_strdup : forall pm junk s e dir str, zt_strdup_p pm junk s e dir (Some str) true = Ok (Got str, s) /\
  (logger_ok s -> env_ok e -> env_plain e -> dbg_ok (ctx s) -> dbg_plain (ctx s) -> cstr dir -> 11 < pm -> Z.of_nat (length junk) = pm -> forall gives,
   exists s', zt_strdup_p pm junk s e dir None gives = Ok (Stopped, s') /\ told s s' e 3 (failed string_is_null malloc_c 58 (Some name_strdup))).
Proof.
  intros pm junk s e dir str. split; [reflexivity|]. intros L E1 E2 D1 D2 Cd Hp Hj gives. unfold zt_strdup_p.
  destruct (always_stopped text pm junk s e dir t_string 58 f_strdup L E1 E2 D1 D2 Cd Hp Hj) as (s' & R & T). rewrite R. cbn [obind]. exists s'. auto.
Qed.
Print Assumptions C51_strdup.
(** zt_malloc and zt_realloc multiply without looking: a request for 2^61 + 1 eight-byte elements succeeds with a block of eight bytes. *)
Theorem C51_overflow_refuted : forall pm junk s e dir old, exists size num b b', 0 < size /\ 0 < num < 2 ^ 64 /\
  zt_malloc pm junk s e dir size num true = Ok (Got b, s) /\ Z.of_nat (length b) < num * size /\
  zt_realloc pm junk s e dir old size num true = Ok (Got b', s) /\ Z.of_nat (length b') < num * size.
Proof.
  intros pm junk s e dir old. exists 8, (2 ^ 61 + 1). unfold zt_malloc, zt_realloc, zt_malloc_p, zt_realloc_p, malloc, realloc.
  change ((2 ^ 61 + 1) * 8 mod 2 ^ 64) with 8. change (8 =? 0) with false. change (Z.to_nat 8) with 8%nat. destruct old as [old|].
  - do 2 eexists. split; [lia|]. split; [lia|]. split; [apply always_got|]. split; [cbn; lia|]. split; [apply always_got|]. rewrite app_length, firstn_length, repeat_length. lia.
  - do 2 eexists. split; [lia|]. split; [lia|]. split; [apply always_got|]. split; [cbn; lia|]. split; [apply always_got|]. vm_compute; reflexivity.
Qed.
Print Assumptions C51_overflow_refuted.
(** Shrinking a block to nothing aborts the program, although there is memory: realloc(p, 0) answers NULL. *)
Theorem C51_shrink_refuted : forall pm junk s e dir size b, logger_ok s -> env_ok e -> env_plain e -> dbg_ok (ctx s) -> dbg_plain (ctx s) -> cstr dir -> 11 < pm -> Z.of_nat (length junk) = pm ->
  exists s', zt_realloc pm junk s e dir (Some b) size 0 true = Ok (Stopped, s').
Proof.
  intros. unfold zt_realloc, zt_realloc_p, realloc. change (0 * size mod 2 ^ 64 =? 0) with true. cbv iota.
  destruct (always_stopped block pm junk s e dir t_mem 48 f_realloc) as (s' & R & _); try assumption. exists s'. exact R.
Qed.
Print Assumptions C51_shrink_refuted.

(** the hypotheses are met: a program without logger, in a function f of the file a/x.c *)
Definition env1 : env := mkenv [] None [] 1.
Definition place1 : place := mkplace [112; 37] [97; 47; 120; 46; 99] 12 [102].
Example C50_hyps : logger_ok init /\ env_ok env1 /\ env_plain env1 /\ dbg_ok (ctx init) /\ dbg_plain (ctx init) /\ place_ok 16 place1 [120; 46; 99] /\ Z.of_nat (length (repeat 7 16)) = 16 /\ cstr [97].
Proof.
  pose proof init_good as G. split; [split; [apply G|intros H; now destruct H]|]. split; [split; [exact I|cbn; lia]|]. split; [repeat split; intros []|]. split; [apply G|]. split; [apply G|].
  split; [|split; [reflexivity|repeat constructor]].
  split; [repeat constructor|]. split; [cbn [In]; lia|]. split; [discriminate|]. split; [cbn; lia|]. right. exists [97]. split; [repeat constructor|reflexivity].
Qed.
(* Error: Assertion Failed: "p%": x.c[12:f] *)
Example C50_example : match zt_assert false 16 (repeat 7 16) init env1 place1 false with
  | Ok (Aborts, s') => out s' = [(1%nat, [69;114;114;111;114;58;32;65;115;115;101;114;116;105;111;110;32;70;97;105;108;101;100;58;32;34;112;37;34;58;32;120;46;99;91;49;50;58;102;93;10])]
  | _ => False
  end.
Proof. vm_compute. reflexivity. Qed.
Example C51_example : match zt_malloc 16 (repeat 7 16) init env1 [97] 8 3 true with Ok (Got b, _) => length b = 24%nat | _ => False end /\
  match zt_malloc 16 (repeat 7 16) init env1 [97] 8 3 false with Ok (Stopped, s') => length (out s') = 1%nat | _ => False end.
Proof. split; vm_compute; reflexivity. Qed.
