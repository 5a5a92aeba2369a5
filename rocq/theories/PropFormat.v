(** C34: formatting. Model: FormatModel.v; vocabulary: FormatSpec.v. *)
From Verif Require Import Prelude CstrModel CstrProofs CstrText FormatModel FormatSpec FormatProofs FormatRun.
Open Scope Z_scope.

(** ** Positional notation *)
Lemma undigit_digit : forall k, 0 <= k < 16 -> undigit (digit k) = k.
Proof. intros k H. unfold undigit, digit. destruct (k <? 10) eqn:E; [replace (48 + k <? 58) with true by lia|replace (87 + k <? 58) with false by lia]; lia. Qed.

(** [numeral base n] is the numeral of [n]: it reads back as [n], its characters are digits below
    the base, it has no leading zero; and it is the only such text. *)
Theorem C34_numeral : forall base n, 2 <= base <= 16 -> 0 <= n ->
  reads base (numeral base n) = n /\
  Forall (fun c => exists k, c = digit k /\ 0 <= k < base) (numeral base n) /\
  (numeral base n = [48] \/ hd 48 (numeral base n) <> 48).
Proof.
  intros base n Hb. revert n.
  apply (Zlt_0_ind (fun n => reads base (numeral base n) = n /\
    Forall (fun c => exists k, c = digit k /\ 0 <= k < base) (numeral base n) /\
    (numeral base n = [48] \/ hd 48 (numeral base n) <> 48))).
  intros n IH Hn. split; [|split; [apply numeral_digits; lia|]].
  - rewrite numeral_step, reads_app by lia. rewrite undigit_digit by (pose proof (Z.mod_pos_bound n base ltac:(lia)); lia).
    destruct (n <? base) eqn:E.
    + change (reads base []) with 0. rewrite Z.mod_small by lia. lia.
    + destruct (IH (n / base)) as (-> & _); [split; [apply Z.div_pos; lia|apply Z.div_lt; lia]|].
      pose proof (Z.div_mod n base ltac:(lia)). lia.
  - rewrite numeral_step by lia. destruct (n <? base) eqn:E.
    + cbn [app hd]. rewrite Z.mod_small by lia. destruct (Z.eq_dec n 0) as [->|N]; [left; reflexivity|].
      right. unfold digit. destruct (n <? 10); lia.
    + destruct (IH (n / base)) as (R & _ & Hd); [split; [apply Z.div_pos; lia|apply Z.div_lt; lia]|].
      assert (P : 0 < n / base) by (apply Z.div_str_pos; lia). right.
      destruct (numeral base (n / base)) as [|c r]; [change (reads base []) with 0 in R; lia|].
      cbn [app hd] in *. destruct Hd as [Hd|Hd]; [|exact Hd]. injection Hd as -> ->. change (reads base [48]) with (base * 0 + undigit 48) in R.
      change (undigit 48) with 0 in R. lia.
Qed.
Theorem C34_numeral_unique : forall base l, 2 <= base <= 16 -> l <> [] ->
  Forall (fun c => exists k, c = digit k /\ 0 <= k < base) l -> (l = [48] \/ hd 48 l <> 48) ->
  l = numeral base (reads base l) /\ 0 <= reads base l.
Proof.
  intros base l Hb. induction l as [|c l IH] using rev_ind; intros Ne D H; [congruence|].
  apply Forall_app in D as [Dl Dc]. inversion Dc as [|? ? (k & -> & Hk) _]; subst. rewrite reads_app, undigit_digit by lia.
  destruct l as [|c l].
  - change (reads base []) with 0. rewrite numeral_step by lia. replace (base * 0 + k <? base) with true by lia.
    rewrite Z.mod_small by lia. replace (base * 0 + k) with k by lia. split; [reflexivity|lia].
  - assert (N : c <> 48).
    { destruct H as [H|H]; [destruct l; discriminate H|]. cbn [app hd] in H. exact H. }
    destruct (IH ltac:(discriminate) Dl ltac:(right; exact N)) as (E & P).
    assert (P1 : 0 < reads base (c :: l)).
    { destruct (Z.eq_dec (reads base (c :: l)) 0) as [Z0|]; [|lia]. rewrite Z0 in E.
      change (numeral base 0) with ((if 0 <? base then [] else []) ++ [digit (0 mod base)]) in E.
      destruct (0 <? base); cbn [app] in E; rewrite Z.mod_0_l in E by lia; injection E as -> _; contradiction N; reflexivity. }
    split; [|nia]. rewrite numeral_step by nia.
    replace (base * reads base (c :: l) + k <? base) with false by nia.
    replace ((base * reads base (c :: l) + k) / base) with (reads base (c :: l)).
    2:{ rewrite Z.mul_comm, Z.div_add_l by lia. rewrite Z.div_small by lia. lia. }
    replace ((base * reads base (c :: l) + k) mod base) with k.
    2:{ rewrite Z.add_comm, Z.mul_comm, Z.mod_add by lia. rewrite Z.mod_small by lia. reflexivity. }
    rewrite <- E. reflexivity.
Qed.

(** ** What is printed: any callback receives exactly the rendered characters, in order. *)
Theorem C34_format : forall {S} (put : put_f S) ps extra cl, Forall piece_ok ps ->
  zt_fmt_vformat cvt0 put cl (format_of ps) (args_of ps ++ extra) = feed put (flat_map render ps) 0 cl.
Proof.
  intros S put ps extra cl K. unfold zt_fmt_vformat. apply vformat_ok; [exact K|unfold two64; lia|reflexivity|lia].
Qed.

(** Registering a converter changes what its letter means and nothing else. *)
Theorem C34_register : forall {S} (put : put_f S) t c f ty old t',
  zt_fmt_register t c f ty = Ok (old, t') ->
  0 < c < 256 /\ old = fst (t c) /\
  (forall ps extra cl, Forall piece_ok ps -> (forall d, In (Dir d) ps -> code d <> c /\ t (code d) = cvt0 (code d)) ->
     zt_fmt_vformat t' put cl (format_of ps) (args_of ps ++ extra) = feed put (flat_map render ps) 0 cl) /\
  (forall g s cl ap, f = Some g -> ty = 115 -> ~ In c [43; 45; 32; 48; 35] -> ~ (48 <= c <= 57) ->
     c <> 42 -> c <> 46 -> c <> 37 -> c <> 126 ->
     zt_fmt_vformat t' put cl [37; c] (AStr s :: ap) =
     (x <- g c (VStr s) put cl no_flags INT_MIN INT_MIN ;; Ok (fst x mod two64, snd x))).
Proof.
  intros S put t c f ty old t' E. unfold zt_fmt_register in E.
  destruct ((0 <? c) && (c <? 256)) eqn:G; cbn [guard obind] in E; [|discriminate].
  injection E as Eo Et. symmetry in Eo. subst t'.
  split; [lia|]. split; [exact Eo|]. split.
  - intros ps extra cl K Ht. unfold zt_fmt_vformat. apply vformat_ok; [exact K|unfold two64; lia| |lia].
    intros d I. destruct (Ht d I) as (Nc & Eq). replace (code d =? c) with false by lia. exact Eq.
  - intros g s cl ap -> -> Nf0 Nd0 N1 N2 N3 N4. cbn [In] in Nf0.
    assert (Nf : inset zt_fmt_flags c = false) by (unfold inset, zt_fmt_flags; cbn [existsb]; lia).
    assert (Nd : isdigit c = false) by (unfold isdigit; lia). unfold zt_fmt_vformat.
    cbn [length vformat_loop]. change (control 37) with true. cbn [negb].
    assert (Nc : control c = false) by (unfold control; lia). rewrite Nc.
    assert (D : directive (fun k => if k =? c then (Some g, 115) else t k) put [c] (AStr s :: ap) (0, cl) =
      (x <- g c (VStr s) put cl no_flags INT_MIN INT_MIN ;; Ok ([], ap, (fst x mod two64, snd x)))).
    { unfold directive. cbn [read_flags]. rewrite Nf. cbn [obind read_number]. replace (c =? 42) with false by lia. rewrite Nd. cbn [obind].
      assert (M : match [c] with 46 :: r => read_number r (AStr s :: ap) | _ => Ok (INT_MIN, [c], AStr s :: ap) end =
                  Ok (INT_MIN, [c], AStr s :: ap)).
      { repeat (match goal with |- context [match ?c with _ => _ end] => is_var c; destruct c; try reflexivity; try (contradiction N2; reflexivity) end). }
      rewrite M. cbn [obind]. rewrite Z.eqb_refl. change (negb (115 =? 0)) with true. cbn [guard obind].
      change (read_value 115 (AStr s :: ap)) with (Ok (VStr s, ap)). cbn [obind fst snd].
      destruct (g c (VStr s) put cl no_flags INT_MIN INT_MIN) as [[a b]| | |]; cbn [obind fst snd]; reflexivity. }
    match goal with |- obind ?X _ = _ => replace X with (x <- g c (VStr s) put cl no_flags INT_MIN INT_MIN ;; @Ok (text * list arg * st S) ([], ap, (fst x mod two64, snd x))) by (symmetry; exact D) end.
    destruct (g c (VStr s) put cl no_flags INT_MIN INT_MIN) as [[a b]| | |]; reflexivity.
Qed.
(** Codes outside 1..255 are refused. *)
Theorem C34_register_range : forall {S} t c (f : option (@conv S)) ty, ~ (0 < c < 256) -> zt_fmt_register t c f ty = Abort.
Proof. intros S t c f ty H. unfold zt_fmt_register. replace ((0 <? c) && (c <? 256)) with false by lia. reflexivity. Qed.

(** A letter without a converter stops the program instead of printing anything for it. *)
Theorem C34_unknown_letter : forall {S} (put : put_f S) cl c rest ap, ~ In c [99; 100; 101; 102; 103; 111; 112; 115; 117; 120] -> (* c d e f g o p s u x *)
  ~ In c [43; 45; 32; 48; 35; 42; 46; 37; 126] -> ~ (48 <= c <= 57) ->
  zt_fmt_vformat cvt0 put cl (37 :: c :: rest) ap = Abort.
Proof.
  intros S put cl c rest ap T0 N Nd0. cbn [In] in T0. assert (Nd : isdigit c = false) by (unfold isdigit; lia).
  assert (T : fst (@cvt0 S c) = None).
  { unfold cvt0. repeat match goal with |- context [if ?b then _ else _] => replace b with false by lia end. reflexivity. }
  unfold zt_fmt_vformat. cbn [length vformat_loop]. change (control 37) with true. cbn [negb].
  cbn [In] in N. replace (control c) with false by (unfold control; lia).
  assert (Nf : inset zt_fmt_flags c = false) by (unfold inset, zt_fmt_flags; cbn [existsb]; lia).
  unfold directive. cbn [read_flags]. rewrite Nf. cbn [obind read_number]. replace (c =? 42) with false by lia. rewrite Nd. cbn [obind].
  assert (M : match c :: rest with 46 :: r => read_number r ap | _ => Ok (INT_MIN, c :: rest, ap) end = Ok (INT_MIN, c :: rest, ap)).
  { assert (N2 : c <> 46) by lia. clear - N2.
    repeat (match goal with |- context [match ?c with _ => _ end] => is_var c; destruct c; try reflexivity; try (contradiction N2; reflexivity) end). }
  rewrite M. cbn [obind]. destruct (@cvt0 S c) as [[f|] ty]; [discriminate T|reflexivity].
Qed.

(** ** Destinations *)
Definition out (ps : list piece) : text := map (fun c => c mod 256) (flat_map render ps).

Lemma feed_insert : forall size l n (pre post : text), (Z.to_nat size <= length pre + length post)%nat -> zlen pre <= size ->
  feed (zt_fmt_insert size) l n (pre ++ post, zlen pre) =
  if len pre + len l <=? size
  then Ok (fold_left (fun a c => (a + c) mod two64) l n,
           (pre ++ map (fun c => c mod 256) l ++ skipn (length l) post, zlen pre + len l))
  else Abort.
Proof.
  intros size l. induction l as [|c l IH]; intros n pre post Lm Hs.
  - cbn [feed fold_left map app skipn length]. change (len []) with 0. rewrite !Z.add_0_r.
    change (len pre) with (zlen pre). replace (zlen pre <=? size) with true by lia. reflexivity.
  - cbn [feed]. unfold zt_fmt_insert at 1. pose proof (len_nonneg l).
    assert (Ll : len (c :: l) = len l + 1) by (unfold len; cbn [length]; lia). rewrite Ll.
    change (len pre) with (zlen pre). destruct (zlen pre <? size) eqn:E; cbn [guard obind].
    2:{ replace (zlen pre + (len l + 1) <=? size) with false by lia. reflexivity. }
    destruct post as [|o post].
    { exfalso. unfold zlen in *. cbn [length] in Lm. lia. }
    unfold mset. rewrite zlen_app. replace ((0 <=? zlen pre) && (zlen pre <? zlen pre + zlen (o :: post))) with true
      by (unfold zlen; cbn [length]; lia).
    cbn [obind]. replace (Z.to_nat (zlen pre)) with (length pre) by (unfold zlen; lia).
    rewrite upd_app_r, Nat.sub_diag by lia. cbn [upd].
    replace (pre ++ c mod 256 :: post) with ((pre ++ [c mod 256]) ++ post) by (rewrite <- app_assoc; reflexivity).
    replace (zlen pre + 1) with (zlen (pre ++ [c mod 256])) by (rewrite zlen_app; reflexivity).
    rewrite IH.
    + change (len (pre ++ [c mod 256])) with (zlen (pre ++ [c mod 256])). rewrite zlen_app. change (zlen [c mod 256]) with 1.
      replace (zlen pre + 1 + len l <=? size) with (zlen pre + (len l + 1) <=? size) by lia.
      destruct (zlen pre + (len l + 1) <=? size); [|reflexivity]. cbn [fold_left map app skipn].
      rewrite <- !app_assoc. cbn [app length skipn]. f_equal. f_equal. f_equal. lia.
    + rewrite app_length. cbn [length] in *. lia.
    + rewrite zlen_app. change (zlen [c mod 256]) with 1. lia.
Qed.

(** zt_fmt_sprintf: if the text and its NUL fit into [size] bytes they are written at the front of the
    buffer, nothing else changes, and the length is returned; otherwise the program stops. *)
Theorem C34_sprintf : forall buf size ps extra, Forall piece_ok ps -> 0 < size <= len buf ->
  zt_fmt_vsprintf cvt0 buf size (format_of ps) (args_of ps ++ extra) =
  if len (out ps) <? size then Ok (len (out ps), out ps ++ 0 :: skipn (S (length (out ps))) buf) else Abort.
Proof.
  intros buf size ps extra K H. unfold zt_fmt_vsprintf. replace (0 <? size) with true by lia. cbn [guard obind].
  rewrite C34_format by exact K. set (l := flat_map render ps).
  assert (Lo : length (out ps) = length l) by (unfold out; apply map_length).
  assert (Lz : len (out ps) = len l) by (unfold len; rewrite Lo; reflexivity).
  pose proof (feed_insert size l 0 [] buf) as F. cbn [app length] in F. change (zlen (@nil Z)) with 0 in F. change (len []) with 0 in F.
  rewrite F by (unfold len in H; lia). clear F. rewrite Z.add_0_l.
  pose proof (len_nonneg l). rewrite Lz, Lo.
  destruct (len l <=? size) eqn:E; cbn [obind].
  2:{ replace (len l <? size) with false by lia. reflexivity. }
  unfold zt_fmt_insert. destruct (len l <? size) eqn:E2; cbn [guard obind]; [|reflexivity].
  unfold mset. set (o := out ps) in *. change (map (fun c => c mod 256) l) with o.
  assert (Hb : (length l < length buf)%nat) by (unfold len in *; lia).
  assert (S1 : exists b, skipn (length l) buf = b :: skipn (S (length l)) buf).
  { clear - Hb. revert buf Hb. induction (length l) as [|k IH]; intros [|b buf] Hb; cbn [length] in *; try lia.
    - exists b. reflexivity.
    - destruct (IH buf ltac:(lia)) as (x & Ex). exists x. cbn [skipn]. exact Ex. }
  destruct S1 as (b & ->).
  rewrite zlen_app. replace (zlen o) with (len l) by (rewrite <- Lz; reflexivity).
  replace ((0 <=? len l) && (len l <? len l + zlen (b :: skipn (S (length l)) buf))) with true by (unfold zlen; cbn [length]; lia).
  cbn [obind]. rewrite Z.mod_0_l by lia.
  replace (Z.to_nat (len l)) with (length o) by (rewrite Lo; unfold len; lia).
  rewrite upd_app_r by apply le_n. rewrite Nat.sub_diag. cbn [upd]. f_equal. f_equal. lia.
Qed.

Lemma feed_append : forall l n (pre post : text) size, zlen pre + zlen post = size -> 0 < size ->
  exists post' size', feed zt_fmt_append l n (pre ++ post, zlen pre, size) =
    Ok (fold_left (fun a c => (a + c) mod two64) l n, ((pre ++ map (fun c => c mod 256) l) ++ post', zlen pre + len l, size')) /\
    zlen (pre ++ map (fun c => c mod 256) l) + zlen post' = size' /\ 0 < size'.
Proof.
  induction l as [|c l IH]; intros n pre post size Hz Hs.
  - exists post, size. cbn [feed map fold_left]. change (len []) with 0. rewrite Z.add_0_r, app_nil_r. auto.
  - cbn [feed]. unfold zt_fmt_append at 1.
    assert (X : exists o post1 size1, (if size <=? zlen pre then ((pre ++ post) ++ repeat 0 (Z.to_nat size), size, size * 2) else (pre ++ post, zlen pre, size)) =
              (pre ++ o :: post1, zlen pre, size1) /\ zlen pre + zlen (o :: post1) = size1 /\ 0 < size1).
    { destruct (size <=? zlen pre) eqn:E.
      - pose proof (zlen_nonneg post). assert (zlen post = 0) by lia. destruct post; [|exfalso; unfold zlen in *; cbn [length] in *; lia].
        rewrite app_nil_r. assert (zlen pre = size) by lia.
        destruct (Z.to_nat size) as [|k] eqn:Ek; [lia|]. cbn [repeat].
        exists 0, (repeat 0 k), (size * 2). split; [f_equal; f_equal; lia|]. unfold zlen in *. cbn [length]. rewrite repeat_length. lia.
      - destruct post as [|o post]; [exfalso; unfold zlen in *; cbn [length] in *; lia|]. exists o, post, size. auto. }
    destruct X as (o & post1 & size1 & -> & Hz1 & Hs1).
    unfold mset. rewrite zlen_app. pose proof (zlen_nonneg pre).
    replace ((0 <=? zlen pre) && (zlen pre <? zlen pre + zlen (o :: post1))) with true by (unfold zlen; cbn [length]; lia).
    cbn [obind]. replace (Z.to_nat (zlen pre)) with (length pre) by (unfold zlen; lia).
    rewrite upd_app_r, Nat.sub_diag by lia. cbn [upd].
    replace (pre ++ c mod 256 :: post1) with ((pre ++ [c mod 256]) ++ post1) by (rewrite <- app_assoc; reflexivity).
    replace (zlen pre + 1) with (zlen (pre ++ [c mod 256])) by (rewrite zlen_app; reflexivity).
    destruct (IH ((n + c) mod two64) (pre ++ [c mod 256]) post1 size1) as (post' & size' & E & Hz' & Hs').
    + rewrite zlen_app. change (zlen [c mod 256]) with 1. unfold zlen in *. cbn [length] in *. lia.
    + exact Hs1.
    + exists post', size'. rewrite E. cbn [fold_left map].
      assert (Ea : (pre ++ [c mod 256]) ++ map (fun c => c mod 256) l = pre ++ c mod 256 :: map (fun c => c mod 256) l) by (rewrite <- app_assoc; reflexivity).
      rewrite Ea in *. split; [|split; assumption].
      replace (zlen (pre ++ [c mod 256]) + len l) with (zlen pre + len (c :: l)); [reflexivity|]. rewrite zlen_app. unfold len, zlen. cbn [length]. lia.
Qed.

(** zt_fmt_strprintf returns the complete text and its NUL, however long. *)
Theorem C34_strprintf : forall ps extra, Forall piece_ok ps ->
  zt_fmt_vstrprintf cvt0 (format_of ps) (args_of ps ++ extra) = Ok (out ps ++ [0]).
Proof.
  intros ps extra K. unfold zt_fmt_vstrprintf. rewrite C34_format by exact K. set (l := flat_map render ps).
  destruct (feed_append l 0 [] (repeat 0 256) 256) as (post & size & E & Hz & Hs); [reflexivity|lia|].
  cbn [app] in E. change (zlen (@nil Z)) with 0 in E. rewrite Z.add_0_l in E. rewrite E. cbn [obind].
  cbn [app] in Hz. change (map (fun c => c mod 256) l) with (out ps) in *.
  destruct (feed_append [0] 0 (out ps) post size) as (post' & size' & E' & Hz' & Hs'); [exact Hz|exact Hs|].
  assert (Lo : len l = zlen (out ps)) by (unfold out, len, zlen; rewrite map_length; reflexivity). rewrite Lo.
  cbn [feed] in E'. destruct (zt_fmt_append 0 (out ps ++ post, zlen (out ps), size)) as [[k [[m b] z]]| | |]; cbn [obind] in E'; try discriminate.
  assert (Em : m = (out ps ++ map (fun c => c mod 256) [0]) ++ post' /\ b = zlen (out ps) + len [0]) by (split; congruence).
  destruct Em as (-> & ->). cbn [obind]. f_equal. cbn [map]. rewrite Z.mod_0_l by lia.
  replace (Z.to_nat (zlen (out ps) + len [0])) with (length (out ps ++ [0])) by (rewrite app_length; unfold zlen, len; cbn [length]; lia).
  rewrite firstn_app, Nat.sub_diag, firstn_all. cbn [firstn]. apply app_nil_r.
Qed.

(** zt_fmt_printf / zt_fmt_fprintf write exactly the text to the stream ... *)
Theorem C34_fprintf : forall ps extra stream, Forall piece_ok ps ->
  zt_fmt_fprintf cvt0 stream (format_of ps) (args_of ps ++ extra) =
  Ok (fold_left (fun a c => (a + c) mod two64) (out ps) 0, stream ++ out ps).
Proof.
  intros ps extra stream K. unfold zt_fmt_fprintf. rewrite C34_format by exact K. unfold out.
  generalize (flat_map render ps) as l. generalize 0 as n. intros n l. revert n stream.
  induction l as [|c l IH]; intros n stream; cbn [feed map fold_left]; [rewrite app_nil_r; reflexivity|].
  unfold zt_fmt_outc at 1. cbn [obind]. rewrite IH, <- app_assoc. reflexivity.
Qed.
(** ... but return the sum of the character codes, not the number of characters. *)
Theorem C34_fprintf_count_refuted : exists ps, Forall piece_ok ps /\
  exists n s, zt_fmt_fprintf cvt0 [] (format_of ps) (args_of ps) = Ok (n, s) /\ n <> len s.
Proof.
  exists [Chr 104; Chr 105]. split; [repeat constructor; try lia; intros [|]; lia|].
  exists 209, [104; 105]. split; [vm_compute; reflexivity|discriminate].
Qed.

(** ** Never beyond the buffer, for any format and arguments at all *)
Section Inv.
Context {S : Type} (P : S -> Prop) (put : put_f S).
Hypothesis Hput : forall c s r s', P s -> put c s = Ok (r, s') -> P s'.
Let good (r : outcome (Z * S)) : Prop := forall x, r = Ok x -> P (snd x).

Lemma inv_emit : forall c x, P (snd x) -> good (emit put c x).
Proof.
  intros c [n s] H y E. unfold emit in E. cbn [snd] in *. destruct (put c s) as [[r s']| | |] eqn:Ep; cbn [obind] in E; try discriminate.
  injection E as <-. cbn [snd]. eapply Hput; eassumption.
Qed.
Lemma inv_bind : forall a f, good a -> (forall x, P (snd x) -> good (f x)) -> good (obind a f).
Proof. intros a f Ha Hf y E. apply obind_ok in E as (x & E1 & E2). exact (Hf x (Ha x E1) y E2). Qed.
Lemma inv_ok : forall x, P (snd x) -> good (Ok x).
Proof. intros x H y E. injection E as <-. exact H. Qed.
Lemma inv_pad : forall n c x, P (snd x) -> good (pad put n c x).
Proof.
  intros n c. unfold pad. induction (Z.to_nat n) as [|k IH]; intros x H; cbn [pad_loop]; [apply inv_ok, H|].
  apply inv_bind; [apply inv_emit, H|exact IH].
Qed.
Lemma inv_str : forall k str x, P (snd x) -> good (emit_str k put str x).
Proof.
  induction k as [|k IH]; intros str x H; cbn [emit_str]; [apply inv_ok, H|].
  destruct str; [intros y E; discriminate|]. apply inv_bind; [apply inv_emit, H|intros; apply IH; assumption].
Qed.
Lemma inv_puts : forall str n cl fl w p, P cl -> good (zt_fmt_puts str n put cl fl w p).
Proof.
  intros str n cl fl w p H. unfold zt_fmt_puts. destruct (normalize w fl p) as [w' fl'].
  apply inv_bind; [destruct (fl' 45 =? 0); [apply inv_pad|apply inv_ok]; exact H|intros; apply inv_str; assumption].
Qed.
Lemma inv_putd : forall str n cl fl w p, P cl -> good (zt_fmt_putd str n put cl fl w p).
Proof.
  intros str n cl fl w p H. unfold zt_fmt_putd. destruct (normalize w fl p) as [w' fl'].
  intros y E. apply obind_ok in E as ([[sign s1] l1] & _ & E). cbv zeta in E. apply obind_ok in E as (k & _ & E). revert y E.
  assert (Hs : good (if sign =? 0 then Ok (0, cl) else emit put sign (0, cl))) by (destruct (sign =? 0); [apply inv_ok|apply inv_emit]; exact H).
  apply inv_bind.
  - destruct (negb (fl' 45 =? 0)); [exact Hs|]. destruct (negb (fl' 48 =? 0)); (apply inv_bind; [exact Hs|intros; apply inv_pad; assumption]).
  - intros x Hx. apply inv_bind; [apply inv_pad, Hx|]. intros x1 Hx1. apply inv_bind; [apply inv_str, Hx1|]. intros x2 Hx2.
    destruct (negb (fl' 45 =? 0)); [apply inv_pad|apply inv_ok]; exact Hx2.
Qed.
Lemma inv_cvt : forall c f ty v cl fl w p, @cvt0 S c = (Some f, ty) -> P cl -> good (f c v put cl fl w p).
Proof.
  intros c f ty v cl fl w p E H. unfold cvt0 in E.
  repeat match type of E with (if ?b then _ else _) = _ => destruct b end; try discriminate; injection E as <- <-.
  - unfold cvt_c. destruct v; try (intros y E; discriminate); destruct (normalize_width w fl) as [w' fl'];
      (apply inv_bind; [destruct (fl' 45 =? 0); [apply inv_pad|apply inv_ok]; exact H|]; intros x Hx;
       apply inv_bind; [apply inv_emit, Hx|]; intros x1 Hx1; destruct (negb (fl' 45 =? 0)); [apply inv_pad|apply inv_ok]; exact Hx1).
  - unfold cvt_d. destruct v; try (intros y E; discriminate). intros y E.
    apply obind_ok in E as (m & _ & E). apply obind_ok in E as (q & _ & E). apply obind_ok in E as (u & _ & E).
    cbv zeta in E. exact (inv_putd _ _ _ _ _ _ H y E).
  - unfold cvt_f. destruct v; try (intros y E; discriminate). intros y E. cbv zeta in E.
    apply obind_ok in E as (u & _ & E). apply obind_ok in E as (u' & _ & E). exact (inv_putd _ _ _ _ _ _ H y E).
  - unfold cvt_o. destruct v; try (intros y E; discriminate). intros y E. apply obind_ok in E as (q & _ & E). exact (inv_putd _ _ _ _ _ _ H y E).
  - unfold cvt_p. destruct v; try (intros y E; discriminate). intros y E. apply obind_ok in E as (q & _ & E). exact (inv_putd _ _ _ _ _ _ H y E).
  - unfold cvt_s. destruct v as [| | | |[s|]|]; try (intros y E; discriminate). intros y E.
    apply obind_ok in E as ([s1 w1] & _ & E). exact (inv_puts _ _ _ _ _ _ H y E).
  - unfold cvt_u. destruct v; try (intros y E; discriminate). intros y E. apply obind_ok in E as (q & _ & E). exact (inv_putd _ _ _ _ _ _ H y E).
  - unfold cvt_x. destruct v; try (intros y E; discriminate). intros y E. apply obind_ok in E as (q & _ & E). exact (inv_putd _ _ _ _ _ _ H y E).
Qed.
Lemma inv_directive : forall fmt ap x r, P (snd x) -> directive cvt0 put fmt ap x = Ok r -> P (snd (snd r)).
Proof.
  intros fmt ap x r H E. unfold directive in E.
  apply obind_ok in E as ([fl f1] & _ & E). apply obind_ok in E as ([[w f2] a2] & _ & E). apply obind_ok in E as ([[p f3] a3] & _ & E).
  destruct f3 as [|c f3]; [discriminate|]. destruct (cvt0 c) as [[f|] ty] eqn:Et; [|discriminate].
  apply obind_ok in E as (u & _ & E). apply obind_ok in E as ([v a4] & _ & E). apply obind_ok in E as ([n s] & E1 & E).
  injection E as <-. cbn [snd]. exact (inv_cvt _ _ _ _ _ _ _ _ Et H (n, s) E1).
Qed.
Lemma inv_vformat : forall fmt ap cl, P cl -> good (zt_fmt_vformat cvt0 put cl fmt ap).
Proof.
  intros fmt ap cl H. unfold zt_fmt_vformat.
  assert (G : forall fuel fmt ap x, P (snd x) -> good (vformat_loop fuel cvt0 put fmt ap x)).
  { induction fuel as [|fuel IH]; intros f a x Hx; destruct f as [|c r]; cbn [vformat_loop]; try (apply inv_ok; exact Hx); try (intros y E; discriminate).
    destruct (negb (control c)); [apply inv_bind; [apply inv_emit, Hx|intros; apply IH; assumption]|].
    destruct r as [|d r].
    - intros y E. apply obind_ok in E as ([[r1 a1] x1] & E1 & E). exact (IH r1 a1 x1 (inv_directive _ _ _ _ Hx E1) y E).
    - destruct (control d); [apply inv_bind; [apply inv_emit, Hx|intros; apply IH; assumption]|].
      intros y E. apply obind_ok in E as ([[r1 a1] x1] & E1 & E). exact (IH r1 a1 x1 (inv_directive _ _ _ _ Hx E1) y E). }
  apply G. exact H.
Qed.
End Inv.

(** Whatever the format and the arguments: when zt_fmt_sprintf returns, at most [size] bytes of the
    buffer have changed, the result is NUL-terminated, and the returned number is its length's bound. *)
Theorem C34_never_beyond : forall buf size fmt ap n mem, size <= len buf ->
  zt_fmt_vsprintf cvt0 buf size fmt ap = Ok (n, mem) ->
  0 <= n < size /\ length mem = length buf /\ nth_error mem (Z.to_nat n) = Some 0 /\
  skipn (Z.to_nat size) mem = skipn (Z.to_nat size) buf.
Proof.
  intros buf size fmt ap n mem Hs E. unfold zt_fmt_vsprintf in E.
  apply obind_ok in E as (u & Eg & E). apply guard_ok in Eg.
  apply obind_ok in E as ([k [m b]] & Ev & E).
  pose (P := fun s : text * Z => length (fst s) = length buf /\ 0 <= snd s /\
               skipn (Z.to_nat size) (fst s) = skipn (Z.to_nat size) buf).
  assert (Up : forall (l : text) i v, 0 <= i < size -> skipn (Z.to_nat size) (upd l (Z.to_nat i) v) = skipn (Z.to_nat size) l).
  { intros l i v Hi. assert (L : (Z.to_nat i < Z.to_nat size)%nat) by lia. revert L. generalize (Z.to_nat i) (Z.to_nat size). clear.
    induction l as [|x l IH]; intros i j L; [reflexivity|]. destruct j as [|j]; [lia|].
    destruct i as [|i]; cbn [upd skipn]; [reflexivity|]. apply IH. lia. }
  assert (Hput : forall c s r s', P s -> zt_fmt_insert size c s = Ok (r, s') -> P s').
  { intros c [m0 b0] r s' (A & B & C) E0. unfold zt_fmt_insert in E0. cbn [fst snd] in *.
    apply obind_ok in E0 as (u0 & G0 & E0). apply guard_ok in G0. apply obind_ok in E0 as (m1 & M1 & E0).
    injection E0 as <- <-. unfold mset in M1. destruct (_ && _); [|discriminate]. injection M1 as <-.
    unfold P. cbn [fst snd]. rewrite upd_length, Up by lia. split; [exact A|]. split; [lia|exact C]. }
  assert (P0 : P (buf, 0)) by (unfold P; cbn; lia || (split; [reflexivity|split; [lia|reflexivity]])).
  pose proof (inv_vformat P (zt_fmt_insert size) Hput fmt ap (buf, 0) P0 _ Ev) as Pf. cbn [snd] in Pf.
  destruct Pf as (A & B & C). cbn [fst snd] in *.
  apply obind_ok in E as ([k2 [m2 b2]] & E2 & E). injection E as <- <-.
  unfold zt_fmt_insert in E2. apply obind_ok in E2 as (u0 & G0 & E2). apply guard_ok in G0. apply obind_ok in E2 as (m1 & M1 & E2).
  injection E2 as <- <- <-. unfold mset in M1. destruct ((0 <=? b) && (b <? zlen m)) eqn:Eb; [|discriminate]. injection M1 as <-.
  replace (b + 1 - 0 - 1) with b by lia. split; [lia|]. rewrite upd_length, Up by lia. split; [exact A|]. split; [|exact C].
  rewrite upd_nth_error, Nat.eqb_refl. replace (Nat.ltb (Z.to_nat b) (length m)) with true; [reflexivity|].
  symmetry. apply Nat.ltb_lt. unfold zlen in Eb. lia.
Qed.

(** ** The fields compared with C's printf *)
Theorem C34_number_like_printf : forall d p s ds, ds <> [] -> ~ (p = Some 0 /\ ds = [48]) ->
  (s = [] \/ left d = true \/ (has d 48 = true /\ p = None) \/
   field_width d <= len s + Z.max (len ds) (match p with Some k => k | None => 0 end)) ->
  number d p s ds = c_number d p s ds.
Proof.
  intros d p s ds Ne N H. unfold number, c_number. cbv zeta.
  assert (Ld : 1 <= len ds) by (destruct ds; [congruence|unfold len; cbn [length]; lia]).
  set (body := zeros (match p with Some k => k | None => 1 end - len ds) ++ ds).
  assert (Eb : (match p, ds with Some 0, [48] => [] | Some k, _ => zeros (k - len ds) ++ ds | None, _ => ds end) = body).
  { unfold body. destruct p as [k|].
    - destruct (Z.eq_dec k 0) as [->|Nk].
      + destruct ds as [|c [|c' r]].
        * congruence.
        * assert (c <> 48) by (intros ->; apply N; auto).
          repeat (match goal with |- context [match ?c with _ => _ end] => is_var c; destruct c; try reflexivity; try lia end).
        * repeat (match goal with |- context [match ?c with _ => _ end] => is_var c; destruct c; try reflexivity; try lia end).
      + destruct k; [congruence|reflexivity|reflexivity].
    - unfold zeros. replace (Z.to_nat (1 - len ds)) with 0%nat by lia. reflexivity. }
  assert (En : (match p, ds with Some 0, [48] => 0 | _, _ => len body end) = len body).
  { destruct p as [k|]; [|reflexivity]. destruct k; [|reflexivity|reflexivity].
    destruct ds as [|c [|c' r]]; [reflexivity| |].
    - assert (c <> 48) by (intros ->; apply N; auto).
      repeat (match goal with |- context [match ?c with _ => _ end] => is_var c; destruct c; try reflexivity; try lia end).
    - repeat (match goal with |- context [match ?c with _ => _ end] => is_var c; destruct c; try reflexivity; try lia end). }
  rewrite Eb, En. destruct (left d) eqn:L; [reflexivity|].
  destruct (has d 48 && match p with None => true | Some _ => false end) eqn:Z0; [reflexivity|].
  destruct H as [->|[H|[(H1 & ->)|H]]].
  - reflexivity.
  - discriminate.
  - rewrite H1 in Z0. discriminate.
  - assert (Lb : len body = Z.max (len ds) (match p with Some k => k | None => 0 end)).
    { unfold body. rewrite len_app. unfold zeros. rewrite len_repeat. destruct p; lia. }
    unfold spaces. replace (Z.to_nat (field_width d - (len s + len body))) with 0%nat by lia. reflexivity.
Qed.
Theorem C34_string_like_printf : forall d s, has d 35 = false ->
  (left d = false \/ field_width d <= len (cut_to (field_prec d) s)) -> string_ d s = c_string d s.
Proof.
  intros d s H0 H. unfold string_, c_string, skipped, str_gap. rewrite H0. cbn [negb andb].
  assert (E1 : match size_value (width d) with Some w => s | None => s end = s) by (destruct (size_value (width d)); reflexivity).
  rewrite E1. set (t := cut_to (field_prec d) s) in *.
  assert (E : has d 45 || left d = left d) by (unfold left; destruct (has d 45); reflexivity). rewrite E.
  destruct (left d); [|reflexivity]. destruct H as [H|H]; [discriminate|].
  unfold spaces. replace (Z.to_nat (field_width d - len t)) with 0%nat by lia. rewrite app_nil_r. reflexivity.
Qed.

(** ** Findings: where the output is not what printf users expect *)
Definition sprint (fmt : text) (ap : list arg) : outcome (Z * text) := zt_fmt_fprintf cvt0 [] fmt ap.
Definition prints (fmt : text) (ap : list arg) (o : text) : Prop := exists n, sprint fmt ap = Ok (n, o).

(** INT_MAX is printed as 2147483648 *)
Theorem C34_int_max_refuted : prints [37; 100] [AInt 2147483647] [50;49;52;55;52;56;51;54;52;56] /\
  numeral 10 2147483647 = [50;49;52;55;52;56;51;54;52;55].
Proof. split; [eexists|]; vm_compute; reflexivity. Qed.
(** INT_MIN overflows when negated *)
Theorem C34_int_min_refuted : sprint [37; 100] [AInt (-2147483648)] = UB.
Proof. vm_compute. reflexivity. Qed.
(** "%5d" of -7 is "-   7" *)
Theorem C34_sign_before_padding_refuted : prints [37; 53; 100] [AInt (-7)] [45;32;32;32;55].
Proof. eexists. vm_compute. reflexivity. Qed.
(** "%-4s" does not pad, "%+d" prints no sign, "%.0d" of 0 prints a digit (and "%3.0d" four characters) *)
Theorem C34_left_string_refuted : prints [37; 45; 52; 115] [AStr (Some [97])] [97].
Proof. eexists. vm_compute. reflexivity. Qed.
Theorem C34_plus_refuted : prints [37; 43; 100] [AInt 7] [55].
Proof. eexists. vm_compute. reflexivity. Qed.
Theorem C34_zero_precision_refuted : prints [37; 51; 46; 48; 100] [AInt 0] [32;32;32;48].
Proof. eexists. vm_compute. reflexivity. Qed.
(** "%g" of 1.0, which sprintf prints as "1", becomes "000001" *)
Theorem C34_float_zeros_refuted : prints [37; 103] [ADbl (fun _ _ => [49])] [48;48;48;48;48;49].
Proof. eexists. vm_compute. reflexivity. Qed.
(** "%.99f" overflows its buffer when sprintf needs 410 characters (as for -DBL_MAX: 1 + 309 + 1 + 99) *)
Theorem C34_float_overflow_refuted : forall r ap, len (r 102 99) = 410 ->
  sprint [37; 46; 57; 57; 102] (ADbl r :: ap) = UB.
Proof.
  intros r ap H.
  assert (C : forall cl, @cvt_f text 102 (VDbl r) zt_fmt_outc cl no_flags INT_MIN 99 = UB).
  { intros cl. unfold cvt_f. change (99 <? 0) with false. cbv iota zeta. change ((102 =? 103) && (99 =? 0)) with false. cbv iota.
    change (guard (99 <=? 99)) with (@Ok unit tt). cbn [obind].
    assert (Hz : (zlen (r 102 99) <? 410) = false) by (change (zlen (r 102 99)) with (len (r 102 99)); lia). rewrite Hz. reflexivity. }
  assert (D : directive (@cvt0 text) zt_fmt_outc [46; 57; 57; 102] (ADbl r :: ap) (0, []) = UB).
  { unfold directive.
    change (read_flags [46; 57; 57; 102] no_flags) with (Ok (no_flags, [46; 57; 57; 102])). cbn [obind].
    change (read_number [46; 57; 57; 102] (ADbl r :: ap)) with (Ok (INT_MIN, [46; 57; 57; 102], ADbl r :: ap)). cbn [obind].
    assert (E : read_number [57; 57; 102] (ADbl r :: ap) = Ok (99, [102], ADbl r :: ap)) by reflexivity. rewrite E. cbn [obind].
    change (@cvt0 text 102) with (Some (@cvt_f text), 100). cbv iota beta.
    change (guard (negb (100 =? 0))) with (@Ok unit tt). cbn [obind].
    change (read_value 100 (ADbl r :: ap)) with (Ok (VDbl r, ap)). cbn [obind snd]. rewrite C. reflexivity. }
  unfold sprint, zt_fmt_fprintf, zt_fmt_vformat. cbn [length].
  match goal with |- vformat_loop (S ?k) ?t ?p (?c :: ?x :: ?y) ?a ?st = _ =>
    change (obind (directive t p (x :: y) a st) (fun z => let '(r0, ap0, x0) := z in vformat_loop k t p r0 ap0 x0) = UB) end.
  rewrite D. reflexivity.
Qed.

(** ** The hypotheses are met *)
(** "a%%%-*.3d|%#4.1s" with 6, 42, "This is" *)
Definition ps0 : list piece :=
  [Chr 97; Twice 37 37;
   Dir {| lead := 37; flags := [45]; width := Star 6; prec := Some (Lit [51]); code := 100; value_ := AInt 42 |};
   Chr 124;
   Dir {| lead := 126; flags := [35]; width := Lit [52]; prec := Some (Lit [49]); code := 115; value_ := AStr (Some [84;104;105;115;32;105;115]) |};
   Dir {| lead := 37; flags := [48]; width := Lit [56]; prec := None; code := 120; value_ := AInt 3735928559 |}].
Example ps0_ok : Forall piece_ok ps0.
Proof.
  assert (F : forall l, forallb (fun c => existsb (Z.eqb c) [43; 45; 32; 48; 35]) l = true -> Forall (fun c => In c [43; 45; 32; 48; 35]) l).
  { intros l H. apply Forall_forall. intros c I. rewrite forallb_forall in H. specialize (H c I). apply existsb_exists in H as (x & Ix & E).
    apply Z.eqb_eq in E. subst. exact Ix. }
  assert (D : forall l, forallb (fun c => (48 <=? c) && (c <=? 57)) l = true -> all_digits l).
  { intros l H. apply Forall_forall. intros c I. rewrite forallb_forall in H. specialize (H c I). lia. }
  assert (T : forall l, forallb (fun c => (0 <? c) && (c <? 256)) l = true -> Forall (fun c => 0 < c < 256) l).
  { intros l H. apply Forall_forall. intros c I. rewrite forallb_forall in H. specialize (H c I). lia. }
  unfold ps0. repeat apply Forall_cons; [| | | | | |constructor].
  - split; [lia|]. intros [|]; lia.
  - split; left; reflexivity.
  - split; [left; reflexivity|]. split; [apply F; reflexivity|]. split; [vm_compute; discriminate|]. split; [cbn; unfold INT_MIN, INT_MAX; lia|].
    split; [intros ds E; discriminate|]. split; [split; [discriminate|]; split; [apply D; reflexivity|vm_compute; discriminate]|].
    left. cbn. unfold INT_MIN, INT_MAX. lia.
  - split; [lia|]. intros [|]; lia.
  - split; [right; reflexivity|]. split; [apply F; reflexivity|]. split; [vm_compute; discriminate|].
    split; [split; [discriminate|]; split; [apply D; reflexivity|vm_compute; discriminate]|].
    split; [intros ds E; injection E as <-; discriminate|].
    split; [split; [discriminate|]; split; [apply D; reflexivity|vm_compute; discriminate]|].
    cbn [value_ok value_ code]. split; [reflexivity|]. split; [apply T; reflexivity|vm_compute; reflexivity].
  - split; [left; reflexivity|]. split; [apply F; reflexivity|]. split; [vm_compute; discriminate|].
    split; [split; [discriminate|]; split; [apply D; reflexivity|vm_compute; discriminate]|].
    split; [intros ds E; injection E as <-; discriminate|]. split; [exact Logic.I|].
    right. left. cbn. unfold two32. lia.
Qed.
(** it prints "a%042   | deadbeef" *)
Example ps0_out : out ps0 = [97;37;48;52;50;32;32;32;124;32;100;101;97;100;98;101;101;102].
Proof. vm_compute. reflexivity. Qed.
Example ps0_strprintf : zt_fmt_vstrprintf cvt0 (format_of ps0) (args_of ps0) = Ok (out ps0 ++ [0]).
Proof. rewrite <- (app_nil_r (args_of ps0)). apply C34_strprintf. exact ps0_ok. Qed.
(** too small a buffer *)
Example ps0_small : zt_fmt_vsprintf cvt0 (repeat 7 30) 18 (format_of ps0) (args_of ps0) = Abort /\
  zt_fmt_vsprintf cvt0 (repeat 7 30) 19 (format_of ps0) (args_of ps0) = Ok (18, out ps0 ++ 0 :: repeat 7 11).
Proof. split; vm_compute; reflexivity. Qed.
(** tests/format_test.c: a user converter for %S *)
Example register_S : exists old t', zt_fmt_register (@cvt0 text) 83 (Some cvt_s) 115 = Ok (old, t') /\ old = None /\
  zt_fmt_vformat t' zt_fmt_outc [] [37; 83] [AStr (Some [104;105])] = Ok (209, [104;105]).
Proof. eexists. eexists. split; [reflexivity|]. split; reflexivity. Qed.
Example unknown_q : zt_fmt_vformat cvt0 zt_fmt_outc [] [37; 113] [] = Abort.
Proof. apply C34_unknown_letter; [cbn [In]; lia|cbn [In]; lia|lia]. Qed.

(** the character after '9' is no digit *)
Example unknown_colon : zt_fmt_vformat cvt0 zt_fmt_outc [] [37; 58; 100] [AInt 5] = Abort.
Proof. apply C34_unknown_letter; [cbn [In]; lia|cbn [In]; lia|lia]. Qed.

Print Assumptions C34_numeral.
Print Assumptions C34_numeral_unique.
Print Assumptions C34_format.
Print Assumptions C34_register.
Print Assumptions C34_register_range.
Print Assumptions C34_unknown_letter.
Print Assumptions C34_sprintf.
Print Assumptions C34_strprintf.
Print Assumptions C34_fprintf.
Print Assumptions C34_fprintf_count_refuted.
Print Assumptions C34_never_beyond.
Print Assumptions C34_number_like_printf.
Print Assumptions C34_string_like_printf.
Print Assumptions C34_int_max_refuted.
Print Assumptions C34_int_min_refuted.
Print Assumptions C34_sign_before_padding_refuted.
Print Assumptions C34_left_string_refuted.
Print Assumptions C34_plus_refuted.
Print Assumptions C34_zero_precision_refuted.
Print Assumptions C34_float_zeros_refuted.
Print Assumptions C34_float_overflow_refuted.

(** ** Converters of the user *)
(** A converter is given one argument of the kind it was registered for, and takes it off the argument list: an int for 'i', an unsigned int for 'u', a double for 'd',
    a pointer for 'p', a string for 's'.  Registered with any other letter it is given none, and none is taken.
    (Stated for a directive with no flags, width or precision.) *)
Theorem C34_argument_kinds : forall {S} t (put : put_f S) c f ty ap fmt x, ~ In c [32; 35; 43; 45; 46; 48; 42] -> ~ (48 <= c <= 57) -> t c = (Some f, ty) -> ty <> 0 ->
  let go v ap := ' (n, s) <- f c v put (snd x) (fun _ => 0) (- 2 ^ 31) (- 2 ^ 31) ;; Ok (fmt, ap, ((fst x + n) mod 2 ^ 64, s)) in
  (forall n, ty = 105 -> ap = AInt n :: tl ap -> - 2 ^ 31 <= n < 2 ^ 31 -> directive t put (c :: fmt) ap x = go (VInt n) (tl ap)) /\
  (forall n, ty = 117 -> ap = AInt n :: tl ap -> directive t put (c :: fmt) ap x = go (VUint (n mod 2 ^ 32)) (tl ap)) /\
  (forall r, ty = 100 -> ap = ADbl r :: tl ap -> directive t put (c :: fmt) ap x = go (VDbl r) (tl ap)) /\
  (forall n, ty = 112 -> ap = APtr n :: tl ap -> directive t put (c :: fmt) ap x = go (VPtr (n mod 2 ^ 64)) (tl ap)) /\
  (forall s, ty = 115 -> ap = AStr s :: tl ap -> directive t put (c :: fmt) ap x = go (VStr s) (tl ap)) /\
  (~ In ty [105; 117; 100; 112; 115] -> directive t put (c :: fmt) ap x = go VNone ap).
Proof.
  intros S t put c f ty ap fmt x Hn Hd Ht H0 go.
  assert (E : directive t put (c :: fmt) ap x = (' (v, ap) <- read_value ty ap ;; go v ap)).
  { assert (Hf : inset zt_fmt_flags c = false). { unfold inset, zt_fmt_flags. apply not_true_is_false. intros F. apply existsb_exists in F. destruct F as (y & I & F). apply Z.eqb_eq in F. subst y. apply Hn. cbn [In] in *. tauto. }
    assert (Hg : isdigit c = false) by (unfold isdigit; lia).
    unfold directive. cbn [read_flags]. rewrite Hf. cbn [obind]. cbn [read_number]. replace (c =? 42) with false by (symmetry; apply Z.eqb_neq; intros ->; apply Hn; cbn [In]; tauto). rewrite Hg. cbn [obind].
    assert (X : forall (A : Type) (P B : A), match c with 46 => P | _ => B end = B). { intros A P B. assert (c <> 46) by (intros ->; apply Hn; cbn [In]; tauto). destruct c as [|p|p]; try reflexivity. repeat (destruct p as [p|p|]; try reflexivity). congruence. }
    rewrite X. cbn [obind]. rewrite Ht. replace (ty =? 0) with false by lia. cbn [negb guard obind]. unfold go. destruct (read_value ty ap) as [[v ap']| | |]; cbn [obind]; reflexivity. }
  rewrite E. clearbody go. clear E. unfold read_value. split; [|split; [|split; [|split; [|split]]]].
  - intros n -> A R. rewrite A. cbn [tl]. change (105 =? 105) with true. cbv iota. cbn [obind]. do 2 f_equal. unfold int32. change two32 with (2 ^ 32). rewrite Z.mod_small by lia. lia.
  - intros n -> A. rewrite A. reflexivity.
  - intros n -> A. rewrite A. reflexivity.
  - intros n -> A. rewrite A. reflexivity.
  - intros n -> A. rewrite A. reflexivity.
  - intros N. cbn [In] in N. replace (ty =? 105) with false by lia. replace (ty =? 117) with false by lia. replace (ty =? 100) with false by lia. replace (ty =? 112) with false by lia. replace (ty =? 115) with false by lia. reflexivity.
Qed.
Print Assumptions C34_argument_kinds.
(* a converter registered with the letter c: the argument list is left for the next directive *)
Example C34_argument_kinds_example : exists f : @conv text, forall put, directive (fun c => if c =? 90 then (Some f, 99) else (None, 0)) put [90; 33] [AInt 5] (0, []) = Ok ([33], [AInt 5], (2, [104; 105])).
Proof. exists (fun _ v _ s _ _ _ => match v with VNone => Ok (2, s ++ [104; 105]) | _ => UB end). intros put. reflexivity. Qed.
