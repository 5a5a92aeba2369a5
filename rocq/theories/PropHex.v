(** C70: hex dumps. *)
From Verif Require Import Prelude CstrModel HexModel HexSpec HexProofs HexPrint.
Local Open Scope Z_scope.

(** the lines of a dump hold all bytes in order, 16 a line *)
Theorem C70_lines : forall l : list Z, concat (map snd (all_lines l)) = l /\
  forall k a ch, nth_error (all_lines l) k = Some (a, ch) -> a = Z.of_nat (16 * k) mod 4294967296 /\ (1 <= length ch <= 16)%nat /\ ((length ch < 16)%nat -> k = (length (all_lines l) - 1)%nat).
Proof.
  intros l. split; [apply all_complete|]. intros k a ch E. assert (K : (k < (length l + 15) / 16)%nat) by (assert (X : nth_error (all_lines l) k <> None) by congruence; apply nth_error_Some in X; unfold all_lines in X; rewrite map_length, seq_length in X; exact X).
  pose proof (Nat.div_mod (length l + 15) 16 ltac:(lia)) as D. pose proof (Nat.mod_upper_bound (length l + 15) 16 ltac:(lia)) as B.
  assert (E1 : line l k = (a, ch)).
  { unfold all_lines in E. rewrite (map_nth_error (line l) k _ (d := k)) in E; [congruence|]. rewrite (nth_error_nth' _ 0%nat) by (rewrite seq_length; exact K). now rewrite seq_nth. }
  unfold line in E1. assert (a = Z.of_nat (16 * k) mod 2 ^ 32) by congruence. assert (CH : ch = firstn 16 (skipn (16 * k) l)) by congruence. split; [assumption|]. rewrite CH, firstn_length, skipn_length. unfold all_lines. rewrite map_length, seq_length. set (q := ((length l + 15) / 16)%nat) in *. lia.
Qed.

(** zt_hexdump reads bytes until the reader says EOF and hands line after line to the callback, then NULL; the callback's -1 ends it at once and makes it return (size_t)-1; otherwise it returns the number of bytes.
    For all readers, callbacks and bytes - unless the last line has exactly 15 bytes *)
Theorem C70_dump_partial : forall {S T} (getc : S -> Z * S) (output : T -> Z -> option (list Z) -> option (list Z) -> outcome (Z * T)) l st st' t junk_txt junk_hex fuel,
  reads getc st l st' -> (length l < fuel)%nat -> (length l mod 16 <> 15)%nat ->
  match show output t (all_lines l) with
  | Ok (true, t') => zt_hexdump getc output fuel junk_txt junk_hex st t = (' (_, t') <- output t' 0 None None ;; Ok (Z.of_nat (length l) mod 18446744073709551616, st', t'))
  | Ok (false, t') => exists st2, zt_hexdump getc output fuel junk_txt junk_hex st t = Ok (18446744073709551615, st2, t')
  | Abort => zt_hexdump getc output fuel junk_txt junk_hex st t = Abort
  | UB => zt_hexdump getc output fuel junk_txt junk_hex st t = UB
  | Loop => zt_hexdump getc output fuel junk_txt junk_hex st t = Loop
  end.
Proof.
  intros S T getc output l st st' t jt jh fuel RD LF N. pose proof (hexdump_ok getc output l st st' t jt jh fuel RD LF) as H. unfold shown in H. rewrite (proj2 (Nat.eqb_neq _ _) N) in H. exact H.
Qed.
(** a callback that notes its calls and always returns 0 *)
Definition note (t : list (Z * option (list Z) * option (list Z))) (a : Z) (h x : option (list Z)) : outcome (Z * list (Z * option (list Z) * option (list Z))) := Ok (0, t ++ [(a, h, x)]).
Lemma show_note : forall ls t, show note t ls = Ok (true, t ++ map (fun x => (fst x, Some (hexarr (snd x)), Some (txtarr (snd x)))) ls).
Proof. induction ls as [|[a ch] ls IH]; intros t; cbn [show map]; [now rewrite app_nil_r|]. unfold note at 1. cbn [obind Z.eqb]. rewrite IH, <- app_assoc. reflexivity. Qed.
Theorem C70_note : forall {S} (getc : S -> Z * S) l st st' junk_txt junk_hex fuel, reads getc st l st' -> (length l < fuel)%nat -> (length l mod 16 <> 15)%nat ->
  zt_hexdump getc note fuel junk_txt junk_hex st [] = Ok (Z.of_nat (length l) mod 18446744073709551616, st', map (fun x => (fst x, Some (hexarr (snd x)), Some (txtarr (snd x)))) (all_lines l) ++ [(0, None, None)]).
Proof. intros S getc l st st' jt jh fuel RD LF N. pose proof (C70_dump_partial getc note l st st' [] jt jh fuel RD LF N) as H. rewrite show_note in H. exact H. Qed.
(** a last line of exactly 15 bytes is counted but not handed to the callback *)
Theorem C70_15_refuted : forall {S} (getc : S -> Z * S) l st st' junk_txt junk_hex fuel, reads getc st l st' -> (length l < fuel)%nat -> (length l mod 16 = 15)%nat ->
  exists ls, zt_hexdump getc note fuel junk_txt junk_hex st [] = Ok (Z.of_nat (length l) mod 18446744073709551616, st', map (fun x => (fst x, Some (hexarr (snd x)), Some (txtarr (snd x)))) ls ++ [(0, None, None)]) /\ concat (map snd ls) = firstn (length l - 15) l.
Proof.
  intros S getc l st st' jt jh fuel RD LF N. exists (shown l). split; [|now apply shown_15]. pose proof (hexdump_ok getc note l st st' [] jt jh fuel RD LF) as H. rewrite show_note in H. exact H.
Qed.

(** the text printed when there is no callback *)
Theorem C70_default : forall {S} (getc : S -> Z * S) l st st' junk_txt junk_hex fuel stdout, reads getc st l st' -> (length l < fuel)%nat -> (length l mod 16 <> 15)%nat ->
  zt_hexdump getc default_printer fuel junk_txt junk_hex st stdout = Ok (Z.of_nat (length l) mod 18446744073709551616, st', stdout ++ concat (map line_text (all_lines l)) ++ [10]).
Proof.
  intros S getc l st st' jt jh fuel so RD LF N. pose proof (C70_dump_partial getc default_printer l st st' so jt jh fuel RD LF N) as H. pose proof (shown_ok l (reads_bytes _ _ _ _ RD)) as F. unfold shown in F. rewrite (proj2 (Nat.eqb_neq _ _) N) in F.
  rewrite (show_default _ so F) in H. rewrite H. cbn [default_printer obind]. now rewrite <- app_assoc.
Qed.

(** zt_hexdump_str: the dump of bytes below 128 is that of the bytes *)
Theorem C70_str : forall data rest junk_txt junk_hex fuel stdout, Forall (fun c => 0 <= c <= 127) data -> (length data < fuel)%nat -> (length data mod 16 <> 15)%nat ->
  zt_hexdump_str default_printer fuel junk_txt junk_hex (data ++ rest) (Z.of_nat (length data)) stdout = Ok (Z.of_nat (length data) mod 18446744073709551616, stdout ++ concat (map line_text (all_lines data)) ++ [10]).
Proof.
  intros data rest jt jh fuel so F LF N. unfold zt_hexdump_str. pose proof (str_reads data [] rest F) as RD. cbn [app] in RD. change (zlen []) with 0 in RD. rewrite Z.add_0_l in RD. fold (zlen data). rewrite (C70_default _ _ _ _ jt jh fuel so RD LF N). reflexivity.
Qed.
(** a byte 255 is taken for the end: nothing after it is shown or counted *)
Theorem C70_str_255_refuted : forall before after junk_txt junk_hex fuel stdout, Forall (fun c => 0 <= c <= 127) before -> (length before < fuel)%nat -> (length before mod 16 <> 15)%nat ->
  zt_hexdump_str default_printer fuel junk_txt junk_hex (before ++ 255 :: after) (Z.of_nat (length (before ++ 255 :: after))) stdout = Ok (Z.of_nat (length before) mod 18446744073709551616, stdout ++ concat (map line_text (all_lines before)) ++ [10]).
Proof.
  intros a b jt jh fuel so F LF N. unfold zt_hexdump_str. assert (SZ : zlen (@nil Z) + zlen a < Z.of_nat (length (a ++ 255 :: b))) by (unfold zlen; rewrite app_length; cbn [length]; lia). pose proof (str_reads_255 a [] b _ F SZ) as RD. cbn [app] in RD. change (zlen []) with 0 in RD. rewrite (C70_default _ _ _ _ jt jh fuel so RD LF N). reflexivity.
Qed.
(** the first byte from 128 to 254 makes isprint undefined, wherever it is *)
Theorem C70_str_high_refuted : forall before c after junk_txt junk_hex fuel stdout, Forall (fun c => 0 <= c <= 127) before -> 128 <= c <= 254 -> (length before < fuel)%nat -> 
  zt_hexdump_str note fuel junk_txt junk_hex (before ++ c :: after) (Z.of_nat (length (before ++ c :: after))) stdout = UB.
Proof.
  intros a c b jt jh fuel so F C LF. unfold zt_hexdump_str, zt_hexdump. assert (SZ : zlen (@nil Z) + zlen a < Z.of_nat (length (a ++ c :: b))) by (unfold zlen; rewrite app_length; cbn [length]; lia).
  pose proof (str_high note ltac:(intros t ad h x; exists 0, (t ++ [(ad, h, x)]); split; [reflexivity|lia]) a [] b c _ (mkhd 0 0 0 0 0 jt jh) so fuel F C SZ LF) as H. cbn [app] in H. change (zlen []) with 0 in H. rewrite H. reflexivity.
Qed.

(** "Hello, world! 0123" *)
Definition hello : list Z := [72; 101; 108; 108; 111; 44; 32; 119; 111; 114; 108; 100; 33; 32; 48; 49; 50; 51].
Example C70_hello : match zt_hexdump_str default_printer 30 (repeat 7 17) (repeat 7 51) hello 18 [] with Ok (n, s) => n = 18 /\ length s = 143%nat /\
  firstn 40 s = [48; 48; 48; 48; 32; 32; 32; 52; 56; 32; 54; 53; 32; 54; 99; 32; 54; 99; 32; 32; 54; 102; 32; 50; 99; 32; 50; 48; 32; 55; 55; 32; 32; 54; 102; 32; 55; 50; 32; 54]
  /\ skipn 59 (firstn 78 s) = [124; 32; 72; 101; 108; 108; 111; 44; 32; 119; 111; 114; 108; 100; 33; 32; 48; 49; 10] | _ => False end.
Proof. vm_compute. repeat split. Qed.
Example C70_fifteen : match zt_hexdump_str note 30 (repeat 7 17) (repeat 7 51) (firstn 15 hello) 15 [] with Ok (n, t) => n = 15 /\ t = [(0, None, None)] | _ => False end.
Proof. vm_compute. repeat split. Qed.
(** a callback that stops at the second line *)
Example C70_stop : match zt_hexdump_str (fun t a h x => Ok ((if a =? 16 then -1 else 0), t + 1)) 60 [] [] (hello ++ hello) 36 0 with Ok (n, t) => n = 18446744073709551615 /\ t = 2 | _ => False end.
Proof. vm_compute. repeat split. Qed.
Print Assumptions C70_lines.
Print Assumptions C70_dump_partial.
Print Assumptions C70_note.
Print Assumptions C70_15_refuted.
Print Assumptions C70_default.
Print Assumptions C70_str.
Print Assumptions C70_str_255_refuted.
Print Assumptions C70_str_high_refuted.
