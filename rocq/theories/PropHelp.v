(** C57: the help.  C58: error messages and exit status of the option parser. *)
From Verif Require Import Prelude CstrSpec OptsModel OptsSpec OptsWrap LogSpec HelpModel HelpSpec PropOpts.
Local Open Scope Z_scope.

Lemma head_title d : head d = title (e_sopt d) (e_lopt d) (e_arg d).
Proof. unfold head, title. destruct (e_sopt d), (e_lopt d), (e_arg d); reflexivity. Qed.
Lemma wrap_some h ls : wrap h = Ok ls -> ls <> [].
Proof.
  unfold wrap. destruct (Nat.ltb_spec base_width (length h)) as [L|L]; [|intros E F; assert (X : [h] = ls) by congruence; subst; discriminate].
  destruct h as [|c h]; [cbn [length] in L; lia|]. cbn [wrap_from length]. destruct (_ <? _)%nat; [intros E F; assert (ls = [skipn (skip_blanks (c :: h)) (c :: h)]) by congruence; congruence|].
  destruct (break_at _ _) as [w|]; [|destruct (_ && _); discriminate]. destruct (wrap_from _ _ _); cbn [obind]; try discriminate. intros E F. subst. discriminate.
Qed.
Lemma indent_eq tgt step start : step <> 0 -> indent_to tgt step start = tgt - start.
Proof. intros H. unfold indent_to. rewrite Z.mul_comm. symmetry. now apply Z.quot_rem'. Qed.
Lemma printer_ok d : shown d -> exists rows, described d rows /\ printer d = Ok (Some (concat rows)).
Proof.
  intros (N & t & Ht & W). destruct (C46_wrap t W) as (lines & E & L50 & Ws). pose proof (wrap_some _ _ E) as NE. destruct lines as [|l ls]; [contradiction|].
  set (names := title (e_sopt d) (e_lopt d) (e_arg d)). set (n := length names).
  exists ((names ++ pad (30 - Z.of_nat n) [] ++ l ++ newline) :: map (fun x => pad (Z.of_nat n) [32] ++ pad (30 - Z.of_nat n) [] ++ x ++ newline) ls). split.
  - exists t, l, ls. split; [exact Ht|]. split; [exact Ws|]. split; [exact L50|]. split; [intros S; rewrite C46_short in E by exact S; injection E as -> <-; reflexivity|].
    assert (n1 : (10 <= n)%nat). { unfold n, names, title, str. rewrite !app_length. destruct (e_sopt d), (e_lopt d); cbn; lia. }
    assert (PN : pad (Z.of_nat n) [32] = blanks n). { unfold pad. replace (0 <=? Z.of_nat n) with true by lia. rewrite Nat2Z.id. cbn [length]. change [32] with (blanks 1). unfold spaces, blanks. rewrite <- repeat_app. f_equal. lia. }
    fold names. fold n. split; intros C.
    + assert (P0 : pad (30 - Z.of_nat n) [] = blanks (30 - n)). { unfold pad. replace (0 <=? 30 - Z.of_nat n) with true by lia. rewrite app_nil_r. unfold spaces, blanks. f_equal. cbn [length]. lia. }
      rewrite P0, PN. f_equal. apply map_ext. intros x. rewrite app_assoc. f_equal. unfold blanks. rewrite <- repeat_app. f_equal. lia.
    + assert (P0 : pad (30 - Z.of_nat n) [] = blanks (n - 30)). { unfold pad. replace (0 <=? 30 - Z.of_nat n) with false by lia. cbn [app length]. unfold spaces, blanks. f_equal. lia. }
      rewrite P0, PN. f_equal. apply map_ext. intros x. rewrite app_assoc. f_equal. unfold blanks. now rewrite <- repeat_app.
  - assert (G : printer d = (ls0 <- wrap t ;; match ls0 with [] => Ok (Some (head d)) | l0 :: r => Ok (Some (head d ++ line (Z.of_nat (length (head d))) l0 ++ concat (map (later (Z.of_nat (length (head d)))) r))) end)).
    { unfold printer. rewrite Ht. destruct (e_sopt d), (e_lopt d); try reflexivity. destruct N; congruence. }
    rewrite G, E. cbn [obind]. rewrite head_title. fold names. fold n. unfold later, line. rewrite indent_eq by lia. unfold BASE_INDENT. cbn [concat]. now rewrite <- !app_assoc.
Qed.
Lemma entries_ok : forall ds, Forall shown ds -> exists rows, Forall2 described ds rows /\ forall rest t ok, entries rest = Ok (t, ok) -> entries (ds ++ rest) = Ok (concat (concat rows) ++ t, ok).
Proof.
  induction ds as [|d ds IH]; intros F; [exists []; split; [constructor|intros; assumption]|]. inversion F as [|? ? S F2]; subst. destruct (printer_ok d S) as (r & D & E). destruct (IH F2) as (rows & D2 & E2).
  exists (r :: rows). split; [now constructor|]. intros rest t ok ER. cbn [app entries]. rewrite E. cbn [obind]. rewrite (E2 _ _ _ ER). cbn [obind concat]. rewrite concat_app. now rewrite <- app_assoc.
Qed.

(** The help announces the program and then describes every option, in the order of the table; result 0. *)
Theorem C57_usage : forall name help ds, Forall shown ds -> exists rows, Forall2 described ds rows /\ usage name help ds = Ok (0, announce name help ++ concat (concat rows)).
Proof.
  intros name help ds F. destruct (entries_ok ds F) as (rows & D & E). exists rows. split; [exact D|]. unfold usage. specialize (E [] [] true eq_refl). rewrite app_nil_r in E. rewrite E. cbn [obind]. rewrite app_nil_r. unfold usage_line, announce. now rewrite <- !app_assoc.
Qed.
Print Assumptions C57_usage.
(** No row is wider than 80 columns (and the newline) if the names take at most 30. *)
Theorem C57_width : forall d rows, described d rows -> (length (title (e_sopt d) (e_lopt d) (e_arg d)) <= 30)%nat -> Forall (fun r => (length r <= 81)%nat) rows.
Proof.
  intros d rows (t & l & ls & _ & _ & L & _ & R & _) N. cbv zeta in R. rewrite (R N). clear R. set (names := title _ _ _) in *. clearbody names. inversion L as [|? ? L1 L2]; subst. unfold blanks, newline. constructor; [rewrite !app_length, repeat_length; cbn [length]; lia|].
  apply Forall_map. eapply Forall_impl; [|exact L2]. intros x Hx. cbv beta in *. rewrite !app_length, repeat_length. cbn [length]. lia.
Qed.
Print Assumptions C57_width.
(** An option without any name ends the help: the options before it are described, the result is -1. *)
Theorem C57_nameless : forall name help ds d ds2, Forall shown ds -> e_sopt d = None -> e_lopt d = None ->
  exists rows, Forall2 described ds rows /\ usage name help (ds ++ d :: ds2) = Ok (-1, announce name help ++ concat (concat rows)).
Proof.
  intros name help ds d ds2 F S L. destruct (entries_ok ds F) as (rows & D & E). exists rows. split; [exact D|]. unfold usage. assert (P : entries (d :: ds2) = Ok ([], false)) by (cbn [entries]; unfold printer; rewrite S, L; reflexivity).
  rewrite (E _ _ _ P). cbn [obind]. rewrite app_nil_r. unfold usage_line, announce. now rewrite <- !app_assoc.
Qed.
Print Assumptions C57_nameless.
(** Names of exactly 30 bytes run into their description: there is no blank between them. *)
Theorem C57_separator_refuted : forall d l, shown d -> length (title (e_sopt d) (e_lopt d) (e_arg d)) = 30%nat -> e_help d = Some l -> (length l <= 50)%nat ->
  printer d = Ok (Some (title (e_sopt d) (e_lopt d) (e_arg d) ++ l ++ newline)).
Proof.
  intros d l S N Hl L. destruct (printer_ok d S) as (rows & (t & x & ls & Ht & _ & _ & K & R & _) & E). rewrite E. assert (t = l) by congruence. subst t. specialize (K L). rewrite (R ltac:(lia)). assert (x = l) by congruence. assert (ls = []) by congruence. subst.
  rewrite N. cbn [concat map Nat.sub]. change (blanks 0) with (@nil Z). cbn [app]. now rewrite app_nil_r.
Qed.
Print Assumptions C57_separator_refuted.
Example C57_separator_ex : let d := mkentry (Some 111) (Some t_output) (Some (repeat 70 14)) (Some t_write) in
  printer d = Ok (Some (title (Some 111) (Some t_output) (Some (repeat 70 14)) ++ t_write ++ newline)).
Proof. apply (C57_separator_refuted (mkentry (Some 111) (Some t_output) (Some (repeat 70 14)) (Some t_write)) t_write); [|vm_compute; reflexivity|reflexivity|vm_compute; lia]. split; [left; discriminate|]. exists t_write. split; [reflexivity|]. vm_compute. repeat constructor; lia. Qed.
(** zt_opt_usage does not check the table: an option without help text *)
Theorem C57_no_help_refuted : forall name help s l a, usage name help [mkentry (Some s) l a None] = UB.
Proof. intros. reflexivity. Qed.
Print Assumptions C57_no_help_refuted.
Example C57_ex : usage t_tool None [mkentry (Some 111) (Some t_output) (Some t_file) (Some t_write)] = Ok (0, announce t_tool None ++ row_output).
Proof. vm_compute. reflexivity. Qed.

(** ** C58 *)
(** The message names the code, the system's text for it (nothing for code 0) and what the caller says. *)
Theorem C58_message : forall strerror code msg, verror_str strerror code (Some msg) = complaint code (if code =? 0 then [] else strerror code) msg /\
  (code <> 0 -> verror_str strerror code None = complaint code (strerror code) null_text).
Proof.
  intros strerror code msg. unfold verror_str, complaint. split; [cbv zeta; rewrite <- !app_assoc; reflexivity|]. intros N. replace (code =? 0) with false by lia. cbv zeta. rewrite <- !app_assoc. reflexivity.
Qed.
Print Assumptions C58_message.
(** A message of a text without code still has a place for the system's text. *)
Theorem C58_default : forall strerror code msg, verror_default strerror code (Some msg) = (code, complaint code (if code =? 0 then [] else strerror code) msg ++ newline) /\
  (code <> 0 -> verror_default strerror code None = (code, complaint code (strerror code) null_text ++ newline)) /\ verror_default strerror 0 None = (-1, []).
Proof.
  intros strerror code msg. unfold verror_default. rewrite (proj1 (C58_message strerror code msg)). split; [reflexivity|]. split; [|reflexivity].
  intros N. rewrite (proj2 (C58_message strerror code msg) N). replace (code =? 0) with false by lia. reflexivity.
Qed.
Print Assumptions C58_default.
(** The default handler: one line on stderr, then the process exits with the code as status; an error without code returns. *)
Theorem C58_handler : forall strerror code msg, 
  error_wrapper strerror code (Some msg) = (if code =? 0 then Returns 0 else Exits (code mod 256), complaint code (if code =? 0 then [] else strerror code) msg ++ newline).
Proof. intros strerror code msg. unfold error_wrapper. rewrite (proj1 (C58_default strerror code msg)). destruct (Z.eqb_spec code 0) as [->|N]; reflexivity. Qed.
Print Assumptions C58_handler.
(** The codes the parser uses itself (EINVAL and ERANGE) and every other from 1 to 255 are the exit status. *)
Theorem C58_status : forall strerror code msg, 0 < code < 256 -> fst (error_wrapper strerror code (Some msg)) = Exits code.
Proof. intros strerror code msg H. rewrite C58_handler. cbn [fst]. replace (code =? 0) with false by lia. now rewrite Z.mod_small by lia. Qed.
Print Assumptions C58_status.
(** The help option prints the help and nothing on stderr ... *)
Theorem C58_help : forall strerror argv0 help ds, Forall shown ds -> exists rows, Forall2 described ds rows /\
  help_stdout strerror argv0 help ds = Ok (Exits 255, announce argv0 help ++ concat (concat rows), []).
Proof.
  intros strerror argv0 help ds F. destruct (entries_ok ds F) as (rows & D & E). exists rows. split; [exact D|]. unfold help_stdout. specialize (E [] [] true eq_refl). rewrite app_nil_r in E. rewrite E. cbn [obind]. rewrite app_nil_r. unfold usage_line, announce. now rewrite <- !app_assoc.
Qed.
Print Assumptions C58_help.
(** ... but the exit status says failure. *)
Theorem C58_help_status_refuted : exists strerror argv0 help ds o e, Forall shown ds /\ ds <> [] /\ help_stdout strerror argv0 help ds = Ok (Exits 255, o, e).
Proof.
  exists (fun _ => []), t_tool, None, [mkentry (Some 111) (Some t_output) (Some t_file) (Some t_write)]. do 2 eexists. split; [|split; [discriminate|vm_compute; reflexivity]].
  constructor; [|constructor]. split; [left; discriminate|]. exists t_write. split; [reflexivity|]. vm_compute. repeat constructor; lia.
Qed.
Print Assumptions C58_help_status_refuted.
(** An option without a name: the complaint goes to stderr but the process goes on, and the callback returns -1. *)
Theorem C58_help_nameless : forall strerror argv0 help ds d ds2, Forall shown ds -> e_sopt d = None -> e_lopt d = None -> exists rows, Forall2 described ds rows /\
  help_stdout strerror argv0 help (ds ++ d :: ds2) = Ok (Returns (-1), announce argv0 help ++ concat (concat rows), complaint 0 [] programmer ++ newline).
Proof.
  intros strerror argv0 help ds d ds2 F S L. destruct (entries_ok ds F) as (rows & D & E). exists rows. split; [exact D|]. unfold help_stdout. assert (P : entries (d :: ds2) = Ok ([], false)) by (cbn [entries]; unfold printer; rewrite S, L; reflexivity).
  rewrite (E _ _ _ P). cbn [obind]. rewrite app_nil_r. rewrite C58_handler. cbn [Z.eqb]. unfold usage_line, announce. rewrite <- !app_assoc. reflexivity.
Qed.
Print Assumptions C58_help_nameless.
(** A code that is a multiple of 256 looks like success. *)
Theorem C58_status_refuted : exists code, code <> 0 /\ forall strerror msg, fst (error_wrapper strerror code (Some msg)) = Exits 0.
Proof. exists 256. split; [discriminate|]. intros. reflexivity. Qed.
Print Assumptions C58_status_refuted.
Example C58_ex : error_wrapper (fun _ => t_file) 22 (Some t_tool) = (Exits 22, complaint 22 t_file t_tool ++ newline).
Proof. vm_compute. reflexivity. Qed.
