(** C36: option parsing, C46: help layout.
    The model is OptsModel.v, the vocabulary of the statements OptsSpec.v. *)
From Verif Require Import Prelude OptsModel OptsSpec OptsProofs OptsParse OptsWrap.
Local Open Scope Z_scope.

(** ** C36 *)

(** A command line made of options of the table followed by non-options: every option
    is applied exactly once, in order, with its value; nothing else happens (no error
    is reported, even to a returning handler); *argc tells where the rest starts. *)
Theorem C36_command_line : forall stops prog items rest defs e e',
  valid_table defs -> good_names defs ->
  Forall (item_ok defs) items -> all_apply items e e' ->
  (rest = [] \/ exists a r, rest = a :: r /\ ~ starts_with_dash a) ->
  process_args stops (prog :: flat_map render items ++ rest) defs e =
  Ok (0, Some (1 + length (flat_map render items))%nat, e').
Proof.
  intros stops prog items rest defs e e' V G F A R. unfold process_args. rewrite (validate_any stops defs e V). cbn [obind].
  apply (loop_items defs V G stops items [prog] rest e e'); [exact F|exact A|exact R|].
  cbn [length]. lia.
Qed.

(** The table is checked first. *)
Theorem C36_table_checked : forall defs argv e,
  ~ valid_table defs -> process_args true argv defs e = Abort.
Proof.
  intros defs argv e H. destruct (validate_spec defs e) as [[V E]|[V E]]; [contradiction|].
  unfold process_args. rewrite E. reflexivity.
Qed.

Example C36_example_table : ~ valid_table [mkdef (Some 45) None KNull None (Some [])].
Proof.
  destruct (validate_spec [mkdef (Some 45) None KNull None (Some [])] (mkenv (fun _ => 0) (fun _ => None) (fun _ => []) [])) as [[_ E]|[N _]];
    [vm_compute in E; discriminate E|exact N].
Qed.

(** Every argument vector: with the default error handler the program is ended, or the
    call returns with *argc on an argument that is not an option or at the end of argv.
    No read beyond argv, no null pointer, no endless loop. *)
Theorem C36_every_vector : forall argv defs e,
  good_names defs -> usable defs -> argv <> [] ->
  process_args true argv defs e = Abort \/
  exists j e', process_args true argv defs e = Ok (0, Some j, e') /\ (1 <= j <= length argv)%nat /\
    forall a, nth_error argv j = Some a -> ~ starts_with_dash a.
Proof.
  intros argv defs e G U Ne. unfold process_args.
  destruct (validate_spec defs e) as [[V E]|[V E]]; rewrite E; [|left; reflexivity]. cbn [obind].
  apply loop_safe; [exact V|exact G|exact U| |lia].
  destruct argv; [contradiction Ne; reflexivity|]. cbn [length]. lia.
Qed.

(** Arguments that make no sense end the program, wherever they stand. *)
Theorem C36_rejects : forall prog items a rest defs e e',
  good_names defs -> Forall (item_ok defs) items -> all_apply items e e' -> rejected defs a rest ->
  process_args true (prog :: flat_map render items ++ a :: rest) defs e = Abort.
Proof.
  intros prog items a rest defs e e' G F A R. unfold process_args.
  destruct (validate_spec defs e) as [[V E]|[V E]]; rewrite E; [|reflexivity]. cbn [obind].
  destruct (loop_prefix defs V G true items [prog] (a :: rest) e e' (length (prog :: flat_map render items ++ a :: rest)) F A)
    as (f & Hf & L); [cbn [length]; lia|].
  cbn [app] in L. cbn [length] in L |- *. rewrite L.
  destruct f as [|f]; [cbn [length] in Hf; lia|]. cbn [args_loop].
  match goal with |- context [Nat.ltb ?x ?y] => assert (Lt : Nat.ltb x y = true) end.
  { apply Nat.ltb_lt. cbn [length]. rewrite !app_length. cbn [length]. lia. }
  rewrite Lt.
  pose proof (one_rejected defs V G (prog :: flat_map render items) a rest e' R) as O.
  cbn [app length] in O. cbn [Nat.add]. rewrite O. reflexivity.
Qed.

(** A handler that returns is told the code of the fault once; nothing but the named variable changes, and parsing goes on after the argument. *)
Theorem C36_handler_told : forall prog items a rest defs e e' code f,
  valid_table defs -> good_names defs -> Forall (item_ok defs) items -> all_apply items e e' -> reported defs a code f ->
  (rest = [] \/ exists b r, rest = b :: r /\ ~ starts_with_dash b) ->
  process_args false (prog :: flat_map render items ++ a :: rest) defs e =
  Ok (0, Some (2 + length (flat_map render items))%nat, f (told code e')).
Proof.
  intros prog items a rest defs e e' code f V G F A R PL. unfold process_args. rewrite (validate_any false defs e V). cbn [obind].
  destruct (loop_prefix defs V G false items [prog] (a :: rest) e e' (length (prog :: flat_map render items ++ a :: rest)) F A)
    as (fu & Hf & L); [cbn [length]; lia|].
  cbn [app] in L. cbn [length] in L |- *. rewrite L. clear L.
  set (argv := prog :: flat_map render items ++ a :: rest) in *. set (i := (1 + length (flat_map render items))%nat) in *.
  assert (LA : length argv = (i + 1 + length rest)%nat) by (unfold argv, i; cbn [length]; rewrite app_length; cbn [length]; lia).
  assert (Ha : nth_error argv i = Some a) by (unfold argv, i; cbn [Nat.add nth_error]; rewrite nth_error_app2, Nat.sub_diag by lia; reflexivity).
  destruct fu as [|fu]; [cbn [length] in Hf; lia|]. cbn [args_loop]. replace (i <? length argv)%nat with true by lia.
  assert (ONE : one_arg false argv defs i e' = Ok (Some (Next i), f (told code e'))).
  { destruct R as [c r Nc Nd|l q Ne Hq Nd|d l v Hd Hl K B|d l v k n Hd Hl K Sl Ov].
    - rewrite (one_short defs false _ _ c r _ Ha Nc). cbn [letters]. rewrite (find_short_none defs V G c r Nd). reflexivity.
    - rewrite (one_long defs false argv i _ _ Ha). unfold long_name.
      assert (NL : name_len (l ++ q) = length l).
      { destruct Hq as [-> |[v ->]]; [rewrite app_nil_r; apply name_len_plain, Ne|apply name_len_equal, Ne]. }
      rewrite NL. assert (FN : find_opt (l ++ q) (length l) defs = None).
      { destruct (find_opt (l ++ q) (length l) defs) as [x|] eqn:E; [|reflexivity]. exfalso. apply find_opt_some in E as [Hx M].
        destruct l as [|c l].
        - cbn [length app] in M. apply (matches_short defs V G) in M as (c & r & Eq & Es); [|exact Hx]. destruct Hq as [-> |[v ->]]; [discriminate Eq|].
          injection Eq as <- <-. destruct V as [V1 _]. destruct (V1 x Hx) as (_ & _ & V2). specialize (V2 _ Es). unfold equal in V2. lia.
        - apply matches_long in M as [M _]; [|discriminate]. rewrite firstn_app, firstn_all, Nat.sub_diag in M. cbn [firstn] in M. rewrite app_nil_r in M. exact (Nd x Hx M). }
      rewrite FN. reflexivity.
    - rewrite (one_long defs false argv i _ _ Ha). unfold long_name. destruct (G d l Hd Hl) as (c0 & r0 & El & Nd0 & Ne).
      rewrite name_len_equal by exact Ne. rewrite (find_long defs V G d l (equal :: v) Hd Hl). unfold call. rewrite K.
      rewrite (get_value_equal false argv i d l v e' Hl (G d l Hd Hl) Ha). cbn [obind].
      destruct (bool_of v) as [b|] eqn:EB; [exfalso; apply B; exists b; apply bool_of_truth, EB|]. cbn [error obind]. cbn.
      destruct (nth_error (l ++ equal :: v) (length l)); [reflexivity|]. rewrite Nat.add_0_r. reflexivity.
    - rewrite (one_long defs false argv i _ _ Ha). unfold long_name. destruct (G d l Hd Hl) as (c0 & r0 & El & Nd0 & Ne).
      rewrite name_len_equal by exact Ne. rewrite (find_long defs V G d l (equal :: v) Hd Hl). unfold call. rewrite K.
      rewrite (get_value_equal false argv i d l v e' Hl (G d l Hd Hl) Ha). cbn [obind]. rewrite (strtol0_overflow v n Ov). cbn [error obind]. rewrite Sl.
      change (0 <? 0) with false. cbv iota. change (Z.to_nat 0) with O. rewrite Nat.add_0_r.
      destruct (nth_error (l ++ equal :: v) (length l)); reflexivity. }
  rewrite ONE. cbn [obind]. destruct PL as [-> |(b & r & -> & Nb)].
  - cbn [length] in LA. destruct fu; cbn [args_loop]; replace (S i <? length argv)%nat with false by lia; reflexivity.
  - cbn [length] in LA, Hf. destruct fu as [|fu]; [lia|]. cbn [args_loop]. replace (S i <? length argv)%nat with true by lia.
    rewrite (one_plain defs false argv (S i) b _); [reflexivity| |exact Nb].
    unfold argv, i. change (nth_error (flat_map render items ++ a :: b :: r) (S (length (flat_map render items))) = Some b). rewrite nth_error_app2 by lia. replace (S (length (flat_map render items)) - length (flat_map render items))%nat with 1%nat by lia. reflexivity.
Qed.

(** Integer values: exactly the C constants that fit a long (an empty value is 0,
    leading white space is skipped). *)
Theorem C36_numbers : forall t n, t <> [] -> (forall c r, t = c :: r -> 32 < c) ->
  strtol0 t = (n, [], false) <-> numeral t n.
Proof.
  intros t n Ne Hs. split.
  - apply strtol0_numeral_inv; [exact Ne|]. intros c r E. specialize (Hs c r E). apply isspace_head. lia.
  - apply strtol0_numeral.
Qed.

(** *** A table with one option of each kind *)
Definition ch (c : Z) : option Z := Some c.
Definition t_verbose : text := [118; 101; 114; 98].
Definition t_num : text := [110; 117; 109].
Definition t_out : text := [111; 117; 116].
Definition t_fast : text := [102; 97; 115; 116].
Definition d_v := mkdef (Some 118) (Some t_verbose) KFlag (Some 0%nat) (Some []).
Definition d_n := mkdef (Some 110) (Some t_num) KLong (Some 1%nat) (Some []).
Definition d_o := mkdef (Some 111) (Some t_out) KString (Some 0%nat) (Some []).
Definition d_f := mkdef (Some 102) (Some t_fast) KBool (Some 2%nat) (Some []).
Definition d_i := mkdef (Some 105) (Some [105; 110; 99]) KArray (Some 0%nat) (Some []).
Definition table := [d_v; d_n; d_o; d_f; d_i].
Definition e0 := mkenv (fun _ => 0) (fun _ => None) (fun _ => []) [].
Definition w (s : text) : text := s.
(* "prog" *)
Definition prog : text := [112].

Lemma table_valid : valid_table table.
Proof.
  destruct (validate_spec table e0) as [[V _]|[_ E]]; [exact V|]. vm_compute in E. discriminate E.
Qed.

Lemma table_names : good_names table.
Proof.
  intros d l H. repeat (destruct H as [<-|H]; [cbn [lopt d_v d_n d_o d_f d_i]; intros E; injection E as <-;
    eexists _, _; split; [reflexivity|]; split; [discriminate|];
    vm_compute; intros K; repeat (destruct K as [K|K]; [discriminate K|]); exact K|]).
  destruct H.
Qed.

Lemma table_usable : usable table.
Proof.
  intros d H. repeat (destruct H as [<-|H]; [split; [discriminate|intros _; discriminate]|]). destruct H.
Qed.

(** -vv --num=0x1F -o file --fast yes -i a -i b rest *)
Definition items : list item :=
  [Flags [d_v; d_v]; LongEq d_n [48; 120; 49; 70]; ShortVal d_o [102]; LongVal d_f [121; 69; 83];
   ShortVal d_i [97]; ShortVal d_i [98]; ShortAttached d_o [120; 121]].

Lemma items_ok : Forall (item_ok table) items.
Proof.
  repeat apply Forall_cons; try apply Forall_nil; cbn [item_ok].
  - split; [discriminate|]. repeat apply Forall_cons; try apply Forall_nil;
      (split; [left; reflexivity|split; [reflexivity|discriminate]]).
  - split; [right; left; reflexivity|]. split; [reflexivity|discriminate].
  - split; [right; right; left; reflexivity|]. split; [reflexivity|]. split; discriminate.
  - split; [right; right; right; left; reflexivity|]. split; [reflexivity|discriminate].
  - split; [right; right; right; right; left; reflexivity|]. split; [reflexivity|]. split; discriminate.
  - split; [right; right; right; right; left; reflexivity|]. split; [reflexivity|]. split; discriminate.
  - split; [right; right; left; reflexivity|]. split; [reflexivity|]. split; [discriminate|]. split; [discriminate|].
    split; [vm_compute; intros K; repeat (destruct K as [K|K]; [discriminate K|]); exact K|].
    split; [vm_compute; discriminate|]. exists 120, [121]. split; [reflexivity|].
    intros d H. repeat (destruct H as [<-|H]; [discriminate|]). destruct H.
Qed.

Example C36_example_applies : exists e', all_apply items e0 e' /\
  ints e' 0%nat = 2 /\ ints e' 1%nat = 31 /\ ints e' 2%nat = 1 /\
  strs e' 0%nat = Some [120; 121] /\ arrs e' 0%nat = [[97]; [98]].
Proof.
  eexists. split.
  - unfold items. repeat apply aa_nil.
    eapply aa_cons; [cbn [item_applies]; eapply fa_cons; [apply (a_flag d_v 0%nat); reflexivity|];
      eapply fa_cons; [apply (a_flag d_v 0%nat); reflexivity|apply fa_nil]|].
    eapply aa_cons; [cbn [item_applies]; apply (a_long d_n 1%nat _ 31); [reflexivity|reflexivity|];
      apply n_plain; [|reflexivity]; apply (u_hex 120 [49; 70]); [left; reflexivity|discriminate|];
      repeat apply Forall_cons; try apply Forall_nil; unfold hex_digit; lia|].
    eapply aa_cons; [cbn [item_applies]; apply (a_string d_o 0%nat); reflexivity|].
    eapply aa_cons; [cbn [item_applies]; apply (a_bool d_f 2%nat _ 1); [reflexivity|reflexivity|]; left; split; [reflexivity|];
      right; right; right; reflexivity|].
    eapply aa_cons; [cbn [item_applies]; apply (a_array d_i 0%nat); reflexivity|].
    eapply aa_cons; [cbn [item_applies]; apply (a_array d_i 0%nat); reflexivity|].
    eapply aa_cons; [cbn [item_applies]; apply (a_string d_o 0%nat); reflexivity|].
    apply aa_nil.
  - repeat split.
Qed.

Definition view (o : outcome (Z * option nat * env)) :=
  match o with
  | Ok (r, j, e) => Ok (r, j, [ints e 0%nat; ints e 1%nat; ints e 2%nat], strs e 0%nat, arrs e 0%nat, errs e)
  | Abort => Abort | UB => UB | Loop => Loop
  end.

Example C36_example_run :
  view (process_args true (prog :: flat_map render items ++ [[114]; [45; 118]]) table e0) =
  Ok (0, Some 12%nat, [2; 31; 1], Some [120; 121], [[97]; [98]], []).
Proof. vm_compute. reflexivity. Qed.

Example C36_example_rejected :
  rejected table [dash; 122; 122] [] /\ rejected table (dash :: dash :: []) [] /\
  rejected table (dash :: dash :: t_num) [[53; 120]] /\ rejected table [dash; 110] [].
Proof.
  split; [apply r_letter; [discriminate|]; intros d H; repeat (destruct H as [<-|H]; [discriminate|]); destruct H|].
  split.
  { apply (r_name table [] []); [intros []|left; reflexivity|].
    intros d H; repeat (destruct H as [<-|H]; [discriminate|]); destruct H. }
  split.
  - apply (r_bad_long table d_n t_num [53; 120] []); [right; left; reflexivity|reflexivity|].
    left. split; [reflexivity|]. split; [discriminate|]. split; [intros c r E; injection E as <- _; lia|].
    intros (n & K). apply strtol0_numeral in K. vm_compute in K. discriminate K.
  - apply (r_missing_short table d_n 110 t_num); [right; left; reflexivity|reflexivity|reflexivity|reflexivity].
Qed.

Example C36_example_told :
  reported table (dash :: dash :: t_fast ++ equal :: [109]) 22 (fun e => e) /\
  view (process_args false [prog; dash :: dash :: t_fast ++ equal :: [109]; [114]] table e0) = Ok (0, Some 2%nat, [0; 0; 0], None, [], [22]).
Proof.
  split; [|vm_compute; reflexivity]. apply (p_bool table d_f); [right; right; right; left; reflexivity|reflexivity|reflexivity|].
  intros (b & K). apply bool_of_truth in K. vm_compute in K. discriminate K.
Qed.

(** *** What does not hold *)

(** "stops at --": it is reported as an unknown option. *)
Theorem C36_double_dash_refuted : exists defs, valid_table defs /\ good_names defs /\ usable defs /\
  process_args true [prog; [dash; dash]; [114]] defs e0 = Abort.
Proof. exists table. split; [apply table_valid|]. split; [apply table_names|]. split; [apply table_usable|]. vm_compute. reflexivity. Qed.

(** -ovn: the attached value "vn" is also read as the options -v and -n... *)
Theorem C36_attached_value_refuted : exists defs, valid_table defs /\ good_names defs /\ usable defs /\
  view (process_args true [prog; [dash; 111; 118; 118]] defs e0) =
  Ok (0, Some 2%nat, [2; 0; 0], Some [118; 118], [], []).
Proof. exists table. split; [apply table_valid|]. split; [apply table_names|]. split; [apply table_usable|]. vm_compute. reflexivity. Qed.

(** -vz: an unknown letter after a known one is ignored. *)
Theorem C36_unknown_ignored_refuted : exists defs, valid_table defs /\ good_names defs /\ usable defs /\
  (forall d, In d defs -> sopt d <> Some 122) /\
  view (process_args true [prog; [dash; 118; 122]] defs e0) =
  Ok (0, Some 2%nat, [1; 0; 0], None, [], []).
Proof.
  exists table. split; [apply table_valid|]. split; [apply table_names|]. split; [apply table_usable|].
  split; [intros d H; repeat (destruct H as [<-|H]; [discriminate|]); destruct H|]. vm_compute. reflexivity.
Qed.

(** -vo file: the value of a grouped option is taken from the group itself ("o"), the
    next argument is left over. *)
Theorem C36_grouped_value_refuted : exists defs, valid_table defs /\ good_names defs /\ usable defs /\
  view (process_args true [prog; [dash; 118; 111]; [102]] defs e0) =
  Ok (0, Some 2%nat, [1; 0; 0], Some [111], [], []).
Proof. exists table. split; [apply table_valid|]. split; [apply table_names|]. split; [apply table_usable|]. vm_compute. reflexivity. Qed.

(** -oa=b: the value is cut after the '='. *)
Theorem C36_equal_in_value_refuted : exists defs, valid_table defs /\ good_names defs /\ usable defs /\
  view (process_args true [prog; [dash; 111; 97; 61; 98]] defs e0) =
  Ok (0, Some 2%nat, [0; 0; 0], Some [98], [], []).
Proof. exists table. split; [apply table_valid|]. split; [apply table_names|]. split; [apply table_usable|]. vm_compute. reflexivity. Qed.

(** --num= : an empty number is accepted and stored as 0 *)
Theorem C36_empty_number_refuted : exists defs, valid_table defs /\ good_names defs /\ usable defs /\
  (forall n, ~ numeral [] n) /\
  view (process_args true [prog; dash :: dash :: t_num ++ [61]] defs (set_int 1 7 e0)) =
  Ok (0, Some 2%nat, [0; 0; 0], None, [], []).
Proof.
  exists table. split; [apply table_valid|]. split; [apply table_names|]. split; [apply table_usable|].
  split; [intros n K; inversion K as [? ? U| | ]; inversion U|]. vm_compute. reflexivity.
Qed.

(** A value option without a long name, which the table check accepts, makes the parser
    compare with a null pointer. *)
Theorem C36_needs_long_name_refuted : exists defs, valid_table defs /\ good_names defs /\
  process_args true [prog; [dash; 110]; [53]] defs e0 = UB.
Proof.
  exists [mkdef (Some 110) None KLong (Some 1%nat) (Some [])]. split; [|split].
  - destruct (validate_spec [mkdef (Some 110) None KLong (Some 1%nat) (Some [])] e0) as [[V _]|[_ E]]; [exact V|].
    vm_compute in E. discriminate E.
  - intros d l [<-|[]] E. discriminate E.
  - vm_compute. reflexivity.
Qed.

(** With an error handler that returns, a missing value is a null pointer for strtol... *)
Theorem C36_returning_handler_refuted : exists defs, valid_table defs /\ good_names defs /\ usable defs /\
  process_args false [prog; [dash; 110]] defs e0 = UB.
Proof. exists table. split; [apply table_valid|]. split; [apply table_names|]. split; [apply table_usable|]. vm_compute. reflexivity. Qed.

(** ... and for a string option *argc ends up greater than it was. *)
Theorem C36_argc_grows_refuted : exists defs, valid_table defs /\ good_names defs /\ usable defs /\
  view (process_args false [prog; [dash; 111]] defs e0) = Ok (0, Some 3%nat, [0; 0; 0], None, [], [EINVAL]).
Proof. exists table. split; [apply table_valid|]. split; [apply table_names|]. split; [apply table_usable|]. vm_compute. reflexivity. Qed.

(** ** C46: help layout *)

(** If no word is longer than 49 letters, the help text is printed as lines of at most
    50 columns holding exactly the words of the text, in order. *)
Theorem C46_wrap : forall h, Forall (fun w => (length w < 50)%nat) (words h) ->
  exists lines, wrap h = Ok lines /\ Forall (fun l => (length l <= 50)%nat) lines /\
    flat_map words lines = words h.
Proof.
  intros h Hw. unfold wrap. destruct (Nat.ltb_spec base_width (length h)) as [Lt|Ge].
  - apply wrap_from_ok; [lia|exact Hw].
  - exists [h]. split; [reflexivity|]. split; [constructor; [exact Ge|constructor]|]. cbn [flat_map]. apply app_nil_r.
Qed.

(** a short text is printed as it is *)
Theorem C46_short : forall h, (length h <= 50)%nat -> wrap h = Ok [h].
Proof.
  intros h H. unfold wrap. destruct (Nat.ltb_spec base_width (length h)) as [Lt|Ge]; [unfold base_width in Lt; lia|reflexivity].
Qed.

Definition xs (n : nat) : text := repeat 120 n.

Example C46_example : 
  Forall (fun w => (length w < 50)%nat) (words (xs 30 ++ 32 :: xs 10 ++ 32 :: 32 :: xs 20 ++ [32])) /\
  wrap (xs 30 ++ 32 :: xs 10 ++ 32 :: 32 :: xs 20 ++ [32]) =
  Ok [xs 30 ++ 32 :: xs 10 ++ [32]; xs 20 ++ [32]].
Proof.
  split; [|vm_compute; reflexivity].
  replace (words _) with [xs 30; xs 10; xs 20] by (vm_compute; reflexivity).
  repeat (apply Forall_cons; [apply Nat.ltb_lt; vm_compute; reflexivity|]). apply Forall_nil.
Qed.

(** A longer word at the start makes it read before the text, later one makes it print
    the same line for ever. *)
Theorem C46_long_word_refuted :
  (exists h, wrap h = UB) /\ (exists h, wrap h = Loop).
Proof.
  split; [exists (xs 51); vm_compute; reflexivity|].
  exists (xs 3 ++ 32 :: xs 60). vm_compute. reflexivity.
Qed.

Print Assumptions C36_command_line.
Print Assumptions C36_table_checked.
Print Assumptions C36_every_vector.
Print Assumptions C36_rejects.
Print Assumptions C36_handler_told.
Print Assumptions C36_numbers.
Print Assumptions C36_double_dash_refuted.
Print Assumptions C36_attached_value_refuted.
Print Assumptions C36_unknown_ignored_refuted.
Print Assumptions C36_grouped_value_refuted.
Print Assumptions C36_equal_in_value_refuted.
Print Assumptions C36_empty_number_refuted.
Print Assumptions C36_needs_long_name_refuted.
Print Assumptions C36_returning_handler_refuted.
Print Assumptions C36_argc_grows_refuted.
Print Assumptions C46_wrap.
Print Assumptions C46_short.
Print Assumptions C46_long_word_refuted.
