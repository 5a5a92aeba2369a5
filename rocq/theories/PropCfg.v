(** C35: configurations. Model: CfgModel.v; vocabulary: CfgSpec.v (numeral: OptsSpec.v).
    [isfloat] says which texts strtod accepts as a whole; every theorem holds for all of them. *)
From Verif Require Import Prelude OptsModel OptsSpec OptsProofs CfgModel CfgSpec CfgProofs CfgFile.
Local Open Scope Z_scope.

(** ** Reading back *)

(** After any history, a variable yields the value of its last assignment, with the type
    its text implies, and nothing with any other type. *)
Theorem C35_last_assignment : forall isfloat pre b v t post e ty fuel,
  ~ In (b, v) (keys post) ->
  means isfloat (fun x y => In (x, y) (keys (pre ++ [(b, v, t)]))) t e ->
  (forall x y, e <> ERef x y) ->
  get fuel (run isfloat (pre ++ (b, v, t) :: post)) b v ty =
  if is_of e ty then Ok (number ty, Some e) else Ok (-1, None).
Proof.
  intros isfloat pre b v t post e ty fuel N M Nr. unfold get.
  rewrite (run_lookup isfloat pre b v t post e N M).
  assert (R : resolve fuel (run isfloat (pre ++ (b, v, t) :: post)) e = Ok e).
  { destruct e as [?|?|?|?|x y]; try (destruct fuel; reflexivity). contradiction (Nr x y eq_refl). }
  rewrite R. cbn [obind]. destruct e, ty; reflexivity.
Qed.

(** A reference yields what its target yields (now). *)
Theorem C35_reference : forall isfloat pre b v t post rb rv ty fuel,
  ~ In (b, v) (keys post) ->
  means isfloat (fun x y => In (x, y) (keys (pre ++ [(b, v, t)]))) t (ERef rb rv) ->
  get (S fuel) (run isfloat (pre ++ (b, v, t) :: post)) b v ty =
  get fuel (run isfloat (pre ++ (b, v, t) :: post)) rb rv ty.
Proof.
  intros isfloat pre b v t post rb rv ty fuel N M. unfold get at 1.
  rewrite (run_lookup isfloat pre b v t post _ N M). cbn [resolve]. unfold get.
  destruct (lookup (run isfloat (pre ++ (b, v, t) :: post)) rb rv) as [e|] eqn:L; [reflexivity|].
  exfalso. apply run_lookup_none in L. apply L.
  assert (K : In (rb, rv) (keys (pre ++ [(b, v, t)]))).
  { inversion M as [ | | | |q s e0 Hq F Hr|t0 e0 Hp Hr]; subst;
    (destruct Hr as [(x & y & _ & K & E)|[_ E]]; [injection E as -> ->; exact K|discriminate E]). }
  unfold keys in *. rewrite map_app in *. apply in_app_or in K. apply in_or_app.
  destruct K as [K|[K|[]]]; [left; exact K|right; left; exact K].
Qed.

(** Variables that were never assigned are not found. *)
Theorem C35_unknown : forall isfloat l b v ty fuel, ~ In (b, v) (keys l) ->
  get fuel (run isfloat l) b v ty = Ok (-1, None).
Proof.
  intros isfloat l b v ty fuel N. unfold get. apply run_lookup_none with (isfloat := isfloat) in N. rewrite N. reflexivity.
Qed.

(** If every variable is assigned once and none refers to itself, lookup ends. *)
Theorem C35_lookup_ends : forall isfloat l,
  NoDup (keys l) ->
  (forall b v t, In (b, v, t) l -> t <> b ++ 46 :: v /\ forall q x, t <> q :: (b ++ 46 :: v) ++ [x]) ->
  forall b v ty, exists r, get (length l) (run isfloat l) b v ty = Ok r.
Proof.
  intros isfloat l Nd Ns b v ty.
  destruct (key_in (b, v) (keys l)) as [K|K].
  2:{ exists (-1, None). apply C35_unknown. exact K. }
  destruct (resolve_ends isfloat l Nd) with (b := b) (v := v) as (e & x & L & R & T); [|exact K|].
  - clear b v ty K. induction l as [|[[b1 v1] t1] l IH] using rev_ind; intros b v; [discriminate|].
    unfold keys in Nd. rewrite map_app in Nd. cbn [map key fst snd] in Nd.
    assert (Nd1 : NoDup (keys l)) by (apply NoDup_remove_1 in Nd; rewrite app_nil_r in Nd; exact Nd).
    rewrite run_snoc, insert_lookup.
    destruct (text_eqb b1 b && text_eqb v1 v) eqn:E.
    + apply andb_true_iff in E as [A B]. apply text_eqb_spec in A, B. subst b1 v1.
      intros Er. injection Er as Er.
      destruct (Ns b v t1) as [N1 N2]; [apply in_or_app; right; left; reflexivity|].
      unfold entry_for in Er.
      assert (Gt : match get_type isfloat t1 with
                   | EString s => s = t1 \/ (exists q x, t1 = q :: s ++ [x]) \/ s = []
                   | ERef _ _ => False | _ => True end).
      { rewrite get_type_eq. destruct (full t1); [exact Logic.I|].
        destruct (match t1 with [] => false | _ => isfloat t1 end); [exact Logic.I|].
        destruct (case_eqb t1 w_yes || case_eqb t1 w_true); [exact Logic.I|].
        destruct (case_eqb t1 w_no || case_eqb t1 w_false); [exact Logic.I|].
        destruct t1 as [|c r]; [left; reflexivity|]. destruct ((c =? 39) || (c =? 34)); [|left; reflexivity].
        destruct r as [|c2 r]; [right; right; reflexivity|]. right; left.
        exists c, (last (c2 :: r) 0). f_equal. apply app_removelast_last. discriminate. }
      destruct (get_type isfloat t1) as [?|?|?|s|? ?]; try discriminate Er; [|contradiction].
      destruct (split_dot_spec s) as [(sb & sv & Es & D)|[Es _]]; rewrite Es in Er; [|discriminate Er].
      assert (X : sb = b /\ sv = v).
      { destruct (text_eqb b sb && text_eqb v sv); [injection Er as -> ->; split; reflexivity|].
        destruct (lookup (run isfloat l) sb sv); [injection Er as -> ->; split; reflexivity|discriminate Er]. }
      destruct X as [-> ->]. destruct D as [-> _].
      destruct Gt as [Gt|[(q & x & Gt)|Gt]].
      * exact (N1 (eq_sym Gt)).
      * exact (N2 q x Gt).
      * destruct b; discriminate Gt.
    + apply IH; [exact Nd1|]. intros b2 v2 t2 K. apply Ns. apply in_or_app. left. exact K.
  - unfold get. rewrite L, R. cbn [obind]. destruct (code (type_of x) =? code ty); eexists; reflexivity.
Qed.

(** ** Setting *)
Lemma digits_spec : forall f n, 0 < n < 10 ^ Z.of_nat f ->
  exists c r, digits_of f n = c :: r /\ dec_digit c /\ c <> 48 /\ Forall dec_digit r /\
  value 10 (c :: r) = n /\ (length (digits_of f n) <= f)%nat.
Proof.
  induction f as [|f IH]; intros n H; [cbn in H; lia|]. cbn [digits_of].
  destruct (Z.ltb_spec n 10) as [Lt|Ge].
  - exists (48 + n), []. unfold dec_digit. split; [reflexivity|]. split; [lia|]. split; [lia|].
    split; [constructor|]. split; [|cbn [length]; lia].
    unfold value. cbn [fold_left]. unfold digit_value. destruct (Z.leb_spec (48 + n) 57); lia.
  - rewrite Nat2Z.inj_succ, Z.pow_succ_r in H by lia.
    destruct (IH (n / 10)) as (c & r & E & Dc & Nc & Dr & Ev & El).
    { pose proof (Z.div_mod n 10 ltac:(lia)). pose proof (Z.mod_pos_bound n 10 ltac:(lia)). lia. }
    pose proof (Z.div_mod n 10 ltac:(lia)) as Dm. pose proof (Z.mod_pos_bound n 10 ltac:(lia)) as Bm.
    exists c, (r ++ [48 + n mod 10]). rewrite E in *. split; [reflexivity|]. split; [exact Dc|]. split; [exact Nc|].
    split.
    { apply Forall_app. split; [exact Dr|]. repeat constructor; unfold dec_digit; lia. }
    split.
    + unfold value in *. change (c :: r ++ [48 + n mod 10]) with ((c :: r) ++ [48 + n mod 10]).
      rewrite fold_left_app, Ev. cbn [fold_left]. unfold digit_value.
      destruct (Z.leb_spec (48 + n mod 10) 57); lia.
    + cbn [app length]. rewrite app_length. cbn [length] in *. lia.
Qed.

Lemma print_long_numeral : forall n, - 2 ^ 63 <= n < 2 ^ 63 -> numeral (print_long n) n /\ (length (print_long n) <= 21)%nat.
Proof.
  intros n H. assert (E20 : 10 ^ Z.of_nat 20 = 100000000000000000000) by reflexivity. unfold print_long. destruct (Z.ltb_spec n 0) as [Lt|Ge].
  - destruct (digits_spec 20 (- n)) as (c & r & E & Dc & Nc & Dr & Ev & El); [rewrite E20; lia|].
    rewrite E in *. split; [|cbn [length] in *; lia].
    replace n with (- (- n)) at 1 by lia. apply n_minus; [|lia]. rewrite <- Ev. apply u_dec; assumption.
  - destruct (Z.eq_dec n 0) as [-> |Nz].
    + split; [|cbn [length digits_of]; apply Nat.leb_le; reflexivity]. apply n_plain; [|lia]. apply (u_oct []). constructor.
    + destruct (digits_spec 20 n) as (c & r & E & Dc & Nc & Dr & Ev & El); [rewrite E20; lia|].
      rewrite E in *. split; [|cbn [length] in *; lia].
      apply n_plain; [|lia]. rewrite <- Ev. apply u_dec; assumption.
Qed.

Lemma bounded_id : forall s, (length s < 1024)%nat -> bounded s = s.
Proof. intros s H. unfold bounded. apply firstn_all2. unfold BUFMAX. lia. Qed.

(** A long that was set is read back, whatever the configuration was before. *)
Theorem C35_set_int : forall isfloat st b v n fuel, - 2 ^ 63 <= n < 2 ^ 63 ->
  let '(r, st') := set isfloat st b v (AInt n) in
  r = 1 /\ get fuel st' b v TInt = Ok (1, Some (EInt n)).
Proof.
  intros isfloat st b v n fuel H. cbn [set]. split; [reflexivity|].
  destruct (print_long_numeral n H) as [Hn Hl]. rewrite bounded_id by lia.
  unfold get. rewrite insert_lookup, !text_eqb_refl. cbn [andb].
  rewrite (entry_means isfloat st b v (print_long n) (EInt n)) by (apply m_int; exact Hn).
  destruct fuel; reflexivity.
Qed.

(** A string that looks like nothing else (number, boolean, quoted, "x.y") is read back, cut to the 1023 characters a value may have. *)
Theorem C35_set_string : forall isfloat st b v s fuel, let s' := firstn (Z.to_nat 1023) s in plain isfloat s' -> ~ In 46 s' ->
  let '(r, st') := set isfloat st b v (AString s) in
  r = 1 /\ get fuel st' b v TString = Ok (3, Some (EString s')).
Proof.
  intros isfloat st b v s fuel s' P N. cbn [set]. split; [reflexivity|]. change (bounded s) with s'.
  unfold get. rewrite insert_lookup, !text_eqb_refl. cbn [andb].
  rewrite (entry_means isfloat st b v s' (EString s')).
  - destruct fuel; reflexivity.
  - apply m_plain; [exact P|]. right. split; [|reflexivity]. intros x y [D _]. exfalso. apply N. rewrite D.
    apply in_or_app. right. left. reflexivity.
Qed.

(** Booleans are set by name. *)
Theorem C35_set_bool : forall isfloat st b v s fuel x, isfloat s = false -> (length s < 1024)%nat ->
  (x = 1 /\ word s yes true_) \/ (x = 0 /\ word s no false_) ->
  let '(r, st') := set isfloat st b v (ABool s) in
  r = 1 /\ get fuel st' b v TBool = Ok (0, Some (EBool x)).
Proof.
  intros isfloat st b v s fuel x F H W. cbn [set]. split; [reflexivity|]. rewrite bounded_id by exact H.
  unfold get. rewrite insert_lookup, !text_eqb_refl. cbn [andb].
  rewrite (entry_means isfloat st b v s (EBool x)).
  - destruct fuel; reflexivity.
  - destruct W as [[-> W]|[-> W]]; [apply m_true|apply m_false]; assumption.
Qed.

(** Setting changes no other variable: what it holds, and what is read unless it refers
    elsewhere. *)
Theorem C35_frame : forall isfloat st b v a b2 v2, (b2, v2) <> (b, v) ->
  let '(_, st') := set isfloat st b v a in
  lookup st' b2 v2 = lookup st b2 v2 /\
  forall fuel ty, (forall x y, lookup st b2 v2 <> Some (ERef x y)) -> get fuel st' b2 v2 ty = get fuel st b2 v2 ty.
Proof.
  intros isfloat st b v a b2 v2 N.
  assert (I : forall t, lookup (insert isfloat st b v t) b2 v2 = lookup st b2 v2).
  { intros t. rewrite insert_lookup. destruct (text_eqb b b2 && text_eqb v v2) eqn:E; [|reflexivity].
    exfalso. apply andb_true_iff in E as [A B]. apply text_eqb_spec in A, B. subst. apply N. reflexivity. }
  destruct (set isfloat st b v a) as [r st'] eqn:Es.
  assert (L : lookup st' b2 v2 = lookup st b2 v2).
  { destruct a; cbn [set] in Es; assert (Hs := f_equal snd Es); cbn [snd] in Hs; rewrite <- Hs; try apply I. reflexivity. }
  split; [exact L|]. intros fuel ty Nr. unfold get. rewrite L.
  destruct (lookup st b2 v2) as [[?|?|?|?|x y]|]; try (destruct fuel; reflexivity).
  contradiction (Nr x y eq_refl).
Qed.

(** ** Files *)

(** An INI file made of blank lines, comments, [block] headers and name = value lines
    (any indentation, blanks, trailing comment) makes exactly its assignments, in order. *)
Theorem C35_file : forall isfloat ls, Forall (fun l => blanks (indent l) /\ line_ok (what l)) ls ->
  cfg_ini isfloat (file ls) = Ok (Some (run isfloat (assignments [71; 108; 111; 98; 97; 108] ls))).
Proof.
  intros isfloat ls H. unfold cfg_ini. rewrite parse_file_ok by (try exact H; lia). reflexivity.
Qed.

(** The last line may lack its newline if at least two characters follow the blanks after '='. *)
Theorem C35_last_line : forall isfloat ls ind n a b v c t, Forall (fun l => blanks (indent l) /\ line_ok (what l)) ls ->
  blanks ind -> n <> [] -> Forall name_letter n -> blanks a -> blanks b -> blanks c -> value_ok v ->
  (t = [] \/ exists m r, t = m :: r /\ comment_mark m /\ ~ In 10 r /\ ~ In 0 r) ->
  Z.of_nat (length (n ++ a ++ 61 :: b ++ v ++ c ++ t)) < 1024 -> (2 <= length (v ++ c ++ t))%nat ->
  let blk := [71; 108; 111; 98; 97; 108] in
  cfg_ini isfloat (file ls ++ ind ++ n ++ a ++ 61 :: b ++ v ++ c ++ t) =
  Ok (Some (run isfloat (assignments blk ls ++ [(current blk ls, n, v)]))).
Proof.
  intros isfloat ls ind n a b v c t H Hi Nn Fn Ba Bb Bc Vok Ht Hl H2 blk.
  pose proof (parse_last_ok n a b v c t Nn Fn Ba Bb Bc Vok Ht Hl H2) as P.
  change (n ++ a ++ 61 :: b ++ v ++ c ++ t) with (last_line n a b v c t). set (body := last_line n a b v c t) in *.
  destruct (parse_file_prefix isfloat ls blk [] (S (length (file ls ++ ind ++ body))) (ind ++ body) H ltac:(lia)) as (f & Hf & E).
  refine (eq_trans (f_equal (fun z => ' (r0, st) <- z ;; Ok (if r0 <? 0 then None else Some st)) E) _).
  assert (HD : exists x r, body = x :: r /\ name_letter x).
  { unfold body, last_line. destruct n as [|x n]; [congruence|]. inversion Fn; subst. exists x, (n ++ a ++ 61 :: b ++ v ++ c ++ t). split; [reflexivity|assumption]. }
  destruct HD as (x & r & Eb & Hx). unfold name_letter in Hx.
  assert (STEP : forall fuel bl st, (length body < fuel)%nat -> parse_from isfloat fuel body (Some bl) st = Ok (0, insert isfloat st bl n v)).
  { intros fuel bl st F. destruct fuel as [|fuel]; [lia|]. rewrite Eb in P |- *. cbn [parse_from].
    destruct (Z.eqb_spec x 10); [lia|]. destruct (Z.eqb_spec x 91); [lia|].
    destruct (Z.eqb_spec x 59); [lia|]. destruct (Z.eqb_spec x 35); [lia|]. cbn [orb].
    rewrite isblank_false by lia. rewrite P. cbn [obind]. destruct fuel; reflexivity. }
  assert (R : parse_from isfloat f (ind ++ body) (Some (current blk ls)) (assign_to isfloat [] (assignments blk ls)) =
    Ok (0, insert isfloat (assign_to isfloat [] (assignments blk ls)) (current blk ls) n v)).
  { rewrite app_length in Hf. destruct ind as [|y ind]; [apply STEP; cbn [length] in Hf; lia|]. inversion Hi as [|? ? Hy Hi2]; subst.
    cbn [app length] in *. destruct f as [|f]; [lia|]. cbn [parse_from].
    destruct (Z.eqb_spec y 10); [lia|]. destruct (Z.eqb_spec y 91); [lia|].
    destruct (Z.eqb_spec y 59); [lia|]. destruct (Z.eqb_spec y 35); [lia|]. cbn [orb].
    rewrite (proj2 (isblank_spec y) Hy). rewrite discard_blank_app by exact Hi2.
    assert (Ed : discard_blank body = body) by (rewrite Eb; apply discard_blank_stop; lia). rewrite Ed. apply STEP. lia. }
  rewrite R. cbn [obind]. change (0 <? 0) with false. cbv iota. do 2 f_equal. unfold run, assign_to. rewrite fold_left_app. reflexivity.
Qed.

(** A block header that is never closed: the rest of the file is skipped, without an error, and the assignments before it stand. *)
Theorem C35_open_header : forall isfloat ls ind rest, Forall (fun l => blanks (indent l) /\ line_ok (what l)) ls -> blanks ind ->
  ~ In 93 rest -> Z.of_nat (length rest) < 1024 ->
  cfg_ini isfloat (file ls ++ ind ++ 91 :: rest) = Ok (Some (run isfloat (assignments [71; 108; 111; 98; 97; 108] ls))).
Proof.
  intros isfloat ls ind rest H Hi N L. unfold cfg_ini. set (blk := global).
  destruct (parse_file_prefix isfloat ls blk [] (S (length (file ls ++ ind ++ 91 :: rest))) (ind ++ 91 :: rest) H ltac:(lia)) as (f & Hf & E).
  refine (eq_trans (f_equal (fun z => ' (r0, st) <- z ;; Ok (if r0 <? 0 then None else Some st)) E) _).
  assert (RB : forall r i, ~ In 93 r -> i + Z.of_nat (length r) < 1024 -> read_block r i = (Some r, [])).
  { clear. induction r as [|c r IH]; intros i N L; cbn [read_block length In] in *; [replace (i <? BUFMAX) with true by (unfold BUFMAX; lia); reflexivity|].
    replace (i <? BUFMAX) with true by (unfold BUFMAX; lia). replace (c =? 93) with false by lia. rewrite IH by (try tauto; lia). reflexivity. }
  assert (STEP : forall fuel bl st, (S (length rest) < fuel)%nat -> parse_from isfloat fuel (91 :: rest) (Some bl) st = Ok (0, st)).
  { intros fuel bl st F. destruct fuel as [|fuel]; [lia|]. cbn [parse_from]. change (91 =? 10) with false. change (91 =? 91) with true. cbv iota. rewrite (RB rest 0 N ltac:(lia)). cbn [discard_line]. destruct fuel; [lia|reflexivity]. }
  assert (R : parse_from isfloat f (ind ++ 91 :: rest) (Some (current blk ls)) (assign_to isfloat [] (assignments blk ls)) = Ok (0, assign_to isfloat [] (assignments blk ls))).
  { destruct ind as [|y ind]; [apply STEP; cbn [app length] in Hf; lia|]. inversion Hi as [|? ? Hy Hi2]; subst. cbn [app]. destruct f as [|f]; [cbn [app length] in Hf; lia|]. cbn [parse_from].
    assert (Hy' : y = 32 \/ y = 9) by exact Hy. replace (y =? 10) with false by lia. replace (y =? 91) with false by lia. replace ((y =? 59) || (y =? 35)) with false by lia.
    rewrite (proj2 (isblank_spec y) Hy). rewrite discard_blank_app by exact Hi2. rewrite discard_blank_stop by lia. apply STEP. rewrite !app_length in Hf. cbn [length] in Hf. lia. }
  rewrite R. cbn [obind]. change (0 <? 0) with false. cbv iota. reflexivity.
Qed.

(** Any file: the parser comes to an end. *)
Theorem C35_parser_ends : forall isfloat f, cfg_ini isfloat f <> Loop /\ cfg_ini isfloat f <> Abort.
Proof.
  intros isfloat f. unfold cfg_ini.
  destruct (parse_from_ends isfloat (S (length f)) f (Some global) [] ltac:(lia)) as [A B].
  destruct (parse_from isfloat (S (length f)) f (Some global) []) as [[r st]| | |]; cbn [obind];
    split; try discriminate; contradiction.
Qed.

(** *** Examples *)
Definition nofloat (t : text) : bool := false.
Definition ta : text := [97].
Definition tx : text := [120].
Definition ty_ : text := [121].
(* "  x = -0x1f ; c", "[a]", "y='b c'", "z = a.y" *)
Definition lines : list iline :=
  [mkline [32; 9] (LAssign tx [32] [32] [45; 48; 120; 49; 102] [32] [59; 99]);
   mkline [] LEmpty; mkline [32] (LComment 35 [104; 105]);
   mkline [] (LHeader ta [32]);
   mkline [] (LAssign ty_ [] [] [39; 98; 32; 99; 39] [] []);
   mkline [] (LAssign [122] [32] [32] [97; 46; 121] [32; 9] [])].

Example C35_example_lines : Forall (fun l => blanks (indent l) /\ line_ok (what l)) lines.
Proof.
  unfold lines. repeat (apply Forall_cons; [|]); try apply Forall_nil; cbn [indent what]; (split; [unfold blanks; repeat constructor; lia|]).
  - cbn [line_ok]. split; [discriminate|]. split; [repeat constructor; unfold name_letter; lia|]. split; [repeat constructor; lia|].
    split; [repeat constructor; lia|]. split; [repeat constructor; lia|].
    split.
    + split; [intros c K; repeat (destruct K as [<-|K]; [lia|]); destruct K|].
      split; [exists 45, [48; 120; 49; 102]; repeat split; lia|exists [45; 48; 120; 49], 102; repeat split; lia].
    + split; [right; exists 59, [99]; split; [reflexivity|]; split; [left; reflexivity|]; split; intros [K|[]]; discriminate K|].
      vm_compute. reflexivity.
  - exact Logic.I.
  - split; [right; reflexivity|]. intros [K|[K|[]]]; discriminate K.
  - split; [intros [K|[]]; discriminate K|]. split; [intros [K|[]]; discriminate K|].
    split; [vm_compute; reflexivity|intros [K|[]]; discriminate K].
  - cbn [line_ok]. split; [discriminate|]. split; [repeat constructor; unfold name_letter; lia|]. split; [constructor|]. split; [constructor|].
    split; [constructor|]. split.
    + split; [intros c K; repeat (destruct K as [<-|K]; [lia|]); destruct K|].
      split; [exists 39, [98; 32; 99; 39]; repeat split; lia|exists [39; 98; 32; 99], 39; repeat split; lia].
    + split; [left; reflexivity|vm_compute; reflexivity].
  - cbn [line_ok]. split; [discriminate|]. split; [repeat constructor; unfold name_letter; lia|]. split; [repeat constructor; lia|]. split; [repeat constructor; lia|].
    split; [repeat constructor; lia|]. split.
    + split; [intros c K; repeat (destruct K as [<-|K]; [lia|]); destruct K|].
      split; [exists 97, [46; 121]; repeat split; lia|exists [97; 46], 121; repeat split; lia].
    + split; [left; reflexivity|vm_compute; reflexivity].
Qed.

Definition read (f : text) (b v : text) (t : ty) : outcome (option (Z * option entry)) :=
  o <- cfg_ini nofloat f ;;
  match o with None => Ok None | Some st => r <- get 10 st b v t ;; Ok (Some r) end.

Example C35_example_file :
  read (file lines) global tx TInt = Ok (Some (1, Some (EInt (-31)))) /\
  read (file lines) ta ty_ TString = Ok (Some (3, Some (EString [98; 32; 99]))) /\
  read (file lines) ta [122] TString = Ok (Some (3, Some (EString [98; 32; 99]))) /\
  read (file lines) ta [122] TInt = Ok (Some (-1, None)).
Proof. vm_compute. repeat split. Qed.

Example C35_example_history :
  NoDup (keys (assignments global lines)) /\
  means nofloat (fun x y => In (x, y) (keys [(ta, ty_, [98]); (ta, [122], [97; 46; 121])])) [97; 46; 121] (ERef ta ty_).
Proof.
  split.
  - vm_compute. repeat constructor; intros K; repeat (destruct K as [K|K]; [discriminate K|]); destruct K.
  - apply m_plain.
    + split; [reflexivity|]. split; [intros [K|K]; discriminate K|]. split; [intros [K|K]; discriminate K|].
      intros c r E. injection E as <- _. lia.
    + left. exists ta, ty_. split; [split; [reflexivity|intros [K|[]]; discriminate K]|].
      split; [left; reflexivity|reflexivity].
Qed.

(** *** What does not hold *)

(** "lookup terminates": a variable that refers to itself. *)
Theorem C35_self_reference_refuted : exists f st, cfg_ini nofloat f = Ok (Some st) /\
  forall fuel ty, get fuel st ta tx ty = Loop.
Proof.
  (* "[a]\nx=a.x\n" *)
  exists ([91; 97; 93; 10; 120; 61; 97; 46; 120; 10]), [(ta, [(tx, ERef ta tx)])].
  split; [vm_compute; reflexivity|]. intros fuel ty.
  assert (R : forall fuel, resolve fuel [(ta, [(tx, ERef ta tx)])] (ERef ta tx) = Loop).
  { clear fuel. induction fuel as [|fuel IH]; [reflexivity|]. cbn [resolve].
    change (lookup [(ta, [(tx, ERef ta tx)])] ta tx) with (Some (ERef ta tx)). exact IH. }
  unfold get. change (lookup [(ta, [(tx, ERef ta tx)])] ta tx) with (Some (ERef ta tx)). cbv beta iota. rewrite R. reflexivity.
Qed.

(** two variables that refer to each other after one is assigned again *)
Theorem C35_cycle_refuted : exists l, (forall fuel ty, get fuel (run nofloat l) ta tx ty = Loop) /\
  forall b v t, In (b, v, t) l -> t <> b ++ 46 :: v.
Proof.
  (* a.x = 1; a.y = "a.x"; a.x = "a.y" *)
  exists [(ta, tx, [49]); (ta, ty_, [97; 46; 120]); (ta, tx, [97; 46; 121])]. split.
  - intros fuel ty.
    assert (Er : run nofloat [(ta, tx, [49]); (ta, ty_, [97; 46; 120]); (ta, tx, [97; 46; 121])] =
                 [(ta, [(ty_, ERef ta tx); (tx, ERef ta ty_)])]) by (vm_compute; reflexivity).
    rewrite Er.
    assert (R : forall fuel, resolve fuel [(ta, [(ty_, ERef ta tx); (tx, ERef ta ty_)])] (ERef ta tx) = Loop /\
                             resolve fuel [(ta, [(ty_, ERef ta tx); (tx, ERef ta ty_)])] (ERef ta ty_) = Loop).
    { clear fuel. induction fuel as [|fuel [IH1 IH2]]; [split; reflexivity|]. cbn [resolve].
      change (lookup [(ta, [(ty_, ERef ta tx); (tx, ERef ta ty_)])] ta tx) with (Some (ERef ta ty_)).
      change (lookup [(ta, [(ty_, ERef ta tx); (tx, ERef ta ty_)])] ta ty_) with (Some (ERef ta tx)).
      split; assumption. }
    unfold get. change (lookup [(ta, [(ty_, ERef ta tx); (tx, ERef ta ty_)])] ta tx) with (Some (ERef ta ty_)).
    destruct (R fuel) as [_ R2]. cbv beta iota. rewrite R2. reflexivity.
  - intros b v t K. repeat (destruct K as [K|K]; [injection K as <- <- <-; discriminate|]). destruct K.
Qed.

(** "x=" with nothing after it (or only a comment): val[SIZE_MAX] is read *)
Theorem C35_empty_value_refuted : exists f, cfg_ini nofloat f = UB.
Proof. exists [120; 61; 10]. vm_compute. reflexivity. Qed.

(** a block name of 1024 characters or more, then an assignment: a null block name *)
Theorem C35_long_block_refuted : exists n, ~ In 93 n /\ ~ In 10 n /\
  cfg_ini nofloat (91 :: n ++ [93; 10; 120; 61; 53; 10]) = UB.
Proof.
  exists (repeat 97 (Z.to_nat 1100)). split; [intros K; apply repeat_spec in K; discriminate K|].
  split; [intros K; apply repeat_spec in K; discriminate K|]. vm_compute. reflexivity.
Qed.

(** a last line without newline whose value has one character is a syntax error *)
Theorem C35_last_line_refuted : 
  cfg_ini nofloat [120; 61; 53] = Ok None /\
  read [120; 61; 53; 10] global tx TInt = Ok (Some (1, Some (EInt 5))) /\
  read [120; 61; 53; 53] global tx TInt = Ok (Some (1, Some (EInt 55))).
Proof. vm_compute. repeat split. Qed.

(** a header without ']' swallows the lines that follow, without an error *)
Theorem C35_open_header_refuted : exists st, cfg_ini nofloat [91; 97; 10; 120; 61; 53; 10] = Ok (Some st) /\
  forall b v, lookup st b v = None.
Proof. exists []. split; [vm_compute; reflexivity|reflexivity]. Qed.

(** a missing closing quote costs the last character *)
Theorem C35_quote_refuted : read [120; 61; 34; 97; 98; 10] global tx TString = Ok (Some (3, Some (EString [97]))).
Proof. vm_compute. reflexivity. Qed.

(** a string that looks like a number cannot be read back as a string *)
Theorem C35_number_string_refuted : exists s, 
  let '(r, st') := set nofloat [] ta tx (AString s) in
  r = 1 /\ get 5 st' ta tx TString = Ok (-1, None).
Proof. exists [52; 50]. vm_compute. split; reflexivity. Qed.

(** an integer that does not fit is stored as LONG_MAX without a word *)
Theorem C35_range_refuted : read ([120; 61] ++ repeat 57 30 ++ [10]) global tx TInt = Ok (Some (1, Some (EInt LONG_MAX))).
Proof. vm_compute. reflexivity. Qed.

(** zt_cfg.h: "returns 0 on failure and >0 on success": a boolean that is found gives 0,
    a variable that is missing -1 *)
Theorem C35_bool_result_refuted : 
  read [120; 61; 121; 101; 115; 10] global tx TBool = Ok (Some (0, Some (EBool 1))) /\
  read [120; 61; 121; 101; 115; 10] global ty_ TBool = Ok (Some (-1, None)).
Proof. vm_compute. split; reflexivity. Qed.

Print Assumptions C35_last_assignment.
Print Assumptions C35_reference.
Print Assumptions C35_unknown.
Print Assumptions C35_lookup_ends.
Print Assumptions C35_set_int.
Print Assumptions C35_set_string.
Print Assumptions C35_set_bool.
Print Assumptions C35_frame.
Print Assumptions C35_file.
Print Assumptions C35_last_line.
Print Assumptions C35_open_header.
Print Assumptions C35_parser_ends.
Print Assumptions C35_self_reference_refuted.
Print Assumptions C35_cycle_refuted.
Print Assumptions C35_empty_value_refuted.
Print Assumptions C35_long_block_refuted.
Print Assumptions C35_last_line_refuted.
Print Assumptions C35_open_header_refuted.
Print Assumptions C35_quote_refuted.
Print Assumptions C35_number_string_refuted.
Print Assumptions C35_range_refuted.
Print Assumptions C35_bool_result_refuted.
