From Verif Require Import Prelude CstrModel CstrSpec CstrProofs CstrSearch CstrText PathModel PathSpec.
Open Scope Z_scope.

Lemma text_eqb_eq : forall a b, text_eqb a b = true <-> a = b.
Proof.
  induction a as [|x a IH]; intros [|y b]; cbn [text_eqb]; split; intros H; try discriminate; try reflexivity.
  - apply andb_true_iff in H as [E H]. apply Z.eqb_eq in E. apply IH in H. congruence.
  - injection H as -> ->. rewrite Z.eqb_refl. apply IH. reflexivity.
Qed.
Lemma node_eqb_eq : forall a b, node_eqb a b = true <-> a = b.
Proof.
  induction a as [|x a IH]; intros [|y b]; cbn [node_eqb]; split; intros H; try discriminate; try reflexivity.
  - apply andb_true_iff in H as [E H]. apply text_eqb_eq in E. apply IH in H. congruence.
  - injection H as -> ->. apply andb_true_iff. split; [apply text_eqb_eq|apply IH]; reflexivity.
Qed.
Lemma mem_in : forall n l, mem n l = true <-> In n l.
Proof.
  intros n l. unfold mem. rewrite existsb_exists. split.
  - intros (x & I & E). apply node_eqb_eq in E. subst. exact I.
  - intros I. exists n. split; [exact I|apply node_eqb_eq; reflexivity].
Qed.
Lemma mem_not : forall n l, mem n l = false <-> ~ In n l.
Proof. intros n l. rewrite <- mem_in. destruct (mem n l); split; congruence. Qed.

(** ** components *)
Lemma fields_notempty : forall d s, fields d s <> [].
Proof.
  intros d [|c s]; cbn [fields]; [discriminate|].
  destruct (existsb (Z.eqb c) d); [discriminate|]. destruct (fields d s); discriminate.
Qed.
Lemma fields_sep : forall a b, fields [47] (a ++ 47 :: b) = fields [47] a ++ fields [47] b.
Proof.
  induction a as [|c a IH]; intros b; cbn [app fields].
  - reflexivity.
  - rewrite IH. destruct (existsb (Z.eqb c) [47]); [reflexivity|].
    pose proof (fields_notempty [47] a). destruct (fields [47] a); [congruence|reflexivity].
Qed.
Lemma fields_one : forall a, ~ In 47 a -> fields [47] a = [a].
Proof.
  induction a as [|c a IH]; intros N; cbn [fields]; [reflexivity|].
  rewrite IH by (intro; apply N; right; assumption).
  cbn [existsb]. destruct (c =? 47) eqn:E; [exfalso; apply N; left; lia|reflexivity].
Qed.
Lemma comps_sep : forall a b, comps (a ++ 47 :: b) = comps a ++ comps b.
Proof. intros. unfold comps, PATH_SEPERATOR. rewrite fields_sep. apply filter_app. Qed.
Lemma comps_one : forall a, ~ In 47 a -> comps a = if nonempty a then [a] else [].
Proof. intros a N. unfold comps, PATH_SEPERATOR. rewrite fields_one by exact N. cbn [filter]. destruct (nonempty a); reflexivity. Qed.

(** a part of the path that ends at a separator (or is empty) *)
Definition cut (d : text) : Prop := d = [] \/ exists a, d = a ++ [47].
Lemma comps_cut : forall d s, cut d -> ~ In 47 s -> comps (d ++ s) = comps d ++ (if nonempty s then [s] else []).
Proof.
  intros d s [-> | (a & ->)] N.
  - cbn [app]. rewrite comps_one by exact N. reflexivity.
  - rewrite <- app_assoc. cbn [app]. rewrite comps_sep, comps_sep. rewrite (comps_one s) by exact N.
    change (comps []) with (@nil text). rewrite app_nil_r. reflexivity.
Qed.

Lemma start_app : forall cwd p q, p <> [] -> start cwd (p ++ q) = start cwd p.
Proof. intros cwd [|c p] q N; [congruence|reflexivity]. Qed.

(** ** following *)
Lemma follow_fold : forall f cs d n, follow f d cs = Some n -> n = fold_left enter cs d.
Proof.
  intros f cs. induction cs as [|c cs IH]; intros d n H; cbn [follow fold_left] in *; [congruence|].
  destruct (mem (enter d c) (dirs f)); [|discriminate]. apply IH. exact H.
Qed.
Lemma follow_app : forall f a b d, follow f d (a ++ b) =
  match follow f d a with Some n => follow f n b | None => None end.
Proof.
  intros f a. induction a as [|c a IH]; intros b d; cbn [follow app]; [reflexivity|].
  destruct (mem (enter d c) (dirs f)); [apply IH|reflexivity].
Qed.
Lemma follow_in : forall f cs d n, In d (dirs f) -> follow f d cs = Some n -> In n (dirs f).
Proof.
  intros f cs. induction cs as [|c cs IH]; intros d n I H; cbn [follow] in H; [congruence|].
  destruct (mem (enter d c) (dirs f)) eqn:M; [|discriminate]. apply mem_in in M. eapply IH; eassumption.
Qed.
Lemma follow_mono : forall f g cs d n, incl (dirs f) (dirs g) -> follow f d cs = Some n -> follow g d cs = Some n.
Proof.
  intros f g cs. induction cs as [|c cs IH]; intros d n I H; cbn [follow] in *; [exact H|].
  destruct (mem (enter d c) (dirs f)) eqn:M; [|discriminate].
  apply mem_in in M. apply I in M. apply mem_in in M. rewrite M. apply IH; assumption.
Qed.
Lemma start_in : forall f cwd p, sane f cwd -> In (start cwd p) (dirs f).
Proof. intros f cwd p (R & C & _). unfold start. destruct (absolute p); assumption. Qed.
Lemma enter_special : forall f cwd d c, sane f cwd -> In d (dirs f) -> special c = true -> In (enter d c) (dirs f).
Proof.
  intros f cwd d c (_ & _ & P) I S. unfold special in S. unfold enter.
  destruct (text_eqb c [46]); [exact I|]. cbn [orb] in S. rewrite S. apply P, I.
Qed.
Lemma enter_normal : forall d c, special c = false -> enter d c = d ++ [c].
Proof. intros d c S. unfold special in S. apply orb_false_iff in S as [A B]. unfold enter. rewrite A, B. reflexivity. Qed.

(** ** the system calls at a path whose last name is known *)
Lemma mkdir_at : forall f cwd p l x d, p <> [] -> zlen p < PATH_MAX -> comps p = l ++ [x] ->
  follow f (start cwd p) l = Some d ->
  mkdir f cwd p = if special x then MkExists
                  else if mem (d ++ [x]) (dirs f) || mem (d ++ [x]) (files f) then MkExists
                  else if deny f (d ++ [x]) then MkError
                  else MkOk {| dirs := (d ++ [x]) :: dirs f; files := files f; deny := deny f |}.
Proof.
  intros f cwd p l x d Np L C F. unfold mkdir.
  replace (nonempty p) with true by (destruct p; [congruence|reflexivity]).
  replace (zlen p <? PATH_MAX) with true by lia. cbn [negb andb]. rewrite C.
  destruct (l ++ [x]) as [|y m] eqn:E; [destruct l; discriminate|]. rewrite <- E.
  rewrite removelast_last, last_last, F. reflexivity.
Qed.
Lemma mkdir_root : forall f cwd p, p <> [] -> zlen p < PATH_MAX -> comps p = [] -> mkdir f cwd p = MkExists.
Proof.
  intros f cwd p Np L C. unfold mkdir. rewrite C.
  replace (nonempty p) with true by (destruct p; [congruence|reflexivity]).
  replace (zlen p <? PATH_MAX) with true by lia. reflexivity.
Qed.

(** what a mkdir(2) call tells and does *)
Lemma mkdir_spec : forall f cwd p, sane f cwd ->
  match mkdir f cwd p with
  | MkOk f' => sane f' cwd /\ files f' = files f /\ deny f' = deny f /\ dirs f' = node cwd p :: dirs f /\
               ~ In (node cwd p) (dirs f)
  | MkExists => In (node cwd p) (dirs f) \/ In (node cwd p) (files f)
  | MkError => True
  end.
Proof.
  intros f cwd p Sn.
  destruct p as [|c0 p0]; [exact Logic.I|].
  destruct (Z_lt_le_dec (zlen (c0 :: p0)) PATH_MAX) as [L|L].
  2:{ unfold mkdir. replace (zlen (c0 :: p0) <? PATH_MAX) with false by lia. rewrite andb_false_r. exact Logic.I. }
  set (p := c0 :: p0) in *. assert (Np : p <> []) by discriminate.
  destruct (snoc_cases (comps p)) as [C|(l & x & C)].
  - rewrite mkdir_root by assumption. left. unfold node. rewrite C. cbn [fold_left]. apply start_in. exact Sn.
  - assert (N0 : forall d, follow f (start cwd p) l = Some d -> node cwd p = enter d x).
    { intros d F. unfold node. rewrite C, fold_left_app. cbn [fold_left]. rewrite (follow_fold _ _ _ _ F). reflexivity. }
    destruct (follow f (start cwd p) l) as [d|] eqn:F.
    + rewrite (mkdir_at _ _ _ _ _ _ Np L C F). rewrite (N0 d eq_refl).
      assert (Id : In d (dirs f)) by (eapply follow_in; [apply start_in; exact Sn|exact F]).
      destruct (special x) eqn:Sp; [left; eapply enter_special; eassumption|].
      rewrite enter_normal by exact Sp.
      destruct (mem (d ++ [x]) (dirs f)) eqn:M1; [left; apply mem_in; exact M1|].
      destruct (mem (d ++ [x]) (files f)) eqn:M2; [right; apply mem_in; exact M2|]. cbn [orb].
      destruct (deny f (d ++ [x])); [exact Logic.I|].
      cbn [files deny dirs]. destruct Sn as (S1 & S2 & S3).
      split; [|repeat (split; [reflexivity|]); apply mem_not; exact M1].
      unfold sane. cbn [dirs]. split; [right; exact S1|]. split; [right; exact S2|].
      intros n [<-|I]; [right; rewrite removelast_last; exact Id|right; apply S3, I].
    + unfold mkdir. replace (nonempty p) with true by reflexivity.
      replace (zlen p <? PATH_MAX) with true by lia. cbn [negb andb].
      rewrite C. destruct (l ++ [x]) as [|y m] eqn:E; [destruct l; discriminate|]. rewrite <- E.
      rewrite removelast_last, F. exact Logic.I.
Qed.

(** ** finding the separators *)
Lemma occurs_sep : forall d rest k, rest <> [] -> occurs (d ++ rest) [47] (zlen d) (-1) k <->
  exists s r, rest = s ++ 47 :: r /\ k = zlen d + zlen s.
Proof.
  intros d rest k Nr. pose proof (zlen_nonneg d). pose proof (zlen_pos rest Nr). pose proof (zlen_app d rest).
  assert (Lo : low (zlen (d ++ rest)) (zlen d) (-1) = zlen d).
  { unfold low, index. destruct (zlen d <? 0) eqn:E; [lia|]. change (-1 <? 0) with true. cbv iota. lia. }
  assert (Hi : high (zlen (d ++ rest)) (zlen d) (-1) = zlen (d ++ rest) - 1).
  { unfold high, index. destruct (zlen d <? 0) eqn:E; [lia|]. change (-1 <? 0) with true. cbv iota. lia. }
  unfold occurs. fold (zlen (d ++ rest)). rewrite Lo, Hi. split.
  - intros (B1 & B2 & b & a & E & K). fold (zlen b) in K.
    exists (skipn (length d) b), a. assert (Lb : (length d <= length b)%nat) by (unfold zlen in *; lia).
    assert (F : firstn (length d) b = d).
    { assert (F : firstn (length d) (b ++ [47] ++ a) = firstn (length d) (d ++ rest)) by (rewrite E; reflexivity).
      rewrite (firstn_app _ b), (firstn_app _ d) in F. replace (length d - length b)%nat with 0%nat in F by lia.
      rewrite Nat.sub_diag in F. cbn [firstn] in F. rewrite !app_nil_r, firstn_all in F. exact F. }
    assert (Eb : b = d ++ skipn (length d) b) by (rewrite <- F at 1; symmetry; apply firstn_skipn).
    split.
    + rewrite Eb in E at 1. rewrite <- app_assoc in E. apply app_inv_head in E. exact E.
    + rewrite <- K. rewrite Eb at 1. apply zlen_app.
  - intros (s & r & -> & ->). pose proof (zlen_nonneg s). pose proof (zlen_nonneg r).
    pose proof (zlen_app s (47 :: r)). unfold zlen in *; cbn [length] in *. split; [lia|]. split; [lia|].
    exists (d ++ s), r. split; [rewrite <- app_assoc; reflexivity|rewrite app_length; lia].
Qed.
Lemma find_sep : forall d rest, rest <> [] ->
  (exists s r, rest = s ++ 47 :: r /\ ~ In 47 s /\
     zt_cstr_find (d ++ rest) (zlen d) (-1) PATH_SEPERATOR = Ok (zlen d + zlen s)) \/
  (~ In 47 rest /\ zt_cstr_find (d ++ rest) (zlen d) (-1) PATH_SEPERATOR = Ok (-1)).
Proof.
  intros d rest Nr. pose proof (zlen_nonneg d). pose proof (zlen_pos rest Nr). pose proof (zlen_app d rest).
  destruct (find_ok (d ++ rest) (zlen d) (-1) PATH_SEPERATOR) as (k & E & HR).
  - right. fold (zlen (d ++ rest)). lia.
  - repeat constructor; lia.
  - discriminate.
  - destruct HR as [(O & Hmin)|(-> & Hn)].
    + left. apply occurs_sep in O as (s & r & Es & Ek); [|exact Nr]. exists s, r. split; [exact Es|].
      split; [|rewrite <- Ek; exact E].
      intros I. apply in_split in I as (s1 & s2 & Ei).
      apply (Hmin (zlen d + zlen s1)).
      * rewrite Ek, Ei, zlen_app. pose proof (zlen_pos (47 :: s2) ltac:(discriminate)). lia.
      * apply occurs_sep; [exact Nr|]. exists s1, (s2 ++ 47 :: r). split; [|reflexivity].
        rewrite Es, Ei, <- app_assoc. reflexivity.
    + right. split; [|exact E]. intros I. apply in_split in I as (s1 & s2 & Ei).
      apply (Hn (zlen d + zlen s1)). apply occurs_sep; [exact Nr|]. exists s1, s2. split; [exact Ei|reflexivity].
Qed.

(** ** the loop over the parents: safety *)
Definition grown (cwd : list text) (path : text) (f f' : fs) : Prop :=
  sane f' cwd /\ files f' = files f /\ deny f' = deny f /\ incl (dirs f) (dirs f') /\
  forall n, In n (dirs f') -> In n (dirs f) \/ exists pre, leads path pre /\ n = node cwd pre.
Lemma grown_refl : forall cwd path f, sane f cwd -> grown cwd path f f.
Proof. intros. unfold grown. repeat (split; [first [assumption|reflexivity|apply incl_refl]|]). auto. Qed.
Lemma grown_trans : forall cwd path f g h, grown cwd path f g -> grown cwd path g h -> grown cwd path f h.
Proof.
  intros cwd path f g h (A1 & A2 & A3 & A4 & A5) (B1 & B2 & B3 & B4 & B5). unfold grown.
  split; [exact B1|]. split; [congruence|]. split; [congruence|]. split; [eapply incl_tran; eassumption|].
  intros n I. apply B5 in I as [I|I]; [apply A5, I|right; exact I].
Qed.
Lemma mkdir_grown : forall cwd path p f f', sane f cwd -> leads path p -> mkdir f cwd p = MkOk f' -> grown cwd path f f'.
Proof.
  intros cwd path p f f' Sn L E. pose proof (mkdir_spec f cwd p Sn) as H. rewrite E in H.
  destruct H as (A & B & C & D & _). unfold grown. repeat (split; [assumption|]). rewrite D.
  split; [intros x I; right; exact I|]. intros n [<-|I]; [right; exists p; auto|left; exact I].
Qed.

Lemma parents_total : forall fuel cwd path d rest f, path = d ++ rest -> (length rest <= fuel)%nat ->
  zlen path <= PATH_MAX + 1 -> sane f cwd ->
  exists go f', parents fuel f cwd path (zlen d) = Ok (go, f') /\ grown cwd path f f'.
Proof.
  induction fuel as [|fuel IH]; intros cwd path d rest f -> Lf Lm Sn.
  - destruct rest; [|cbn [length] in Lf; lia]. rewrite app_nil_r. exists true, f. cbn [parents].
    rewrite Z.ltb_irrefl. split; [reflexivity|apply grown_refl, Sn].
  - destruct rest as [|c0 r0].
    { rewrite app_nil_r. exists true, f. cbn [parents]. rewrite Z.ltb_irrefl. split; [reflexivity|apply grown_refl, Sn]. }
    set (rest := c0 :: r0) in *. assert (Nr : rest <> []) by discriminate.
    pose proof (zlen_pos rest Nr). pose proof (zlen_nonneg d). pose proof (zlen_app d rest) as La.
    cbn [parents]. replace (zlen d <? zlen (d ++ rest)) with true by lia.
    destruct (find_sep d rest Nr) as [(s & r & Es & Ns & ->)|(Ns & ->)]; cbn [obind].
    2:{ rewrite Z.eqb_refl. exists true, f. split; [reflexivity|apply grown_refl, Sn]. }
    pose proof (zlen_nonneg s). replace (zlen d + zlen s =? -1) with false by lia.
    assert (Lr : zlen rest = zlen s + zlen r + 1) by (rewrite Es, zlen_app; unfold zlen; cbn [length]; lia).
    pose proof (zlen_nonneg r).
    replace (zlen d + zlen s <=? PATH_MAX) with true by lia. cbn [safe obind]. cbv zeta.
    change (zlen PATH_SEPERATOR) with 1.
    assert (Ep : d ++ rest = (d ++ s ++ [47]) ++ r) by (rewrite Es, <- !app_assoc; reflexivity).
    assert (Ld : zlen (d ++ s ++ [47]) = zlen d + zlen s + 1) by (rewrite !zlen_app; unfold zlen; cbn [length]; lia).
    assert (Ec : firstn (Z.to_nat (zlen d + zlen s)) (d ++ rest) = d ++ s).
    { rewrite Es, app_assoc. replace (Z.to_nat (zlen d + zlen s)) with (length (d ++ s)) by (rewrite app_length; unfold zlen; lia).
      rewrite firstn_app, Nat.sub_diag, firstn_all. cbn [firstn]. apply app_nil_r. }
    rewrite Ec.
    assert (Ll : leads (d ++ rest) (d ++ s)) by (right; exists r; rewrite Es, <- app_assoc; reflexivity).
    assert (Lfr : (length r <= fuel)%nat) by (unfold zlen in *; lia).
    rewrite <- Ld.
    destruct ((zlen (d ++ s ++ [47]) =? 1) || stat f cwd (d ++ s)).
    + apply (IH cwd (d ++ rest) _ r f Ep Lfr Lm Sn).
    + destruct (mkdir f cwd (d ++ s)) as [f1| |] eqn:M.
      * pose proof (mkdir_grown cwd (d ++ rest) _ _ _ Sn Ll M) as G.
        destruct (IH cwd (d ++ rest) _ r f1 Ep Lfr Lm (proj1 G)) as (go & f2 & E2 & G2).
        exists go, f2. split; [exact E2|eapply grown_trans; eassumption].
      * exists false, f. split; [reflexivity|apply grown_refl, Sn].
      * exists false, f. split; [reflexivity|apply grown_refl, Sn].
Qed.

(** what any returning zt_mkdir did *)
Lemma zt_mkdir_safe : forall fuel cwd path flag f r f', sane f cwd -> zlen path <= PATH_MAX + 1 ->
  zt_mkdir fuel f cwd path flag = Ok (r, f') ->
  grown cwd path f f' /\ (r = 0 \/ r = -1) /\
  (r = 0 -> In (node cwd path) (dirs f') \/ In (node cwd path) (files f')).
Proof.
  induction fuel as [|fuel IH]; intros cwd path flag f r f' Sn Lm E.
  all: cbn [zt_mkdir] in E; pose proof (mkdir_spec f cwd path Sn) as Sp;
    destruct (mkdir f cwd path) as [f1| |] eqn:M.
  all: try (injection E as <- <-; split; [eapply mkdir_grown; [exact Sn|left; reflexivity|exact M]|];
            split; [left; reflexivity|]; intros _; destruct Sp as (_ & _ & _ & -> & _); left; left; reflexivity).
  all: try (injection E as <- <-; split; [apply grown_refl, Sn|]; split; [left; reflexivity|]; intros _; exact Sp).
  all: destruct flag; cbn [negb] in E;
    [|injection E as <- <-; split; [apply grown_refl, Sn|]; split; [right; reflexivity|discriminate]].
  all: destruct (parents_total (length path) cwd path [] path f eq_refl ltac:(lia) Lm Sn) as (go & f1 & Ep & G);
    change (zlen (@nil Z)) with 0 in Ep; rewrite Ep in E; cbn [obind] in E; destruct go.
  - discriminate.
  - injection E as <- <-. split; [exact G|]. split; [right; reflexivity|discriminate].
  - destruct (IH cwd path true f1 r f' (proj1 G) Lm E) as (G2 & R).
    split; [eapply grown_trans; eassumption|exact R].
  - injection E as <- <-. split; [exact G|]. split; [right; reflexivity|discriminate].
Qed.

(** ** creation *)
Definition reached (f : fs) (cwd : list text) (path d : text) : Prop :=
  follow f (start cwd path) (comps d) = Some (fold_left enter (comps d) (start cwd path)).
Lemma possible_grown : forall cwd path f f', grown cwd path f f' -> possible f cwd path -> possible f' cwd path.
Proof.
  intros cwd path f f' (_ & Ef & Ed & In_ & _) P pre L. destruct (P pre L) as (A & B). rewrite Ef, Ed.
  split; [exact A|]. destruct B as [B|B]; [left; apply In_, B|right; exact B].
Qed.
Lemma reached_mono : forall cwd path f f' d, incl (dirs f) (dirs f') -> reached f cwd path d -> reached f' cwd path d.
Proof. intros. unfold reached in *. eapply follow_mono; eassumption. Qed.
Lemma stat_at : forall f cwd p l x d, p <> [] -> zlen p < PATH_MAX -> comps p = l ++ [x] ->
  follow f (start cwd p) l = Some d ->
  stat f cwd p = mem (enter d x) (dirs f) || (mem (enter d x) (files f) && negb (ends_slash p)).
Proof.
  intros f cwd p l x d Np L C F. unfold stat.
  replace (nonempty p) with true by (destruct p; [congruence|reflexivity]).
  replace (zlen p <? PATH_MAX) with true by lia. cbn [andb]. rewrite C.
  destruct (l ++ [x]) as [|y m] eqn:E; [destruct l; discriminate|]. rewrite <- E.
  rewrite removelast_last, last_last, F. reflexivity.
Qed.
Lemma stat_reached : forall f cwd p, p <> [] -> zlen p < PATH_MAX -> 
  follow f (start cwd p) (comps p) = Some (node cwd p) -> stat f cwd p = true.
Proof.
  intros f cwd p Np L F. destruct (snoc_cases (comps p)) as [C|(l & x & C)].
  - unfold stat. rewrite C. destruct p; [congruence|]. cbn [nonempty]. lia.
  - rewrite C, follow_app in F. destruct (follow f (start cwd p) l) as [d|] eqn:Fl; [|discriminate].
    rewrite (stat_at _ _ _ _ _ _ Np L C Fl). cbn [follow] in F.
    destruct (mem (enter d x) (dirs f)); [reflexivity|discriminate].
Qed.

Lemma parents_create : forall fuel cwd path d rest f, path = d ++ rest -> (length rest <= fuel)%nat ->
  zlen path < PATH_MAX -> sane f cwd -> cut d -> reached f cwd path d -> possible f cwd path ->
  exists f', parents fuel f cwd path (zlen d) = Ok (true, f') /\ grown cwd path f f' /\
    exists p q, path = p ++ q /\ cut p /\ ~ In 47 q /\ reached f' cwd path p.
Proof.
  induction fuel as [|fuel IH]; intros cwd path d rest f -> Lf Lm Sn Cd Rd Po.
  - destruct rest; [|cbn [length] in Lf; lia]. rewrite app_nil_r in *. exists f. cbn [parents].
    rewrite Z.ltb_irrefl. split; [reflexivity|]. split; [apply grown_refl, Sn|].
    exists d, []. rewrite app_nil_r. auto.
  - destruct rest as [|c0 r0].
    { rewrite app_nil_r in *. exists f. cbn [parents]. rewrite Z.ltb_irrefl. split; [reflexivity|].
      split; [apply grown_refl, Sn|]. exists d, []. rewrite app_nil_r. auto. }
    set (rest := c0 :: r0) in *. assert (Nr : rest <> []) by discriminate.
    pose proof (zlen_pos rest Nr). pose proof (zlen_nonneg d). pose proof (zlen_app d rest) as La.
    cbn [parents]. replace (zlen d <? zlen (d ++ rest)) with true by lia.
    destruct (find_sep d rest Nr) as [(s & r & Es & Ns & ->)|(Ns & ->)]; cbn [obind].
    2:{ rewrite Z.eqb_refl. exists f. split; [reflexivity|]. split; [apply grown_refl, Sn|].
        exists d, rest. auto. }
    pose proof (zlen_nonneg s). replace (zlen d + zlen s =? -1) with false by lia.
    assert (Lr : zlen rest = zlen s + zlen r + 1) by (rewrite Es, zlen_app; unfold zlen; cbn [length]; lia).
    pose proof (zlen_nonneg r).
    replace (zlen d + zlen s <=? PATH_MAX) with true by lia. cbn [safe obind]. cbv zeta.
    change (zlen PATH_SEPERATOR) with 1.
    assert (Ep : d ++ rest = (d ++ s ++ [47]) ++ r) by (rewrite Es, <- !app_assoc; reflexivity).
    assert (Ld : zlen (d ++ s ++ [47]) = zlen d + zlen s + 1) by (rewrite !zlen_app; unfold zlen; cbn [length]; lia).
    assert (Ec : firstn (Z.to_nat (zlen d + zlen s)) (d ++ rest) = d ++ s).
    { rewrite Es, app_assoc. replace (Z.to_nat (zlen d + zlen s)) with (length (d ++ s)) by (rewrite app_length; unfold zlen; lia).
      rewrite firstn_app, Nat.sub_diag, firstn_all. cbn [firstn]. apply app_nil_r. }
    rewrite Ec.
    assert (Ll : leads (d ++ rest) (d ++ s)) by (right; exists r; rewrite Es, <- app_assoc; reflexivity).
    assert (Lfr : (length r <= fuel)%nat) by (unfold zlen in *; lia).
    assert (Cd' : cut (d ++ s ++ [47])) by (right; exists (d ++ s); rewrite app_assoc; reflexivity).
    assert (Cs : comps (d ++ s ++ [47]) = comps (d ++ s)).
    { rewrite app_assoc, comps_sep. change (comps []) with (@nil text). apply app_nil_r. }
    assert (Cds : comps (d ++ s) = comps d ++ (if nonempty s then [s] else [])) by (apply comps_cut; assumption).
    assert (Lds : zlen (d ++ s) < PATH_MAX) by (rewrite zlen_app; lia).
    rewrite <- Ld.
    (* the two ways on *)
    assert (Go : forall f1, grown cwd (d ++ rest) f f1 -> reached f1 cwd (d ++ rest) (d ++ s) ->
       exists f', parents fuel f1 cwd (d ++ rest) (zlen (d ++ s ++ [47])) = Ok (true, f') /\ grown cwd (d ++ rest) f f' /\
       exists p q, d ++ rest = p ++ q /\ cut p /\ ~ In 47 q /\ reached f' cwd (d ++ rest) p).
    { intros f1 G1 R1. destruct (IH cwd (d ++ rest) (d ++ s ++ [47]) r f1 Ep Lfr Lm (proj1 G1) Cd') as (f2 & E2 & G2 & X).
      - unfold reached. rewrite Cs. exact R1.
      - eapply possible_grown; eassumption.
      - exists f2. split; [exact E2|]. split; [eapply grown_trans; eassumption|exact X]. }
    destruct (zlen (d ++ s ++ [47]) =? 1) eqn:E1.
    { cbn [orb]. apply Go; [apply grown_refl, Sn|].
      assert (d = []) by (destruct d; [reflexivity|exfalso; unfold zlen in *; cbn [length] in *; lia]).
      assert (s = []) by (destruct s; [reflexivity|exfalso; unfold zlen in *; cbn [length] in *; lia]).
      subst d s. reflexivity. }
    cbn [orb].
    assert (Nds : d ++ s <> []).
    { intros E0. apply app_eq_nil in E0 as [-> ->]. discriminate E1. }
    assert (St : start cwd (d ++ rest) = start cwd (d ++ s)).
    { rewrite Es, app_assoc. apply start_app. exact Nds. }
    assert (Nd : node cwd (d ++ s) = fold_left enter (comps (d ++ s)) (start cwd (d ++ rest))) by (unfold node; rewrite St; reflexivity).
    assert (Rup : forall f1, incl (dirs f) (dirs f1) -> In (node cwd (d ++ s)) (dirs f1) -> reached f1 cwd (d ++ rest) (d ++ s)).
    { intros f1 I1 I2. pose proof (reached_mono _ _ _ _ _ I1 Rd) as R1. unfold reached in *.
      rewrite Nd in I2. rewrite Cds in *.
      rewrite follow_app, R1. destruct (nonempty s).
      - cbn [follow]. rewrite fold_left_app in *. cbn [fold_left] in *. apply mem_in in I2. rewrite I2. reflexivity.
      - cbn [follow]. rewrite app_nil_r. reflexivity. }
    destruct (Po _ Ll) as (Nf & Dd).
    destruct (stat f cwd (d ++ s)) eqn:Es1.
    + apply Go; [apply grown_refl, Sn|]. apply Rup; [apply incl_refl|].
      destruct (nonempty s) eqn:Ne.
      * assert (F0 : follow f (start cwd (d ++ s)) (comps d) = Some (fold_left enter (comps d) (start cwd (d ++ s)))).
        { rewrite <- St. exact Rd. }
        rewrite (stat_at _ _ _ _ _ _ Nds Lds Cds F0) in Es1.
        assert (En : node cwd (d ++ s) = enter (fold_left enter (comps d) (start cwd (d ++ s))) s).
        { unfold node. rewrite Cds, fold_left_app. reflexivity. }
        rewrite <- En in Es1. apply orb_true_iff in Es1 as [E|E]; [apply mem_in, E|].
        apply andb_true_iff in E as [E _]. apply mem_in in E. contradiction.
      * rewrite Nd, Cds, app_nil_r. eapply follow_in; [apply start_in, Sn|exact Rd].
    + (* must be created *)
      assert (Hn : ~ In (node cwd (d ++ s)) (dirs f)).
      { intros I. rewrite stat_reached in Es1; [discriminate|exact Nds|exact Lds|].
        pose proof (Rup f (incl_refl _) I) as R1. unfold reached in R1. rewrite Nd, <- St. exact R1. }
      destruct (nonempty s) eqn:Ne.
      2:{ exfalso. apply Hn. rewrite Nd, Cds, app_nil_r. eapply follow_in; [apply start_in, Sn|exact Rd]. }
      assert (F0 : follow f (start cwd (d ++ s)) (comps d) = Some (fold_left enter (comps d) (start cwd (d ++ s)))).
      { rewrite <- St. exact Rd. }
      assert (En : node cwd (d ++ s) = enter (fold_left enter (comps d) (start cwd (d ++ s))) s).
      { unfold node. rewrite Cds, fold_left_app. reflexivity. }
      pose proof (mkdir_at _ _ _ _ _ _ Nds Lds Cds F0) as M.
      destruct (special s) eqn:Sp.
      { exfalso. apply Hn. rewrite En. eapply enter_special; [exact Sn| |exact Sp].
        eapply follow_in; [apply start_in, Sn|exact F0]. }
      rewrite <- (enter_normal _ _ Sp), <- En in M.
      destruct Dd as [Dd|Dd]; [contradiction|].
      apply mem_not in Hn. apply mem_not in Nf. rewrite Hn, Nf, Dd in M. cbn [orb] in M.
      rewrite M. apply Go.
      * eapply mkdir_grown; [exact Sn|exact Ll|exact M].
      * apply Rup; [intros y I; right; exact I|left; reflexivity].
Qed.

(** after the parents exist the directory itself can be made *)
Lemma mkdir_final : forall f cwd path p q, path = p ++ q -> path <> [] -> zlen path < PATH_MAX -> sane f cwd ->
  cut p -> ~ In 47 q -> reached f cwd path p -> possible f cwd path ->
  mkdir f cwd path <> MkError.
Proof.
  intros f cwd path p q E Np L Sn C N R Po M.
  assert (Cq : comps path = comps p ++ (if nonempty q then [q] else [])) by (rewrite E; apply comps_cut; assumption).
  destruct (Po path (or_introl eq_refl)) as (Nf & Dd).
  destruct (nonempty q).
  - rewrite (mkdir_at _ _ _ _ _ _ Np L Cq R) in M.
    assert (En : node cwd path = enter (fold_left enter (comps p) (start cwd path)) q).
    { unfold node. rewrite Cq, fold_left_app. reflexivity. }
    destruct (special q) eqn:Sp; [discriminate|]. rewrite <- (enter_normal _ _ Sp), <- En in M.
    apply mem_not in Nf. rewrite Nf, orb_false_r in M.
    destruct (mem (node cwd path) (dirs f)) eqn:Me; [discriminate|].
    destruct Dd as [Dd|Dd]; [apply mem_in in Dd; congruence|]. rewrite Dd in M. discriminate.
  - rewrite app_nil_r in Cq. unfold reached in R. rewrite <- Cq in R.
    destruct (snoc_cases (comps path)) as [C0|(l & x & C0)].
    + rewrite mkdir_root in M by assumption. discriminate.
    + pose proof R as R'. rewrite C0 in R at 1. rewrite follow_app in R.
      destruct (follow f (start cwd path) l) as [d|] eqn:Fl; [|discriminate].
      rewrite (mkdir_at _ _ _ _ _ _ Np L C0 Fl) in M. cbn [follow] in R.
      destruct (special x) eqn:Sp; [discriminate|]. rewrite enter_normal in R by exact Sp.
      destruct (mem (d ++ [x]) (dirs f)); [cbn [orb] in M; discriminate|discriminate].
Qed.
