(** C42: zt_find_basedir, zt_mkdir, zt_path_exists.  Model: PathModel.v; vocabulary: PathSpec.v. *)
From Verif Require Import Prelude CstrModel CstrSpec CstrProofs CstrText PathModel PathSpec PathProofs.
Open Scope Z_scope.

(** ** zt_find_basedir *)
Lemma last_sep : forall (s : text), ~ In 47 s \/ exists d b, s = d ++ 47 :: b /\ ~ In 47 b.
Proof.
  induction s as [|c s [IH|(d & b & -> & N)]]; [left; intros []| |right; exists (c :: d), b; auto].
  destruct (Z.eq_dec c 47) as [->|E]; [right; exists [], s; auto|]. left. intros [|I]; [congruence|auto].
Qed.
Lemma leads_sep : forall d b p, ~ In 47 b -> leads (d ++ 47 :: b) p <-> p = d ++ 47 :: b \/ leads d p.
Proof.
  intros d b p N. unfold leads. split.
  - intros [->|(q & E)]; [left; reflexivity|]. right.
    revert p E. induction d as [|c d IH]; intros [|x p] E; cbn [app] in *.
    + left. reflexivity.
    + injection E as <- E. exfalso. apply N. rewrite E. apply in_or_app. right. left. reflexivity.
    + injection E as -> E. right. exists d. reflexivity.
    + injection E as <- E. destruct (IH p E) as [->|(q' & ->)]; [left; reflexivity|right; exists q'; reflexivity].
  - intros [->|[->|(q & ->)]]; [left; reflexivity|right; exists b; reflexivity|].
    right. exists (q ++ 47 :: b). rewrite <- app_assoc. reflexivity.
Qed.
Lemma leads_none : forall s p, ~ In 47 s -> leads s p -> p = s.
Proof.
  intros s p N [->|(q & ->)]; [reflexivity|]. exfalso. apply N. apply in_or_app. right. left. reflexivity.
Qed.
Lemma leads_len : forall s p, leads s p -> zlen p <= zlen s.
Proof.
  intros s p [->|(q & ->)]; [lia|]. rewrite zlen_app. pose proof (zlen_nonneg (47 :: q)). lia.
Qed.

(** The result is the longest of the directories of the path (the path itself, then what is left
    of each of its slashes) that holds the trigger, written with a final slash; NULL when none does. *)
Theorem C42_find_basedir : forall (ex : text -> bool) path trigger,
  zlen path + 1 + zlen trigger <= PATH_MAX ->
  exists r, zt_find_basedir ex path trigger = Ok r /\
    match r with
    | Some base => exists p, leads path p /\ base = p ++ [47] /\ ex (p ++ 47 :: trigger) = true /\
                     forall p', leads path p' -> zlen p < zlen p' -> ex (p' ++ 47 :: trigger) = false
    | None => forall p, leads path p -> ex (p ++ 47 :: trigger) = false
    end.
Proof.
  intros ex path trigger L. pose proof (zlen_nonneg path). pose proof (zlen_nonneg trigger).
  unfold zt_find_basedir. replace (zlen path <=? PATH_MAX) with true by lia. cbn [safe obind].
  assert (G : forall fuel path, (length path < fuel)%nat -> zlen path + 1 + zlen trigger <= PATH_MAX ->
    exists r, basedir_loop fuel ex path trigger = Ok r /\
    match r with
    | Some base => exists p, leads path p /\ base = p ++ [47] /\ ex (p ++ 47 :: trigger) = true /\
                     forall p', leads path p' -> zlen p < zlen p' -> ex (p' ++ 47 :: trigger) = false
    | None => forall p, leads path p -> ex (p ++ 47 :: trigger) = false
    end).
  2:{ apply G; [lia|exact L]. }
  clear path L H. induction fuel as [|fuel IH]; intros path Lf L; [lia|]. cbn [basedir_loop]. cbv zeta.
  assert (T : firstn (Z.to_nat PATH_MAX) (path ++ PATH_SEPERATOR ++ trigger) = path ++ 47 :: trigger).
  { apply firstn_all2. rewrite !app_length. cbn [length]. unfold zlen in *. lia. }
  rewrite T.
  destruct (ex (path ++ 47 :: trigger)) eqn:E.
  { eexists. split; [reflexivity|]. cbv beta iota. exists path. split; [left; reflexivity|]. split; [reflexivity|].
    split; [exact E|]. intros p' Lp Hl. apply leads_len in Lp. lia. }
  destruct (last_sep path) as [N|(d & b & -> & N)].
  - assert (X : exists r, (if zlen path =? 0 then Ok None else
       offt <- zt_cstr_rfind path 0 (-1) PATH_SEPERATOR ;;
       (if offt =? -1 then Ok None else basedir_loop fuel ex (firstn (Z.to_nat offt) path) trigger)) = Ok r /\ r = None).
    { exists None. split; [|reflexivity]. destruct (zlen path =? 0); [reflexivity|].
      rewrite rfind_no_sep by exact N. reflexivity. }
    destruct X as (r & Er & ->). exists None. split; [exact Er|].
    intros p Lp. apply leads_none in Lp; [|exact N]. subst. exact E.
  - assert (Lz : zlen (d ++ 47 :: b) = zlen d + zlen b + 1) by (rewrite zlen_app; unfold zlen; cbn [length]; lia).
    pose proof (zlen_nonneg d). pose proof (zlen_nonneg b).
    replace (zlen (d ++ 47 :: b) =? 0) with false by lia. rewrite rfind_last_sep by exact N. cbn [obind].
    replace (zlen d =? -1) with false by lia.
    replace (firstn (Z.to_nat (zlen d)) (d ++ 47 :: b)) with d.
    2:{ replace (Z.to_nat (zlen d)) with (length d) by (unfold zlen; lia).
        rewrite firstn_app, Nat.sub_diag, firstn_all. cbn [firstn]. rewrite app_nil_r. reflexivity. }
    destruct (IH d) as (r & Er & Sp); [rewrite app_length in Lf; cbn [length] in Lf; lia|lia|].
    exists r. split; [exact Er|]. destruct r as [base|].
    + destruct Sp as (p & Lp & Eb & Ex & Mx). exists p. split; [apply leads_sep; auto|]. split; [exact Eb|]. split; [exact Ex|].
      intros p' Lp' Hl. apply leads_sep in Lp'; [|exact N]. destruct Lp' as [->|Lp']; [exact E|apply Mx; assumption].
    + intros p Lp. apply leads_sep in Lp; [|exact N]. destruct Lp as [->|Lp]; [exact E|apply Sp, Lp].
Qed.

(** A path longer than the buffers is undefined behaviour. *)
Theorem C42_find_basedir_long_refuted : forall ex path trigger, PATH_MAX < zlen path ->
  zt_find_basedir ex path trigger = UB.
Proof. intros. unfold zt_find_basedir. replace (zlen path <=? PATH_MAX) with false by lia. reflexivity. Qed.

(** ** zt_mkdir *)

(** With parent creation, when nothing prevents it: success; exactly the directories the path leads
    through (and those that were there) exist; files are untouched. *)
Theorem C42_mkdir_creates : forall f cwd path, sane f cwd -> path <> [] -> zlen path < PATH_MAX ->
  possible f cwd path ->
  exists f', (forall fuel, zt_mkdir (S fuel) f cwd path true = Ok (0, f')) /\
    files f' = files f /\
    (forall n, In n (dirs f') <-> In n (dirs f) \/ exists pre, leads path pre /\ n = node cwd pre) /\
    zt_path_exists f' cwd path = 0.
Proof.
  intros f cwd path Sn Np L Po.
  assert (X : exists f', (forall fuel, zt_mkdir (S fuel) f cwd path true = Ok (0, f')) /\ grown cwd path f f' /\
      mkdir f' cwd path = MkExists).
  { assert (Ex : forall g h, sane g cwd -> possible g cwd path -> mkdir g cwd path = MkOk h -> mkdir h cwd path = MkExists).
    { intros g h Sg Pg M. destruct (snoc_cases (comps path)) as [C|(l & x & C)].
      - rewrite mkdir_root in M by assumption. discriminate.
      - destruct (follow g (start cwd path) l) as [d|] eqn:F.
        + rewrite (mkdir_at _ _ _ _ _ _ Np L C F) in M. destruct (special x) eqn:Sp; [discriminate|].
          destruct (mem (d ++ [x]) (dirs g) || mem (d ++ [x]) (files g)); [discriminate|].
          destruct (deny g (d ++ [x])); [discriminate|]. injection M as <-.
          rewrite (mkdir_at _ _ _ l x d Np L C).
          * rewrite Sp. cbn [dirs]. replace (mem (d ++ [x]) ((d ++ [x]) :: dirs g)) with true; [reflexivity|].
            symmetry. apply mem_in. left. reflexivity.
          * eapply follow_mono; [|exact F]. intros y I. right. exact I.
        + exfalso. unfold mkdir in M. rewrite C in M. destruct (negb _); [discriminate|].
          destruct (l ++ [x]) as [|y m] eqn:E; [destruct l; discriminate|]. rewrite <- E in M.
          rewrite removelast_last, F in M. discriminate. }
    destruct (mkdir f cwd path) as [f1| |] eqn:M.
    - exists f1. split; [intros; cbn [zt_mkdir]; rewrite M; reflexivity|].
      split; [eapply mkdir_grown; [exact Sn|left; reflexivity|exact M]|eapply Ex; eassumption].
    - exists f. split; [intros; cbn [zt_mkdir]; rewrite M; reflexivity|]. split; [apply grown_refl, Sn|exact M].
    - destruct (parents_create (length path) cwd path [] path f eq_refl ltac:(lia) L Sn (or_introl eq_refl) eq_refl Po)
        as (f1 & Ep & G & p & q & E & C & N & R).
      change (zlen (@nil Z)) with 0 in Ep.
      pose proof (possible_grown _ _ _ _ G Po) as Po1.
      pose proof (mkdir_final f1 cwd path p q E Np L (proj1 G) C N R Po1) as Fin.
      destruct (mkdir f1 cwd path) as [f2| |] eqn:M2; [| |congruence].
      + exists f2. split.
        * intros fuel. cbn [zt_mkdir]. rewrite M. cbn [negb]. rewrite Ep. cbn [obind]. destruct fuel; cbn [zt_mkdir]; rewrite M2; reflexivity.
        * split; [|eapply Ex; [exact (proj1 G)|exact Po1|exact M2]].
          eapply grown_trans; [exact G|]. eapply mkdir_grown; [exact (proj1 G)|left; reflexivity|exact M2].
      + exists f1. split; [|split; [exact G|exact M2]].
        intros fuel. cbn [zt_mkdir]. rewrite M. cbn [negb]. rewrite Ep. cbn [obind]. destruct fuel; cbn [zt_mkdir]; rewrite M2; reflexivity. }
  destruct X as (f' & E & G & M). exists f'. split; [exact E|].
  pose proof G as (Sn' & Ef & Ed & Inc & Only). split; [exact Ef|].
  (* everything the path leads through is there *)
  pose proof (possible_grown _ _ _ _ G Po) as Po'.
  assert (Tgt : follow f' (start cwd path) (comps path) = Some (node cwd path)).
  { destruct (snoc_cases (comps path)) as [C|(l & x & C)].
    - unfold node. rewrite C. reflexivity.
    - destruct (follow f' (start cwd path) l) as [d|] eqn:F.
      + assert (En : node cwd path = enter d x).
        { unfold node. rewrite C, fold_left_app. cbn [fold_left]. rewrite (follow_fold _ _ _ _ F). reflexivity. }
        rewrite C, follow_app, F. cbn [follow]. rewrite <- En.
        pose proof (mkdir_spec f' cwd path Sn') as Sp. rewrite M in Sp.
        destruct Sp as [I|I]; [apply mem_in in I; rewrite I; reflexivity|].
        exfalso. apply (proj1 (Po' path (or_introl eq_refl)) I).
      + exfalso. unfold mkdir in M. rewrite C in M.
        replace (nonempty path) with true in M by (destruct path; [congruence|reflexivity]).
        replace (zlen path <? PATH_MAX) with true in M by lia. cbn [negb andb] in M.
        destruct (l ++ [x]) as [|y m] eqn:E0; [destruct l; discriminate|]. rewrite <- E0 in M.
        rewrite removelast_last, F in M. discriminate. }
  split.
  - intros n. split; [apply Only|]. intros [I|(pre & Lp & ->)]; [apply Inc, I|].
    destruct Lp as [->|(post & Epath)].
    + eapply follow_in; [apply start_in, Sn'|exact Tgt].
    + destruct pre as [|c pre].
      { unfold node. cbn. apply (proj1 (proj2 Sn')). }
      rewrite Epath, comps_sep, start_app, follow_app in Tgt by discriminate.
      destruct (follow f' (start cwd (c :: pre)) (comps (c :: pre))) as [d|] eqn:F; [|discriminate].
      assert (d = node cwd (c :: pre)) by (unfold node; apply (follow_fold _ _ _ _ F)). subst d.
      eapply follow_in; [apply start_in, Sn'|exact F].
  - unfold zt_path_exists. rewrite stat_reached by assumption. reflexivity.
Qed.

(** Whatever the state of the file system: when zt_mkdir returns, it returned 0 or -1, no file
    changed, no directory vanished, only directories the path leads through were added, and 0 means
    that the path's name exists. *)
Theorem C42_mkdir_safe : forall fuel f cwd path flag r f', sane f cwd -> zlen path <= PATH_MAX + 1 ->
  zt_mkdir fuel f cwd path flag = Ok (r, f') ->
  (r = 0 \/ r = -1) /\ files f' = files f /\ incl (dirs f) (dirs f') /\
  (forall n, In n (dirs f') -> In n (dirs f) \/ exists pre, leads path pre /\ n = node cwd pre) /\
  (r = 0 -> In (node cwd path) (dirs f') \/ In (node cwd path) (files f')).
Proof.
  intros fuel f cwd path flag r f' Sn L E.
  destruct (zt_mkdir_safe _ _ _ _ _ _ _ Sn L E) as ((_ & A & _ & B & C) & R & D). repeat (split; [assumption|]). exact D.
Qed.

(** Without parent creation it is one mkdir(2): it always returns; it returns -1 and changes nothing
    when the parent is missing. *)
Theorem C42_mkdir_single : forall fuel f cwd path, sane f cwd ->
  exists r f', zt_mkdir fuel f cwd path false = Ok (r, f') /\
    (dirs f' = dirs f \/ dirs f' = node cwd path :: dirs f) /\ (r = -1 -> f' = f) /\
    (forall p s, path = p ++ 47 :: s -> p <> [] -> s <> [] -> ~ In 47 s -> ~ In (node cwd p) (dirs f) -> r = -1).
Proof.
  intros fuel f cwd path Sn. pose proof (mkdir_spec f cwd path Sn) as Sp.
  assert (Miss : forall p s, path = p ++ 47 :: s -> p <> [] -> s <> [] -> ~ In 47 s -> ~ In (node cwd p) (dirs f) -> mkdir f cwd path = MkError).
  { intros p s E Np Ns N Hn. unfold mkdir. destruct (negb _); [reflexivity|].
    assert (C : comps path = comps p ++ [s]).
    { rewrite E, comps_sep, (comps_one s) by exact N. destruct s; [congruence|reflexivity]. }
    rewrite C. destruct (comps p ++ [s]) as [|y m] eqn:E0; [destruct (comps p); discriminate|]. rewrite <- E0.
    rewrite removelast_last, E, start_app by exact Np.
    destruct (follow f (start cwd p) (comps p)) as [d|] eqn:F; [|reflexivity].
    exfalso. apply Hn. unfold node. rewrite <- (follow_fold _ _ _ _ F). eapply follow_in; [apply start_in, Sn|exact F]. }
  destruct (mkdir f cwd path) as [f1| |] eqn:M.
  - exists 0, f1. destruct fuel; cbn [zt_mkdir]; rewrite M. all: split; [reflexivity|]; destruct Sp as (_ & _ & _ & -> & _).
    all: split; [right; reflexivity|]; split; [discriminate|]; intros; exfalso.
    all: assert (X : MkOk f1 = MkError) by (eapply Miss; eassumption); discriminate X.
  - exists 0, f. destruct fuel; cbn [zt_mkdir]; rewrite M. all: split; [reflexivity|]; split; [left; reflexivity|]; split; [discriminate|].
    all: intros; exfalso; assert (X : MkExists = MkError) by (eapply Miss; eassumption); discriminate X.
  - exists (-1), f. destruct fuel; cbn [zt_mkdir]; rewrite M. all: split; [reflexivity|]; split; [left; reflexivity|]; split; reflexivity.
Qed.

(** A name that exists already (zt_path_exists says so): success at once, nothing changes. *)
Theorem C42_mkdir_existing : forall fuel f cwd path flag,
  zt_path_exists f cwd path = 0 -> zt_mkdir fuel f cwd path flag = Ok (0, f).
Proof.
  intros fuel f cwd path flag E. unfold zt_path_exists in E. destruct (stat f cwd path) eqn:St; [clear E|discriminate].
  assert (M : mkdir f cwd path = MkExists).
  { unfold stat in St. apply andb_true_iff in St as [G St]. apply andb_true_iff in G as [Np L].
    assert (Np' : path <> []) by (destruct path; discriminate). assert (L' : zlen path < PATH_MAX) by lia.
    destruct (snoc_cases (comps path)) as [C|(l & x & C)]; [apply mkdir_root; assumption|].
    rewrite C in St. destruct (l ++ [x]) as [|y m] eqn:E; [destruct l; discriminate|]. rewrite <- E in *.
    rewrite removelast_last, last_last in St.
    destruct (follow f (start cwd path) l) as [d|] eqn:F; [|discriminate].
    rewrite (mkdir_at _ _ _ _ _ _ Np' L' C F). destruct (special x) eqn:Sp; [reflexivity|].
    rewrite (enter_normal _ _ Sp) in St.
    destruct (mem (d ++ [x]) (dirs f)); [reflexivity|]. destruct (mem (d ++ [x]) (files f)); [reflexivity|discriminate]. }
  destruct fuel; cbn [zt_mkdir]; rewrite M; reflexivity.
Qed.

(** zt_path_exists has two answers *)
Theorem C42_path_exists_answers : forall f cwd path, zt_path_exists f cwd path = 0 \/ zt_path_exists f cwd path = -1.
Proof. intros f cwd path. unfold zt_path_exists. destruct (stat f cwd path); tauto. Qed.

(** zt_path_exists answers 0 exactly for the empty-free paths whose names lead through directories to
    a directory, or to a file when the path has no trailing slash. *)
Theorem C42_path_exists : forall f cwd path, sane f cwd -> path <> [] -> zlen path < PATH_MAX ->
  (forall pre, leads path pre -> pre <> [] -> pre <> path -> In (node cwd pre) (dirs f)) ->
  (zt_path_exists f cwd path = 0 <->
   In (node cwd path) (dirs f) \/ (In (node cwd path) (files f) /\ forall q, path <> q ++ [47])).
Proof.
  intros f cwd path Sn Np L Pre. unfold zt_path_exists.
  assert (Esl : ends_slash path = false <-> forall q, path <> q ++ [47]).
  { unfold ends_slash. destruct (snoc_cases path) as [->|(q0 & c0 & ->)]; [congruence|]. rewrite last_last. split.
    - intros E q Eq. apply app_inj_tail in Eq as [_ ->]. discriminate E.
    - intros Q. apply Z.eqb_neq. intros ->. exact (Q q0 eq_refl). }
  rewrite <- Esl.
  assert (G : stat f cwd path = mem (node cwd path) (dirs f) || (mem (node cwd path) (files f) && negb (ends_slash path))).
  { destruct (snoc_cases (comps path)) as [C|(l & x & C)].
    - assert (I : In (node cwd path) (dirs f)) by (unfold node; rewrite C; apply start_in, Sn).
      apply mem_in in I. rewrite I. unfold stat. rewrite C. destruct path; [congruence|]. cbn [nonempty andb orb]. lia.
    - assert (F : exists d, follow f (start cwd path) l = Some d).
      { (* every name but the last leads to a prefix of the path *)
        assert (K : forall k p q, path = p ++ q -> (length p <= k)%nat -> cut p ->
                      (exists c r, comps q = c :: r) -> follow f (start cwd path) (comps p) <> None).
        { induction k as [|k IHk]; intros p q E Lk Cp Hq.
          - destruct p; [|cbn [length] in Lk; lia]. discriminate.
          - destruct Cp as [->|(a & ->)]; [discriminate|].
            rewrite app_length in Lk; cbn [length] in Lk.
            destruct (last_sep a) as [N|(d & b & -> & N)].
            + rewrite comps_sep, (comps_one a) by exact N. change (comps []) with (@nil text). rewrite app_nil_r.
              destruct a as [|c a]; [discriminate|]. cbn [nonempty follow].
              assert (I : In (node cwd (c :: a)) (dirs f)).
              { apply Pre; [right; exists q; rewrite E, <- app_assoc; reflexivity|discriminate|].
                intros X. rewrite E in X. apply (f_equal (@length Z)) in X. rewrite !app_length in X. cbn [length] in X. lia. }
              unfold node in I. rewrite comps_one in I by exact N. cbn [nonempty fold_left] in I.
              rewrite E, <- app_assoc, start_app by discriminate. apply mem_in in I. rewrite I. discriminate.
            + rewrite comps_sep, comps_sep, (comps_one b) by exact N. change (comps []) with (@nil text). rewrite app_nil_r.
              assert (Fd : follow f (start cwd path) (comps d) <> None).
              { replace (comps d) with (comps (d ++ [47])) by (rewrite comps_sep; apply app_nil_r).
                apply (IHk (d ++ [47]) (b ++ 47 :: q)).
                - rewrite E, <- !app_assoc. reflexivity.
                - rewrite app_length in *. cbn [length] in *. lia.
                - right. exists d. reflexivity.
                - destruct Hq as (c & r & Hq). rewrite comps_sep, Hq. destruct (comps b); cbn [app]; eexists; eexists; reflexivity. }
              rewrite follow_app. destruct (follow f (start cwd path) (comps d)) as [n|] eqn:Fn; [|congruence].
              destruct b as [|c b]; [discriminate|]. cbn [nonempty follow].
              assert (I : In (node cwd (d ++ 47 :: c :: b)) (dirs f)).
              { apply Pre; [right; exists q; rewrite E, <- app_assoc; reflexivity|destruct d; discriminate|].
                intros X. rewrite E in X. apply (f_equal (@length Z)) in X. rewrite !app_length in X. cbn [length] in X. lia. }
              assert (Es : start cwd path = start cwd (d ++ 47 :: c :: b)).
              { rewrite E. rewrite <- app_assoc. apply start_app. destruct d; discriminate. }
              unfold node in I. rewrite comps_sep, (comps_one (c :: b)) in I by exact N. cbn [nonempty] in I.
              rewrite fold_left_app in I. cbn [fold_left] in I. rewrite <- Es, <- (follow_fold _ _ _ _ Fn) in I.
              apply mem_in in I. rewrite I. discriminate. }
        assert (S : exists p q, path = p ++ q /\ cut p /\ comps p = l /\ exists c r, comps q = c :: r).
        { clear - C. revert l x C. induction path as [|c path IH] using rev_ind; intros l x C; [destruct l; discriminate|].
          destruct (Z.eq_dec c 47) as [->|Ne].
          - rewrite comps_sep in C. change (comps []) with (@nil text) in C. rewrite app_nil_r in C.
            destruct (IH l x C) as (p & q & E & Cp & El & (c & r & Eq)). exists p, (q ++ [47]).
            split; [rewrite E, app_assoc; reflexivity|]. split; [exact Cp|]. split; [exact El|].
            exists c, r. rewrite comps_sep, Eq. change (comps []) with (@nil text). rewrite app_nil_r. reflexivity.
          - destruct (last_sep (path ++ [c])) as [N|(d & b & E & N)].
            + rewrite comps_one in C by exact N. destruct (nonempty (path ++ [c])) eqn:Y; [|destruct l; discriminate].
              exists [], (path ++ [c]). split; [reflexivity|]. split; [left; reflexivity|].
              split; [destruct l as [|? [|]]; [reflexivity|discriminate|discriminate]|].
              rewrite comps_one, Y by exact N. eexists; eexists; reflexivity.
            + exists (d ++ [47]), b. split; [rewrite <- app_assoc; exact E|]. split; [right; exists d; reflexivity|].
              assert (Nb : b <> []).
              { intros ->. apply (f_equal (fun l => last l 0)) in E. rewrite !last_last in E. congruence. }
              rewrite E, comps_sep, (comps_one b) in C by exact N. rewrite comps_sep. change (comps []) with (@nil text).
              rewrite app_nil_r, (comps_one b) by exact N. destruct b as [|b0 b]; [congruence|]. cbn [nonempty] in *.
              apply app_inj_tail in C as [-> _]. split; [reflexivity|]. eexists; eexists; reflexivity. }
        destruct S as (p & q & E & Cp & El & Hq). pose proof (K (length p) p q E ltac:(lia) Cp Hq) as Nn.
        rewrite El in Nn. destruct (follow f (start cwd path) l) as [d|]; [exists d; reflexivity|congruence]. }
      destruct F as (d & F). rewrite (stat_at _ _ _ _ _ _ Np L C F).
      assert (En : node cwd path = enter d x).
      { unfold node. rewrite C, fold_left_app. cbn [fold_left]. rewrite (follow_fold _ _ _ _ F). reflexivity. }
      rewrite <- En. reflexivity. }
  rewrite G, <- !mem_in.
  destruct (mem (node cwd path) (dirs f)), (mem (node cwd path) (files f)), (ends_slash path); cbn;
    split; intros H; try discriminate; auto; destruct H as [H|[H H']]; congruence.
Qed.

(** An intermediate directory that cannot be created: -1. *)
Theorem C42_mkdir_blocked : forall fuel f cwd d s rest, sane f cwd -> ~ In 47 d -> d <> [] ->
  zlen (d ++ 47 :: s ++ rest) <= PATH_MAX -> s <> [] -> ~ In 47 s -> (rest = [] \/ exists r, rest = 47 :: r) ->
  d <> [46] -> d <> [46; 46] ->
  ~ In (cwd ++ [d]) (dirs f) -> ~ In (cwd ++ [d]) (files f) -> deny f (cwd ++ [d]) = true ->
  zt_mkdir fuel f cwd (d ++ 47 :: s ++ rest) true = Ok (-1, f).
Proof.
  intros fuel f cwd d s rest Sn Nd Dd Lm Ds Ns Rs D1 D2 Hd Hf Hy.
  set (path := d ++ 47 :: s ++ rest) in *.
  assert (Cd : comps d = [d]) by (rewrite comps_one by exact Nd; destruct d; [congruence|reflexivity]).
  assert (Ab : start cwd d = cwd).
  { unfold start. destruct d as [|c d']; [congruence|]. cbn [absolute]. destruct (c =? 47) eqn:E; [|reflexivity].
    exfalso. apply Nd. left. lia. }
  assert (Sp : special d = false).
  { unfold special. destruct (text_eqb d [46]) eqn:E1; [apply text_eqb_eq in E1; congruence|].
    destruct (text_eqb d [46; 46]) eqn:E2; [apply text_eqb_eq in E2; congruence|reflexivity]. }
  assert (Np : path <> []) by (destruct d; [congruence|discriminate]).
  assert (Cp : exists x l, comps path = d :: l ++ [x]).
  { unfold path. rewrite comps_sep, Cd. cbn [app].
    assert (Cs : exists l, comps (s ++ rest) = s :: l).
    { destruct Rs as [->|(r & ->)].
      - exists []. rewrite app_nil_r, comps_one by exact Ns. destruct s; [congruence|reflexivity].
      - exists (comps r). rewrite comps_sep, comps_one by exact Ns. destruct s; [congruence|reflexivity]. }
    destruct Cs as (l & ->). destruct (snoc_cases (s :: l)) as [|(l' & x & ->)]; [discriminate|]. exists x, l'. reflexivity. }
  assert (M : mkdir f cwd path = MkError).
  { unfold mkdir. destruct (negb _); [reflexivity|]. destruct Cp as (x & l & Cp). rewrite Cp.
    replace (removelast (d :: l ++ [x])) with (d :: l) by (change (d :: l ++ [x]) with ((d :: l) ++ [x]); rewrite removelast_last; reflexivity).
    unfold path at 1. rewrite start_app, Ab by exact Dd. cbn [follow]. rewrite enter_normal by exact Sp.
    apply mem_not in Hd. rewrite Hd. reflexivity. }
  assert (Ld : zlen d < PATH_MAX).
  { assert (1 <= zlen s) by (destruct s; [congruence|unfold zlen; cbn [length]; lia]).
    revert Lm. unfold path. rewrite zlen_app. unfold zlen in *. cbn [length]. lia. }
  assert (Pr : parents (length path) f cwd path 0 = Ok (false, f)).
  { assert (Lp : exists k, length path = S k) by (destruct path; [congruence|eexists; reflexivity]).
    destruct Lp as (k & ->). cbn [parents].
    assert (Lz : 0 < zlen path) by (destruct path; [congruence|unfold zlen; cbn [length]; lia]).
    replace (0 <? zlen path) with true by lia.
    destruct (find_sep [] path Np) as [(s0 & r0 & E0 & N0 & F)|(N0 & _)].
    2:{ exfalso. apply N0. unfold path. apply in_or_app. right. left. reflexivity. }
    assert (s0 = d).
    { unfold path in E0. clear - E0 N0 Nd. revert s0 E0 N0. induction d as [|c d IH]; intros [|x s0] E0 N0; cbn [app] in E0.
      - reflexivity.
      - injection E0 as <- _. exfalso. apply N0. left. reflexivity.
      - injection E0 as -> _. exfalso. apply Nd. left. reflexivity.
      - injection E0 as <- E0. f_equal. apply IH; [intro; apply Nd; right; assumption|exact E0|intro; apply N0; right; assumption]. }
    subst s0. change (zlen (@nil Z)) with 0 in F. cbn [app] in F. rewrite F. cbn [obind].
    assert (0 < zlen d) by (destruct d; [congruence|unfold zlen; cbn [length]; lia]).
    replace (0 + zlen d =? -1) with false by lia. replace (0 + zlen d <=? PATH_MAX) with true by lia. cbn [safe obind]. cbv zeta.
    replace (firstn (Z.to_nat (0 + zlen d)) path) with d.
    2:{ unfold path. replace (Z.to_nat (0 + zlen d)) with (length d) by (unfold zlen; lia).
        rewrite firstn_app, Nat.sub_diag, firstn_all. cbn [firstn]. rewrite app_nil_r. reflexivity. }
    change (zlen PATH_SEPERATOR) with 1. replace (0 + zlen d + 1 =? 1) with false by lia. cbn [orb].
    assert (F0 : follow f (start cwd d) [] = Some cwd) by (rewrite Ab; reflexivity).
    rewrite (stat_at f cwd d [] d cwd Dd Ld Cd F0), (mkdir_at f cwd d [] d cwd Dd Ld Cd F0).
    rewrite enter_normal by exact Sp. apply mem_not in Hd, Hf. rewrite Hd, Hf, Sp, Hy. reflexivity. }
  destruct fuel; cbn [zt_mkdir]; rewrite M; cbn [negb]; rewrite Pr; reflexivity.
Qed.

(** ** Findings *)

(** An empty path with parent creation never returns, whatever the file system. *)
Theorem C42_empty_path_hangs_refuted : forall f cwd fuel, zt_mkdir fuel f cwd [] true = Loop.
Proof.
  intros f cwd. induction fuel as [|fuel IH]; cbn [zt_mkdir].
  - reflexivity.
  - change (mkdir f cwd []) with MkError. cbn [negb]. change (parents (length (@nil Z)) f cwd [] 0) with (Ok (true, f)).
    cbn [obind]. exact IH.
Qed.

(** If all parents exist but the directory itself cannot be created (permission, read-only or full
    disk), the call with parent creation never returns. *)
Theorem C42_denied_target_hangs_refuted : exists f path, sane f [] /\ forall fuel, zt_mkdir fuel f [] path true = Loop.
Proof.
  exists {| dirs := [[]]; files := []; deny := fun _ => true |}, [47; 97].
  split; [repeat split; cbn; auto; intros n [<-|[]]; cbn; auto|].
  induction fuel as [|fuel IH]; [reflexivity|]. cbn [zt_mkdir].
  match goal with |- context [mkdir ?a ?b ?c] => change (mkdir a b c) with MkError end. cbn [negb].
  match goal with |- context [parents ?n ?a ?b ?c ?d] => change (parents n a b c d) with (Ok (true, a)) end.
  cbn [obind]. exact IH.
Qed.

(** "Exists already" also means a regular file: success is reported although no directory exists. *)
Theorem C42_file_in_the_way_refuted : exists f path, sane f [] /\
  zt_mkdir 0 f [] path true = Ok (0, f) /\ ~ In (node [] path) (dirs f).
Proof.
  exists {| dirs := [[]]; files := [[[97]]]; deny := fun _ => false |}, [97].
  split; [repeat split; cbn; auto; intros n [<-|[]]; cbn; auto|].
  split; [reflexivity|]. cbn. intros [E|[]]. discriminate E.
Qed.

(** ** The hypotheses are met *)
(** /home/me exists; making "work/./x/../y" from there creates work, work/x and work/y *)
Definition fs0 : fs :=
  {| dirs := [[]; [[104]]; [[104]; [109]]]; files := [[[104]; [102]]]; deny := fun n => match n with [[114]] => true | _ => false end |}.
Example sane_fs0 : sane fs0 [[104]; [109]].
Proof. split; [cbn; auto|]. split; [cbn; auto|]. intros n [<-|[<-|[<-|[]]]]; cbn; auto. Qed.
Example mkdir_fs0 : exists f',
  zt_mkdir 1 fs0 [[104]; [109]] [119;47;46;47;120;47;46;46;47;121] true = Ok (0, f') /\
  dirs f' = [[[104]; [109]; [119]; [121]]; [[104]; [109]; [119]; [120]]; [[104]; [109]; [119]]] ++ dirs fs0.
Proof. eexists. split; vm_compute; reflexivity. Qed.
Example possible_fs0 : possible fs0 [[104]; [109]] [119;47;47;121].
Proof.
  intros pre L. change [119;47;47;121] with ([119] ++ 47 :: [47;121]) in L.
  assert (H : pre = [119;47;47;121] \/ pre = [119;47] \/ pre = [119]).
  { change ([119] ++ 47 :: [47;121]) with ([119;47] ++ 47 :: [121]) in L.
    apply leads_sep in L; [|intros [|[]]; lia]. destruct L as [->|L]; [auto|].
    change [119;47] with ([119] ++ 47 :: []) in L. apply leads_sep in L; [|intros []]. destruct L as [->|L]; [auto|].
    apply leads_none in L; [auto|intros [|[]]; lia]. }
  destruct H as [->|[->| ->]]; cbn; split; try (intros [E|[]]; discriminate E); auto.
Qed.
Example possible_fs0_created : exists f', (forall fuel, zt_mkdir (S fuel) fs0 [[104]; [109]] [119;47;47;121] true = Ok (0, f')) /\
  In [[104]; [109]; [119]; [121]] (dirs f').
Proof.
  destruct (C42_mkdir_creates fs0 [[104]; [109]] [119;47;47;121] sane_fs0 ltac:(discriminate) ltac:(reflexivity) possible_fs0)
    as (f' & E & _ & D & _).
  exists f'. split; [exact E|]. apply D. right. exists [119;47;47;121]. split; [left; reflexivity|reflexivity].
Qed.
(** "r/x" where the system refuses to create r *)
Example blocked_fs0 : zt_mkdir 3 fs0 [] ([114] ++ 47 :: [120] ++ []) true = Ok (-1, fs0).
Proof.
  apply C42_mkdir_blocked; try discriminate; try (intros [E|[]]; discriminate E).
  - split; [cbn; auto|]. split; [cbn; auto|]. intros n [<-|[<-|[<-|[]]]]; cbn; auto.
  - left. reflexivity.
  - cbn. intros [E|[E|[E|[]]]]; discriminate E.
  - reflexivity.
Qed.
Example exists_fs0 : zt_path_exists fs0 [[104]; [109]] [46;46;47;102] = 0 /\ zt_path_exists fs0 [[104]; [109]] [46;46;47;102;47] = -1.
Proof. split; reflexivity. Qed.
(** foo/bar/baz/spin, looking for baz (tests/path_test.c:28) *)
Example basedir_test :
  zt_find_basedir (fun p => text_eqb p [102;47;98;47;122]) [102;47;98;47;122;47;115] [122] = Ok (Some [102;47;98;47]).
Proof. vm_compute. reflexivity. Qed.

Print Assumptions C42_find_basedir.
Print Assumptions C42_find_basedir_long_refuted.
Print Assumptions C42_mkdir_creates.
Print Assumptions C42_mkdir_safe.
Print Assumptions C42_mkdir_single.
Print Assumptions C42_mkdir_existing.
Print Assumptions C42_path_exists.
Print Assumptions C42_path_exists_answers.
Print Assumptions C42_mkdir_blocked.
Print Assumptions C42_empty_path_hangs_refuted.
Print Assumptions C42_denied_target_hangs_refuted.
Print Assumptions C42_file_in_the_way_refuted.
