From Verif Require Import Prelude Blocks ArrayModel AmemModel AmemSpec.
From Coq Require Import Permutation.
Open Scope Z_scope.

(** association lists *)
Section A.
Context {A : Type}.
Implicit Types l r : list (nat * A).
Lemma aget_none l x : ~ In x (map fst l) -> aget l x = None.
Proof. induction l as [|[y v] l IH]; cbn [aget map fst In]; [reflexivity|]. intros N. destruct (Nat.eqb_spec y x); [tauto|]. apply IH. tauto. Qed.
Lemma aget_in l x v : NoDup (map fst l) -> In (x, v) l -> aget l x = Some v.
Proof.
  induction l as [|[y w] l IH]; intros ND; [intros []|]. cbn [map fst] in ND. inversion ND as [|? ? N1 N2]; subst. intros [E|I]; cbn [aget]; [injection E as -> ->; now rewrite Nat.eqb_refl|]. destruct (Nat.eqb_spec y x) as [->|]; [exfalso; apply N1; change x with (fst (x, v)); now apply in_map|now apply IH].
Qed.
Lemma nodup_keys l r : Permutation l r -> NoDup (map fst l) -> NoDup (map fst r).
Proof. intros P. apply Permutation_NoDup, Permutation_map, P. Qed.
Lemma aget_perm l x v r : Permutation l ((x, v) :: r) -> NoDup (map fst l) -> aget l x = Some v.
Proof. intros P ND. apply aget_in; [exact ND|]. apply (Permutation_in _ (Permutation_sym P)). now left. Qed.
Lemma aput_other l x v : ~ In x (map fst l) -> aput l x v = l.
Proof. unfold aput. induction l as [|[y w] l IH]; cbn [map fst In]; [reflexivity|]. intros N. destruct (Nat.eqb_spec y x); [tauto|]. f_equal. apply IH. tauto. Qed.
Lemma adel_other l x : ~ In x (map fst l) -> adel l x = l.
Proof. unfold adel. induction l as [|[y w] l IH]; cbn [map filter fst In]; [reflexivity|]. intros N. destruct (Nat.eqb_spec y x); [tauto|]. cbn [negb]. f_equal. apply IH. tauto. Qed.
Lemma aput_perm l x v w r : Permutation l ((x, v) :: r) -> NoDup (map fst l) -> Permutation (aput l x w) ((x, w) :: r).
Proof.
  intros P ND. apply (nodup_keys _ _ P) in ND. cbn [map fst] in ND. inversion ND as [|? ? N1 N2]; subst. apply (Permutation_map (fun c : nat * A => if (fst c =? x)%nat then (x, w) else c)) in P. fold (aput l x w) in P. cbn [map fst] in P. rewrite Nat.eqb_refl in P. fold (aput r x w) in P. now rewrite (aput_other r x w N1) in P.
Qed.
Lemma filter_perm_ {B} (f : B -> bool) (l1 l2 : list B) : Permutation l1 l2 -> Permutation (filter f l1) (filter f l2).
Proof. induction 1; cbn [filter]; [constructor|destruct (f x); auto|destruct (f x), (f y); auto; constructor|eapply Permutation_trans; eauto]. Qed.
Lemma adel_perm l x v r : Permutation l ((x, v) :: r) -> NoDup (map fst l) -> Permutation (adel l x) r.
Proof.
  intros P ND. apply (nodup_keys _ _ P) in ND. cbn [map fst] in ND. inversion ND as [|? ? N1 N2]; subst. apply (filter_perm_ (fun c : nat * A => negb (fst c =? x)%nat)) in P. fold (adel l x) in P. cbn [filter fst] in P. rewrite Nat.eqb_refl in P. cbn [negb] in P. fold (adel r x) in P. now rewrite (adel_other r x N1) in P.
Qed.
Lemma aput_keys l x v : map fst (aput l x v) = map fst l.
Proof. unfold aput. rewrite map_map. apply map_ext. intros [y w]. cbn [fst]. destruct (Nat.eqb_spec y x) as [->|]; reflexivity. Qed.
End A.

Section P.
Variable pick : nat -> list nat -> nat.
Hypothesis fresh : forall c l, ~ In (pick c l) l.
Definition rep (m : mem) (O : list item) (T : list (nat * strm)) (F : list (nat * (bool * list (option Z)))) : Prop :=
  Permutation (hdr m) (map ihdr O) /\ Permutation (blk m) (flat_map iblk O ++ F) /\ Permutation (str m) T /\ NoDup (taken m) /\ Forall iok O.

Lemma rep_perm m O O' T T' F F' : rep m O T F -> Permutation O O' -> Permutation T T' -> Permutation F F' -> rep m O' T' F'.
Proof.
  intros (R1 & R2 & R3 & R4 & R5) P1 P2 P3. split; [apply (Permutation_trans R1), Permutation_map, P1|]. split; [apply (Permutation_trans R2), Permutation_app; [now apply Permutation_flat_map|exact P3]|]. split; [apply (Permutation_trans R3), P2|]. split; [exact R4|].
  rewrite Forall_forall in *. intros i Ii. apply R5. now apply (Permutation_in _ (Permutation_sym P1)).
Qed.
Lemma nodup_parts m : NoDup (taken m) -> NoDup (map fst (blk m)) /\ NoDup (map fst (hdr m)) /\ NoDup (map fst (str m)).
Proof.
  unfold taken. intros ND. assert (G : forall (a b : list nat), NoDup (a ++ b) -> NoDup a /\ NoDup b). { induction a as [|x a IH]; intros b H; [split; [constructor|exact H]|]. cbn [app] in H. inversion H as [|? ? N1 N2]; subst. destruct (IH b N2). split; [constructor; [intros I; apply N1, in_or_app; now left|assumption]|assumption]. }
  apply G in ND. destruct ND as [H1 H2]. apply G in H2. tauto.
Qed.
Lemma hdr_at m x v p O T F : rep m ((x, v, p) :: O) T F -> aget (hdr m) x = Some (mkah (alen v) (asize v) p).
Proof. intros (R1 & _ & _ & R4 & _). apply (aget_perm _ _ _ (map ihdr O)); [exact R1|]. apply nodup_parts, R4. Qed.
Lemma blk_at m x v p l O T F : rep m ((x, v, Some p) :: O) T F -> adata v = Some l -> aget (blk m) p = Some (true, l).
Proof. intros (_ & R2 & _ & R4 & _) E. cbn [flat_map iblk] in R2. rewrite E in R2. cbn [app] in R2. apply (aget_perm _ _ _ (flat_map iblk O ++ F)); [exact R2|]. apply nodup_parts, R4. Qed.
Lemma str_at m s b O T F : rep m O ((s, b) :: T) F -> aget (str m) s = Some b.
Proof. intros (_ & _ & R3 & R4 & _). apply (aget_perm _ _ _ T); [exact R3|]. apply nodup_parts, R4. Qed.
Lemma rep_ok m i O T F : rep m (i :: O) T F -> iok i.
Proof. intros (_ & _ & _ & _ & R5). now inversion R5. Qed.
Lemma load_ok m x v p O T F : rep m ((x, v, p) :: O) T F -> load m x = Ok v.
Proof.
  intros R. unfold load. rewrite (hdr_at _ _ _ _ _ _ _ R). cbn [here obind hdata hlen hsize]. pose proof (rep_ok _ _ _ _ _ R) as K. cbn [iok] in K. destruct v as [n z d]. cbn [adata] in K. destruct p as [p|], d as [l|]; try contradiction; [|reflexivity]. rewrite (blk_at _ _ _ _ l _ _ _ R eq_refl). reflexivity.
Qed.

(** the elementary changes *)
Lemma taken_set_hdr m x h : taken (set_hdr m x h) = taken m.
Proof. unfold taken, set_hdr. cbn [blk hdr str]. now rewrite aput_keys. Qed.
Lemma taken_set_str m x h : taken (set_str m x h) = taken m.
Proof. unfold taken, set_str. cbn [blk hdr str]. now rewrite aput_keys. Qed.
Lemma rep_set_hdr m x v p v' p' O T F B : Permutation (hdr m) (map ihdr ((x, v, p) :: O)) -> Permutation (blk m) (flat_map iblk ((x, v', p') :: O) ++ B ++ F) -> Permutation (str m) T -> NoDup (taken m) -> Forall iok ((x, v', p') :: O) ->
  rep (set_hdr m x (mkah (alen v') (asize v') p')) ((x, v', p') :: O) T (B ++ F).
Proof.
  intros R1 R2 R3 R4 R5. split; [|split; [exact R2|split; [exact R3|split; [now rewrite taken_set_hdr|exact R5]]]]. cbn [set_hdr hdr map ihdr]. apply (aput_perm _ _ (mkah (alen v) (asize v) p)); [exact R1|]. apply nodup_parts, R4.
Qed.
Lemma rep_set_str m s b b' O T F : rep m O ((s, b) :: T) F -> rep (set_str m s b') O ((s, b') :: T) F.
Proof. intros (R1 & R2 & R3 & R4 & R5). split; [exact R1|]. split; [exact R2|]. split; [|split; [now rewrite taken_set_str|exact R5]]. cbn [set_str str]. apply (aput_perm _ _ b); [exact R3|]. apply nodup_parts, R4. Qed.
Lemma new_blk_ok m l : NoDup (taken m) -> NoDup (taken (fst (new_blk pick m l))).
Proof. intros ND. unfold new_blk, taken at 1. cbn [fst blk hdr str map app]. constructor; [apply fresh|exact ND]. Qed.
Lemma new_hdr_ok m h : NoDup (taken m) -> NoDup (taken (fst (new_hdr pick m h))).
Proof. intros ND. unfold new_hdr, taken at 1. cbn [fst blk hdr str map]. cbn [app]. apply (Permutation_NoDup (Permutation_middle _ _ _)). constructor; [apply fresh|exact ND]. Qed.
Lemma new_str_nd m h : NoDup (taken m) -> NoDup (taken (fst (new_str pick m h))).
Proof. intros ND. unfold new_str, taken at 1. cbn [fst blk hdr str map]. rewrite app_assoc. apply (Permutation_NoDup (Permutation_middle _ _ _)). rewrite <- app_assoc. constructor; [apply fresh|exact ND]. Qed.
Lemma new_str_ok m b O T F : rep m O T F -> exists m' s, new_str pick m b = (m', s) /\ rep m' O ((s, b) :: T) F.
Proof. intros (R1 & R2 & R3 & R4 & R5). pose proof (new_str_nd m b R4) as ND. unfold new_str in *. eexists _, _. split; [reflexivity|]. split; [exact R1|]. split; [exact R2|]. split; [cbn [str]; now constructor|]. split; [exact ND|exact R5]. Qed.
(** a data block, or none *)
Definition dblk (p : option nat) (d : option (list (option Z))) : list (nat * (bool * list (option Z))) := match p, d with Some p, Some l => [(p, (true, l))] | _, _ => [] end.
Lemma new_data_ok m d : NoDup (taken m) -> exists m' p, new_data pick m d = (m', p) /\ hdr m' = hdr m /\ str m' = str m /\ blk m' = dblk p d ++ blk m /\ NoDup (taken m') /\ (match p, d with Some _, Some _ | None, None => True | _, _ => False end).
Proof.
  intros ND. unfold new_data. destruct d as [l|]; [|exists m, None; auto 10]. pose proof (new_blk_ok m l ND) as N. unfold new_blk in *. eexists _, _. split; [reflexivity|]. repeat (split; [reflexivity|]). split; [exact N|exact I].
Qed.
Lemma place_ok m v O T F : rep m O T F -> exists m' x p, place pick m v = (m', x) /\ rep m' ((x, v, p) :: O) T F.
Proof.
  intros (R1 & R2 & R3 & R4 & R5). unfold place. pose proof (new_hdr_ok m (mkah 0 0 None) R4) as N1. unfold new_hdr in *. cbn [fst] in N1. set (x := pick (clk m) (taken m)) in *. set (m1 := mkmem _ _ _ _) in *. destruct (new_data_ok m1 (adata v) N1) as (m2 & p & E & Eh & Es & Eb & N2 & K). rewrite E. eexists _, x, p. split; [reflexivity|].
  apply (rep_set_hdr m2 x (mkarr 0 0 None) None v p O T F []).
  - rewrite Eh. unfold m1. cbn [hdr map ihdr alen asize]. now constructor.
  - rewrite Eb. cbn [flat_map iblk app]. fold (dblk p (adata v)). rewrite <- app_assoc. apply Permutation_app_head. exact R2.
  - now rewrite Es.
  - exact N2.
  - constructor; [exact K|exact R5].
Qed.
Lemma free_blk_ok m x v p O T F : rep m ((x, v, p) :: O) T F -> exists m', free_blk m p = Ok m' /\ hdr m' = hdr m /\ str m' = str m /\ Permutation (blk m') (flat_map iblk O ++ F) /\ NoDup (taken m').
Proof.
  intros R. pose proof R as (R1 & R2 & R3 & R4 & R5). pose proof (rep_ok _ _ _ _ _ R) as K. cbn [iok] in K. unfold free_blk. destruct p as [p|].
  - destruct (adata v) as [l|] eqn:Ed; [|contradiction]. rewrite (blk_at _ _ _ _ l _ _ _ R Ed). cbn [here obind]. eexists. split; [reflexivity|]. split; [reflexivity|]. split; [reflexivity|]. cbn [blk]. cbn [flat_map iblk] in R2. rewrite Ed in R2. cbn [app] in R2. split; [apply (adel_perm _ _ (true, l)); [exact R2|apply nodup_parts, R4]|].
    unfold taken in *. cbn [blk hdr str]. assert (G : forall (a b : list nat), NoDup (a ++ b) -> forall a', NoDup a' -> incl a' a -> NoDup (a' ++ b)). { intros a b H a' Ha Hi. induction a' as [|y a' IH]; cbn [app]; [apply nodup_parts in R4 as _; clear - H; induction a; [exact H|inversion H; auto]|]. inversion Ha as [|? ? Q1 Q2]; subst. constructor; [|apply IH; [exact Q2|intros z Iz; apply Hi; now right]]. intros I_. apply in_app_or in I_. destruct I_ as [I_|I_]; [contradiction|]. assert (Iy : In y a) by (apply Hi; now left). apply in_split in Iy. destruct Iy as (a1 & a2 & ->). rewrite <- app_assoc in H. cbn [app] in H. apply NoDup_remove_2 in H. apply H, in_or_app. right. apply in_or_app. now right. }
    apply (G _ _ R4).
    + unfold adel. assert (X : forall l0 : list (nat * (bool * list (option Z))), NoDup (map fst l0) -> NoDup (map fst (filter (fun c => negb (fst c =? p)%nat) l0))). { induction l0 as [|c l0 IH]; cbn [filter map]; intros H; [constructor|]. inversion H as [|? ? Q1 Q2]; subst. destruct (negb _); [|now apply IH]. cbn [map]. constructor; [|now apply IH]. intros I_. apply Q1. apply in_map_iff in I_. destruct I_ as (z & <- & Iz). apply in_map. apply filter_In in Iz. apply Iz. } apply X, nodup_parts, R4.
    + intros y Iy. apply in_map_iff in Iy. destruct Iy as (z & <- & Iz). apply in_map. unfold adel in Iz. apply filter_In in Iz. apply Iz.
  - exists m. split; [reflexivity|]. split; [reflexivity|]. split; [reflexivity|]. split; [exact R2|exact R4].
Qed.
Lemma taken_del_hdr m x : NoDup (taken m) -> NoDup (taken (mkmem (blk m) (adel (hdr m) x) (str m) (clk m))).
Proof.
  unfold taken. cbn [blk hdr str]. intros H. apply (Permutation_NoDup (Permutation_app_swap_app _ _ _)). apply (Permutation_NoDup (Permutation_app_swap_app _ _ _)) in H. revert H. generalize (map fst (blk m) ++ map fst (str m)). intros b. induction (hdr m) as [|[y h] l IH]; cbn [adel filter map fst app]; intros H; [exact H|]. inversion H as [|? ? N1 N2]; subst. fold (adel l x). destruct (negb _); [|now apply IH]. cbn [map fst app]. constructor; [|now apply IH]. intros I_. apply N1. apply in_app_or in I_. apply in_or_app. destruct I_ as [I_|I_]; [left|now right]. apply in_map_iff in I_. destruct I_ as (z & <- & Iz). apply in_map. unfold adel in Iz. apply filter_In in Iz. apply Iz.
Qed.
Lemma taken_del_str m x : NoDup (taken m) -> NoDup (taken (mkmem (blk m) (hdr m) (adel (str m) x) (clk m))).
Proof.
  unfold taken. cbn [blk hdr str]. rewrite !app_assoc. intros H. apply (Permutation_NoDup (Permutation_app_comm _ _)). apply (Permutation_NoDup (Permutation_app_comm _ _)) in H. revert H. generalize (map fst (blk m) ++ map fst (hdr m)). intros b. induction (str m) as [|[y h] l IH]; cbn [adel filter map fst app]; intros H; [exact H|]. inversion H as [|? ? N1 N2]; subst. fold (adel l x). destruct (negb _); [|now apply IH]. cbn [map fst app]. constructor; [|now apply IH]. intros I_. apply N1. apply in_app_or in I_. apply in_or_app. destruct I_ as [I_|I_]; [left|now right]. apply in_map_iff in I_. destruct I_ as (z & <- & Iz). apply in_map. unfold adel in Iz. apply filter_In in Iz. apply Iz.
Qed.
Lemma m_free_ok m x v p O T F : rep m ((x, v, p) :: O) T F -> exists m', m_free m x = Ok m' /\ rep m' O T F.
Proof.
  intros R. pose proof R as (R1 & R2 & R3 & R4 & R5). unfold m_free. rewrite (hdr_at _ _ _ _ _ _ _ R). cbn [here obind hdata]. destruct (free_blk_ok _ _ _ _ _ _ _ R) as (m1 & E & Eh & Es & Eb & ND). rewrite E. cbn [obind]. eexists. split; [reflexivity|]. split; [|split; [exact Eb|split; [cbn [str]; now rewrite Es|split; [now apply taken_del_hdr|now inversion R5]]]].
  cbn [hdr]. rewrite Eh. apply (adel_perm _ _ (mkah (alen v) (asize v) p)); [exact R1|]. apply nodup_parts, R4.
Qed.
(** the array's header is set to point to new data; its old data is no longer pointed to *)
Lemma m_set_data_ok m x v p O T F data len size v' : rep m ((x, v, p) :: O) T F -> array_set_data data len size true = Ok v' -> exists m' p', m_set_data pick m x data len size = Ok m' /\ rep m' ((x, v', p') :: O) T (dblk p (adata v) ++ F).
Proof.
  intros R E. pose proof R as (R1 & R2 & R3 & R4 & R5). unfold m_set_data. rewrite (hdr_at _ _ _ _ _ _ _ R). cbn [here obind]. rewrite E. cbn [obind]. destruct (new_data_ok m (adata v') R4) as (m2 & p' & En & Eh & Es & Eb & N2 & K). rewrite En. eexists _, p'. split; [reflexivity|].
  apply (rep_set_hdr m2 x v p).
  - now rewrite Eh.
  - rewrite Eb. cbn [flat_map iblk]. fold (dblk p' (adata v')). rewrite <- app_assoc. apply Permutation_app_head. apply (Permutation_trans R2). cbn [flat_map iblk]. fold (dblk p (adata v)). rewrite <- app_assoc. apply Permutation_app_swap_app.
  - now rewrite Es.
  - exact N2.
  - inversion R5; subst. constructor; [exact K|assumption].
Qed.
Lemma resize_shape v len v' : array_resize v len = Ok v' -> alen v' = len /\ asize v' = asize v /\ adata v' <> None.
Proof.
  unfold array_resize. intros E. apply obind_ok in E. destruct E as (? & _ & E). destruct (alen v =? 0); [assert (X : v' = mkarr len (asize v) (Some (zeros ((len * asize v) mod W64)))) by congruence; subst; cbn [alen asize adata]; repeat split; congruence|]. cbv zeta in E.
  destruct (len >? alen v); [apply obind_ok in E; destruct E as (b & _ & E)|]; match type of E with Ok ?y = _ => assert (X : v' = y) by congruence; subst; cbn [alen asize adata]; repeat split; congruence end.
Qed.
Lemma m_resize_ok m x v p O T F len v' : rep m ((x, v, p) :: O) T F -> array_resize v len = Ok v' -> exists m' p', m_resize pick m x len = Ok m' /\ rep m' ((x, v', p') :: O) T ((if alen v =? 0 then dblk p (adata v) else []) ++ F).
Proof.
  intros R E. pose proof R as (R1 & R2 & R3 & R4 & R5). destruct (resize_shape _ _ _ E) as (S1 & S2 & S3). unfold m_resize. rewrite (hdr_at _ _ _ _ _ _ _ R). cbn [here obind hlen hsize hdata]. assert (E' := E). unfold array_resize in E'. apply obind_ok in E'. destruct E' as (u & G & E'). rewrite G. cbn [obind]. destruct (alen v =? 0).
  - pose proof (new_data_ok m (Some (zeros ((len * asize v) mod W64))) R4) as (m2 & p' & En & Eh & Es & Eb & N2 & K). unfold new_data in En. destruct (new_blk pick m (zeros ((len * asize v) mod W64))) as [m3 p3]. assert (m3 = m2 /\ p' = Some p3) as (-> & ->) by (split; congruence).
    assert (X : v' = mkarr len (asize v) (Some (zeros ((len * asize v) mod W64)))) by congruence. subst v'. eexists _, (Some p3). split; [reflexivity|]. apply (rep_set_hdr m2 x v p (mkarr len (asize v) (Some (zeros ((len * asize v) mod W64)))) (Some p3) O T F (dblk p (adata v))).
    + now rewrite Eh.
    + rewrite Eb. cbn [flat_map iblk adata dblk]. rewrite <- app_assoc. apply Permutation_app_head. apply (Permutation_trans R2). cbn [flat_map iblk]. fold (dblk p (adata v)). rewrite <- app_assoc. apply Permutation_app_swap_app.
    + now rewrite Es.
    + exact N2.
    + inversion R5; subst. constructor; [exact K|assumption].
  - rewrite (load_ok _ _ _ _ _ _ _ R). cbn [obind]. destruct (free_blk_ok _ _ _ _ _ _ _ R) as (m1 & Ef & Eh1 & Es1 & Eb1 & ND1). rewrite Ef. cbn [obind]. rewrite E. cbn [obind]. destruct (new_data_ok m1 (adata v') ND1) as (m2 & p' & En & Eh & Es & Eb & N2 & K). rewrite En. eexists _, p'. split; [reflexivity|]. rewrite <- S2. rewrite <- S1 at 1. apply (rep_set_hdr m2 x v p v' p' O T F []).
    + now rewrite Eh, Eh1.
    + rewrite Eb. cbn [flat_map iblk app]. fold (dblk p' (adata v')). rewrite <- app_assoc. apply Permutation_app_head. exact Eb1.
    + now rewrite Es, Es1.
    + exact N2.
    + inversion R5; subst. constructor; [exact K|assumption].
Qed.
Lemma m_set_length_ok m x v p O T F len : rep m ((x, v, p) :: O) T F -> exists m', m_set_length m x len = Ok (alen v, m') /\ rep m' ((x, mkarr len (asize v) (adata v), p) :: O) T F.
Proof.
  intros R. pose proof R as (R1 & R2 & R3 & R4 & R5). unfold m_set_length. rewrite (hdr_at _ _ _ _ _ _ _ R). cbn [here obind hlen hsize hdata]. eexists. split; [reflexivity|]. apply (rep_set_hdr m x v p (mkarr len (asize v) (adata v)) p O T F []); [exact R1|exact R2|exact R3|exact R4|]. inversion R5; subst. constructor; assumption.
Qed.
Lemma store_ok m x v p O T F v' : rep m ((x, v, p) :: O) T F -> alen v' = alen v -> asize v' = asize v -> (adata v' = None <-> adata v = None) -> exists m', store m x v' = Ok m' /\ rep m' ((x, v', p) :: O) T F.
Proof.
  intros R E1 E2 E3. pose proof R as (R1 & R2 & R3 & R4 & R5). pose proof (rep_ok _ _ _ _ _ R) as K. cbn [iok] in K. unfold store. rewrite (hdr_at _ _ _ _ _ _ _ R). cbn [here obind hdata]. assert (RH : Permutation (hdr m) (map ihdr ((x, v', p) :: O))) by (cbn [map ihdr]; rewrite E1, E2; exact R1).
  destruct p as [p|].
  - destruct (adata v) as [l|] eqn:Ed; [|contradiction]. destruct (adata v') as [l'|] eqn:Ed'; [|exfalso; destruct E3 as [X _]; specialize (X eq_refl); discriminate]. unfold set_blk. rewrite (blk_at _ _ _ _ l _ _ _ R Ed). cbn [here obind]. eexists. split; [reflexivity|]. split; [exact RH|]. split; [|split; [exact R3|split]].
    + cbn [blk flat_map iblk]. rewrite Ed'. cbn [app]. cbn [flat_map iblk] in R2. rewrite Ed in R2. cbn [app] in R2. apply (aput_perm _ _ (true, l)); [exact R2|]. apply nodup_parts, R4.
    + unfold taken in *. cbn [blk hdr str]. now rewrite aput_keys.
    + inversion R5; subst. constructor; [cbn [iok]; now rewrite Ed'|assumption].
  - destruct (adata v) as [l|] eqn:Ed; [contradiction|]. rewrite (proj2 E3 eq_refl). exists m. split; [reflexivity|]. split; [exact RH|]. split; [|split; [exact R3|split; [exact R4|]]].
    + cbn [flat_map iblk] in *. exact R2.
    + inversion R5; subst. constructor; [cbn [iok]; now rewrite (proj2 E3 eq_refl)|assumption].
Qed.
Lemma put_shape v o e v' : array_put v o e = Ok v' -> alen v' = alen v /\ asize v' = asize v /\ (adata v' = None <-> adata v = None).
Proof. unfold array_put. intros E. apply obind_ok in E. destruct E as (? & _ & E). apply obind_ok in E. destruct E as (? & _ & E). apply obind_ok in E. destruct E as (b & _ & E). match type of E with Ok ?y = _ => assert (X : v' = y) by congruence; subst; cbn [alen asize adata] end. destruct (adata v); repeat split; congruence. Qed.
Lemma puts_shape : forall s v o o' v', put_bytes v o s = Ok (o', v') -> alen v' = alen v /\ asize v' = asize v /\ (adata v' = None <-> adata v = None).
Proof.
  induction s as [|c s IH]; intros v o o' v' E; cbn [put_bytes] in E; [assert (v' = v) by congruence; subst; tauto|]. apply obind_ok in E. destruct E as (a & E1 & E2). apply put_shape in E1. apply IH in E2. destruct E1 as (A1 & A2 & A3), E2 as (B1 & B2 & B3). repeat split; try congruence; tauto.
Qed.
(** streams *)
Lemma s_free_ok m s b v p O T F : rep m ((sarr b, v, p) :: O) ((s, b) :: T) F -> exists m', s_free m s = Ok m' /\ rep m' O T F.
Proof.
  intros R. unfold s_free. rewrite (str_at _ _ _ _ _ _ R). cbn [here obind]. destruct (m_free_ok _ _ _ _ _ _ _ R) as (m1 & E & R'). rewrite E. cbn [obind]. eexists. split; [reflexivity|]. destruct R' as (R1 & R2 & R3 & R4 & R5). split; [exact R1|]. split; [exact R2|]. split; [|split; [now apply taken_del_str|exact R5]]. cbn [str]. apply (adel_perm _ _ b); [exact R3|]. apply nodup_parts, R4.
Qed.
End P.
