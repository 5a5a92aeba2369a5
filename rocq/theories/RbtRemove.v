(** zt_tree.c: the repair after a removal and zt_rbt_remove *)
From Verif Require Import Prelude Heap RbtModel RbtRep RbtInsert.
From Coq Require Import Permutation.

(** the subtree that lacks one black node: a red root may have red children *)
Definition weak (n : nat) (t : tree) : Prop := match t with N red l _ r => rb n l /\ rb n r | _ => rb n t end.
Lemma rb_weak n t : rb n t -> weak n t.
Proof. destruct t as [|[|] l a r]; cbn [rb weak]; tauto. Qed.

Lemma blacken_head h T F : blackt T -> holds h (nodes T 0 ++ F) -> exists h', blacken h (root T) = Ok h' /\ holds h' (nodes T 0 ++ F).
Proof.
  intros B H. unfold blacken. destruct T as [|c l a r]; [exists h; now split|]. cbn [root]. flat H. nz a H.
  apply (black_head h (N c l a r) F); [exact B|discriminate|]. revert H; apply holds_perm; perm.
Qed.
(** finishing: the tree is plug z t, whose root is black *)
Lemma finish h z t n F : zok n z -> rb n t -> (blackt t \/ zblack z) -> forall s, inorder t = inorder s ->
  holds h (znodes z (root t) ++ nodes t (zroot z) ++ F) ->
  exists h', blacken h (top z (root t)) = Ok h' /\ repaired z s F h' (top z (root t)).
Proof.
  intros ZO R B s IO H. destruct (zok_plug z n t ZO R B) as (m & RM & BM). apply rep_plug in H.
  destruct (blacken_head h (plug z t) F BM H) as (h' & E' & H'). rewrite root_plug in E'. exists h'. split; [exact E'|].
  exists (plug z t). split; [symmetry; apply root_plug|]. split; [exact H'|]. split; [split; [exact BM|now exists m]|]. now rewrite !inorder_plug, IO.
Qed.
Lemma top_in z : z <> [] -> forall r, In (top z r) (map fst (znodes z r)).
Proof.
  induction z as [|[[[d c] a] s] z IH]; intros NE r; [congruence|]. destruct z as [|f z].
  - destruct d; cbn [znodes map fst top]; now left.
  - cbn [top]. specialize (IH ltac:(discriminate) a). destruct d; cbn [znodes map fst]; right; rewrite map_app; apply in_or_app; right; exact IH.
Qed.
Lemma top_not h z t F : z <> [] -> holds h (znodes z (root t) ++ nodes t (zroot z) ++ F) -> root t <> top z (root t).
Proof.
  intros NE H EQ. pose proof (top_in z NE (root t)) as I. rewrite <- EQ in I. destruct t as [|c l a r].
  - cbn [root] in *. destruct H as [_ FA]. apply in_map_iff in I. destruct I as ([y n] & Ey & I). cbn [fst] in Ey. subst y. apply Forall_app in FA. destruct FA as [FA _]. rewrite Forall_forall in FA. destruct (FA _ I) as [X _]. now apply X.
  - cbn [root] in *. flat H. bring a H. apply holds_notin in H. apply H. rewrite map_app. apply in_or_app. now left.
Qed.
Lemma black_node_ok h t p L : holds h (nodes t p ++ L) -> black_node h (root t) = Ok (match t with N red _ _ _ => false | _ => true end).
Proof.
  intros H. unfold black_node. destruct (col_dec t) as [(l & a & r & ->)|B].
  - cbn [root]. rewrite (red_node_red h l a r p L H). reflexivity.
  - rewrite (red_node_black h t p L B H). cbn [obind]. destruct t as [|[|] l a r]; [reflexivity|contradiction|reflexivity].
Qed.
Ltac bn t p H := (* black_node of the subtree t below p *)
  lazymatch type of H with
  | holds ?h ?L => let L' := drop (nodes t p) L in rewrite (black_node_ok h t p L') by (revert H; apply holds_perm; perm); cbn [obind]
  end.

(** the loop ends at once: the element is red, or it is the root *)
Lemma remove_exit fuel h z t n F : (match t with N red _ _ _ => True | _ => z = [] end) -> zok (S n) z -> weak n t ->
  holds h (znodes z (root t) ++ nodes t (zroot z) ++ F) ->
  exists h' head', remove_colour (S fuel) h (top z (root t)) (zroot z) (root t) = Ok (h', head') /\ repaired z t F h' head'.
Proof.
  intros HT ZO W H. cbn [remove_colour].
  assert (HB : holds h (nodes t (zroot z) ++ znodes z (root t) ++ F)) by (revert H; apply holds_perm; rewrite !app_assoc; apply Permutation_app_tail, Permutation_app_comm).
  rewrite (black_node_ok h t (zroot z) _ HB). cbn [obind]. destruct t as [|[|] l a r].
  - subst z. cbn [top root Nat.eqb negb andb obind blacken]. exists h, 0. split; [reflexivity|]. exists E. split; [reflexivity|]. split; [exact H|]. split; [split; [exact I|now exists 0]|reflexivity].
  - cbn [andb root] in *. unfold blacken. flat H. nz a H. st H. exists h0, (top z a). split; [reflexivity|].
    destruct (zok_plug z (S n) (N black l a r) ZO ltac:(cbn [weak rb] in *; tauto) ltac:(left; exact I)) as (m & RM & BM).
    exists (plug z (N black l a r)). split; [rewrite root_plug; reflexivity|]. split; [apply rep_plug; revert H; apply holds_perm; perm|].
    split; [split; [exact BM|now exists m]|rewrite !inorder_plug; reflexivity].
  - subst z. cbn [top root zroot znodes app] in *. rewrite Nat.eqb_refl. cbn [negb andb].
    destruct (finish h [] (N black l a r) n F I W ltac:(left; exact I) (N black l a r) eq_refl H) as (h' & E' & RP). cbn [top root] in *. rewrite E'. cbn [obind]. now exists h', a.
Qed.

(** the second half of the loop body, once the sibling is black; rec is the next iteration *)
Definition half_l (rec : nheap -> nat -> nat -> nat -> outcome (nheap * nat)) (h : nheap) (head par tmp : nat) : outcome (nheap * nat) :=
  t <- load h tmp ;;
  bl <- black_node h (left t) ;; br <- black_node h (right t) ;;
  if bl && br then
    h <- setc h tmp red ;; p <- load h par ;; rec h head (parent p) par
  else
    ' (h, head, tmp) <- (if br then
                           h <- (if left t =? 0 then Ok h else setc h (left t) black) ;;
                           h <- setc h tmp red ;; ' (h, head) <- rotate_right h head tmp ;;
                           p <- load h par ;; Ok (h, head, right p)
                         else Ok (h, head, tmp)) ;;
    p <- load h par ;; h <- setc h tmp (colour p) ;; h <- setc h par black ;;
    t <- load h tmp ;; h <- (if right t =? 0 then Ok h else setc h (right t) black) ;;
    ' (h, head) <- rotate_left h head par ;; h <- blacken h head ;; Ok (h, head).
Definition half_r (rec : nheap -> nat -> nat -> nat -> outcome (nheap * nat)) (h : nheap) (head par tmp : nat) : outcome (nheap * nat) :=
  t <- load h tmp ;;
  bl <- black_node h (left t) ;; br <- black_node h (right t) ;;
  if bl && br then
    h <- setc h tmp red ;; p <- load h par ;; rec h head (parent p) par
  else
    ' (h, head, tmp) <- (if bl then
                           h <- (if right t =? 0 then Ok h else setc h (right t) black) ;;
                           h <- setc h tmp red ;; ' (h, head) <- rotate_left h head tmp ;;
                           p <- load h par ;; Ok (h, head, left p)
                         else Ok (h, head, tmp)) ;;
    p <- load h par ;; h <- setc h tmp (colour p) ;; h <- setc h par black ;;
    t <- load h tmp ;; h <- (if left t =? 0 then Ok h else setc h (left t) black) ;;
    ' (h, head) <- rotate_right h head par ;; h <- blacken h head ;; Ok (h, head).

Lemma half_l_ok rec h z cp p t a w b n F : zok (S n) ((Lf, cp, p, N black a w b) :: z) -> rb n t -> blackt t ->
  holds h (znodes z p ++ nodes (N cp t p (N black a w b)) (zroot z) ++ F) ->
  (exists h' head', half_l rec h (top z p) p w = Ok (h', head') /\ repaired z (N cp t p (N black a w b)) F h' head')
  \/ (exists h', half_l rec h (top z p) p w = rec h' (top z p) (zroot z) p /\ rb n a /\ rb n b /\ blackt a /\ blackt b /\ holds h' (znodes z p ++ nodes (N cp t p (N red a w b)) (zroot z) ++ F)).
Proof.
  intros ZO Rt' Bt H. unfold half_l. flat H. ld H. bn a w H. bn b w H.
  assert (AB : rb n a /\ rb n b) by (destruct cp; cbn [zok rb] in ZO; tauto). destruct AB as [Ra Rb].
  assert (FIN : forall h' T, (match T with N c (N black t1 _ t2) _ (N black t3 _ t4) => c = cp /\ rb n t1 /\ rb n t2 /\ rb n t3 /\ rb n t4 | _ => False end) ->
            inorder T = inorder (N cp t p (N black a w b)) -> holds h' (znodes z (root T) ++ nodes T (zroot z) ++ F) ->
            exists h2 head', (h <- blacken h' (top z (root T)) ;; Ok (h, top z (root T))) = Ok (h2, head') /\ repaired z (N cp t p (N black a w b)) F h2 head').
  { intros h' T HT IO HH. destruct T as [|c [|[|] t1 u t2] v [|[|] t3 x t4]]; try contradiction. destruct HT as (-> & R1 & R2 & R3 & R4).
    assert (Z : exists m, zok m z /\ rb m (N cp (N black t1 u t2) v (N black t3 x t4)) /\ (blackt (N cp (N black t1 u t2) v (N black t3 x t4)) \/ zblack z)).
    { destruct cp; cbn [zok] in ZO; [exists (S n)|exists (S (S n))]; cbn [rb blackt]; tauto. }
    destruct Z as (m & Z1 & Z2 & Z3). destruct (finish h' z _ m F Z1 Z2 Z3 _ IO HH) as (h2 & E2 & RP). rewrite E2. cbn [obind]. eauto. }
  destruct (col_dec b) as [(b1 & v & b2 & ->)|Bb].
  - (* right child of the sibling red *)
    rewrite andb_false_r. cbn [obind]. left. cbn [rb] in Rb.
    ld H. st H. st H. ld H. cbn [root]. nz v H. st H. form z (N black t p (N cp a w (N black b1 v b2))) F H. rotl z H.
    form z (N cp (N black t p a) w (N black b1 v b2)) F H.
    destruct (FIN _ (N cp (N black t p a) w (N black b1 v b2)) ltac:(tauto) ltac:(cbn [inorder]; rewrite <- app_assoc; reflexivity) H) as (h' & hd & E' & RP).
    eauto.
  - replace (match b with N red _ _ _ => false | _ => true end) with true by (destruct b as [|[|] ? ? ?]; [reflexivity|contradiction|reflexivity]).
    rewrite andb_true_r. destruct (col_dec a) as [(a1 & v & a2 & ->)|Ba].
    + (* left child red *)
      left. cbn [rb] in Ra. cbn [root]. nz v H. st H. st H. form ((Rt, cp, p, t) :: z) (N red (N black a1 v a2) w b) F H. rotr ((Rt, cp, p, t) :: z) H.
      ld H. ld H. st H. st H. ld H. cbn [root]. nz w H. st H. cbn [top]. form z (N black t p (N cp a1 v (N black a2 w b))) F H. rotl z H.
      form z (N cp (N black t p a1) v (N black a2 w b)) F H.
      destruct (FIN _ (N cp (N black t p a1) v (N black a2 w b)) ltac:(tauto) ltac:(cbn [inorder]; repeat (progress (cbn [app]; rewrite <- ?app_assoc)); reflexivity) H) as (h' & hd & E' & RP).
      eauto.
    + (* both black *)
      replace (match a with N red _ _ _ => false | _ => true end) with true by (destruct a as [|[|] ? ? ?]; [reflexivity|contradiction|reflexivity]).
      right. st H. ld H. eexists. split; [reflexivity|]. do 4 (split; [assumption|]). revert H; apply holds_perm; perm.
Qed.
Lemma half_r_ok rec h z cp p t a w b n F : zok (S n) ((Rt, cp, p, N black a w b) :: z) -> rb n t -> blackt t ->
  holds h (znodes z p ++ nodes (N cp (N black a w b) p t) (zroot z) ++ F) ->
  (exists h' head', half_r rec h (top z p) p w = Ok (h', head') /\ repaired z (N cp (N black a w b) p t) F h' head')
  \/ (exists h', half_r rec h (top z p) p w = rec h' (top z p) (zroot z) p /\ rb n a /\ rb n b /\ blackt a /\ blackt b /\ holds h' (znodes z p ++ nodes (N cp (N red a w b) p t) (zroot z) ++ F)).
Proof.
  intros ZO Rt' Bt H. unfold half_r. flat H. ld H. bn a w H. bn b w H.
  assert (AB : rb n a /\ rb n b) by (destruct cp; cbn [zok rb] in ZO; tauto). destruct AB as [Ra Rb].
  assert (FIN : forall h' T, (match T with N c (N black t1 _ t2) _ (N black t3 _ t4) => c = cp /\ rb n t1 /\ rb n t2 /\ rb n t3 /\ rb n t4 | _ => False end) ->
            inorder T = inorder (N cp (N black a w b) p t) -> holds h' (znodes z (root T) ++ nodes T (zroot z) ++ F) ->
            exists h2 head', (h <- blacken h' (top z (root T)) ;; Ok (h, top z (root T))) = Ok (h2, head') /\ repaired z (N cp (N black a w b) p t) F h2 head').
  { intros h' T HT IO HH. destruct T as [|c [|[|] t1 u t2] v [|[|] t3 x t4]]; try contradiction. destruct HT as (-> & R1 & R2 & R3 & R4).
    assert (Z : exists m, zok m z /\ rb m (N cp (N black t1 u t2) v (N black t3 x t4)) /\ (blackt (N cp (N black t1 u t2) v (N black t3 x t4)) \/ zblack z)).
    { destruct cp; cbn [zok] in ZO; [exists (S n)|exists (S (S n))]; cbn [rb blackt]; tauto. }
    destruct Z as (m & Z1 & Z2 & Z3). destruct (finish h' z _ m F Z1 Z2 Z3 _ IO HH) as (h2 & E2 & RP). rewrite E2. cbn [obind]. eauto. }
  destruct (col_dec a) as [(a1 & v & a2 & ->)|Ba].
  - (* left child of the sibling red *)
    cbn [andb obind]. left. cbn [rb] in Ra.
    ld H. st H. st H. ld H. cbn [root]. nz v H. st H. form z (N black (N cp (N black a1 v a2) w b) p t) F H. rotr z H.
    form z (N cp (N black a1 v a2) w (N black b p t)) F H.
    destruct (FIN _ (N cp (N black a1 v a2) w (N black b p t)) ltac:(tauto) ltac:(cbn [inorder]; repeat (progress (cbn [app]; rewrite <- ?app_assoc)); reflexivity) H) as (h' & hd & E' & RP).
    eauto.
  - replace (match a with N red _ _ _ => false | _ => true end) with true by (destruct a as [|[|] ? ? ?]; [reflexivity|contradiction|reflexivity]).
    destruct (col_dec b) as [(b1 & v & b2 & ->)|Bb].
    + (* right child red *)
      left. cbn [rb] in Rb. cbn [andb root]. nz v H. st H. st H. form ((Lf, cp, p, t) :: z) (N red a w (N black b1 v b2)) F H. rotl ((Lf, cp, p, t) :: z) H.
      ld H. ld H. st H. st H. ld H. cbn [root]. nz w H. st H. cbn [top]. form z (N black (N cp (N black a w b1) v b2) p t) F H. rotr z H.
      form z (N cp (N black a w b1) v (N black b2 p t)) F H.
      destruct (FIN _ (N cp (N black a w b1) v (N black b2 p t)) ltac:(tauto) ltac:(cbn [inorder]; repeat (progress (cbn [app]; rewrite <- ?app_assoc)); reflexivity) H) as (h' & hd & E' & RP).
      eauto.
    + (* both black *)
      replace (match b with N red _ _ _ => false | _ => true end) with true by (destruct b as [|[|] ? ? ?]; [reflexivity|contradiction|reflexivity]).
      cbn [andb]. right. st H. ld H. eexists. split; [reflexivity|]. do 4 (split; [assumption|]). revert H; apply holds_perm; perm.
Qed.

Lemma weak_step cp t p a w b n z : zok (S n) ((Lf, cp, p, N black a w b) :: z) \/ zok (S n) ((Rt, cp, p, N black a w b) :: z) -> rb n t -> rb n a -> rb n b -> blackt a -> blackt b ->
  exists m, zok (S m) z /\ weak m (N cp t p (N red a w b)) /\ weak m (N cp (N red a w b) p t).
Proof.
  intros ZO Rt' Ra Rb Ba Bb. destruct cp; cbn [zok] in ZO; [exists n|exists (S n)]; cbn [weak rb]; tauto.
Qed.

Lemma remove_fix : forall k z, length z <= k -> forall fuel h t n F, k + 2 <= fuel -> zok (S n) z -> weak n t ->
  holds h (znodes z (root t) ++ nodes t (zroot z) ++ F) ->
  exists h' head', remove_colour fuel h (top z (root t)) (zroot z) (root t) = Ok (h', head') /\ repaired z t F h' head'.
Proof.
  induction k as [k IH] using lt_wf_ind. intros z LZ fuel h t n F FU ZO W H.
  destruct fuel as [|fuel]; [lia|].
  destruct (col_dec t) as [(l & x & r & ->)|Bt]; [apply (remove_exit fuel h z (N red l x r) n F I ZO W H)|].
  destruct z as [|[[[d cp] p] s] z]; [apply (remove_exit fuel h [] t n F); auto; destruct t as [|[|] l x r]; auto|].
  assert (Rt' : rb n t) by (destruct t as [|[|] l x r]; cbn [weak] in W; [exact W|contradiction|exact W]). clear W.
  pose proof (top_not h ((d, cp, p, s) :: z) t F ltac:(discriminate) H) as NT.
  cbn [remove_colour].
  assert (HB : holds h (nodes t (zroot ((d, cp, p, s) :: z)) ++ znodes ((d, cp, p, s) :: z) (root t) ++ F)) by (revert H; apply holds_perm; rewrite !app_assoc; apply Permutation_app_tail, Permutation_app_comm).
  rewrite (black_node_ok h t _ _ HB). clear HB. cbn [obind].
  replace (match t with N red _ _ _ => false | _ => true end) with true by (destruct t as [|[|] ? ? ?]; [reflexivity|contradiction|reflexivity]).
  rewrite (proj2 (Nat.eqb_neq _ _) NT). cbn [negb andb]. cbn [zroot top length] in *.
  assert (Rs : rb (S n) s) by (destruct cp; cbn [zok] in ZO; tauto).
  destruct d.
  - flat H. ld H. rewrite Nat.eqb_refl. destruct s as [|[|] a w b]; [cbn [rb] in Rs; discriminate Rs| |]; cbn [root] in *; ld H.
    + (* red sibling *)
      destruct cp; [cbn [zok blackt] in ZO; tauto|]. destruct Rs as (Ra & Rb & Ba & Bb). destruct ZO as [_ ZO].
      unfold set_blackred. st H. st H. form z (N red t p (N black a w b)) F H. rotl z H. ld H.
      destruct a as [|[|] a1 v a2]; [cbn [rb] in Ra; discriminate Ra|contradiction|]. cbn [root]. nz v H. cbn [negb guard obind].
      change (remove_colour fuel) with (remove_colour fuel).
      assert (ZO' : zok (S n) ((Lf, red, p, N black a1 v a2) :: (Lf, black, w, b) :: z)) by (cbn [zok zblack blackt]; tauto).
      form ((Lf, black, w, b) :: z) (N red t p (N black a1 v a2)) F H.
      destruct (half_l_ok (remove_colour fuel) h2 ((Lf, black, w, b) :: z) red p t a1 v a2 n F ZO' Rt' Bt H) as [(h' & hd & E' & RP)|(h' & E' & Q1 & Q2 & Q3 & Q4 & H')].
      * unfold half_l in E'. cbn [top] in E'. cbn [top]. exists h', hd. split; [exact E'|]. destruct RP as (T & A & B & C & D). exists T. split; [exact A|]. split; [exact B|]. split; [exact C|]. rewrite D. ino.
      * unfold half_l in E'. cbn [top] in E'. cbn [top]. rewrite E'. clear E'. destruct fuel as [|fuel]; [lia|].
        destruct (remove_exit fuel h' ((Lf, black, w, b) :: z) (N red t p (N red a1 v a2)) n F I) as (h3 & hd & E' & T & A & B & C & D);
          [cbn [zok] in *; tauto|cbn [weak rb]; tauto|exact H'|]. exists h3, hd. split; [exact E'|]. exists T. split; [exact A|]. split; [exact B|]. split; [exact C|]. rewrite D. ino.
    + (* black sibling *)
      form z (N cp t p (N black a w b)) F H.
      destruct (half_l_ok (remove_colour fuel) h z cp p t a w b n F ZO Rt' Bt H) as [(h' & hd & E' & RP)|(h' & E' & Q1 & Q2 & Q3 & Q4 & H')].
      * unfold half_l in E'. exists h', hd. split; [exact E'|exact RP].
      * unfold half_l in E'. cbn [top] in E'. rewrite E'. clear E'. destruct (weak_step cp t p a w b n z ltac:(auto) Rt' Q1 Q2 Q3 Q4) as (m & M1 & M2 & _).
        destruct (IH (k - 1) ltac:(lia) z ltac:(lia) fuel h' (N cp t p (N red a w b)) m F ltac:(lia) M1 M2 H') as (h3 & hd & E' & T & A & B & C & D).
        exists h3, hd. split; [exact E'|]. exists T. split; [exact A|]. split; [exact B|]. split; [exact C|]. rewrite D. ino.
  - flat H. ld H. assert (NE : root s <> root t).
    { destruct s as [|c a w b]; [cbn [rb] in Rs; discriminate Rs|]. cbn [root]. neroot w t p H NE. congruence. }
    eqb_no NE. destruct s as [|[|] a w b]; [cbn [rb] in Rs; discriminate Rs| |]; cbn [root] in *; ld H.
    + (* red sibling *)
      destruct cp; [cbn [zok blackt] in ZO; tauto|]. destruct Rs as (Ra & Rb & Ba & Bb). destruct ZO as [_ ZO].
      unfold set_blackred. st H. st H. form z (N red (N black a w b) p t) F H. rotr z H. ld H.
      destruct b as [|[|] a1 v a2]; [cbn [rb] in Rb; discriminate Rb|contradiction|]. cbn [root]. nz v H. cbn [negb guard obind].
      assert (ZO' : zok (S n) ((Rt, red, p, N black a1 v a2) :: (Rt, black, w, a) :: z)) by (cbn [zok zblack blackt]; tauto).
      form ((Rt, black, w, a) :: z) (N red (N black a1 v a2) p t) F H.
      destruct (half_r_ok (remove_colour fuel) h2 ((Rt, black, w, a) :: z) red p t a1 v a2 n F ZO' Rt' Bt H) as [(h' & hd & E' & RP)|(h' & E' & Q1 & Q2 & Q3 & Q4 & H')].
      * unfold half_r in E'. cbn [top] in E'. cbn [top]. exists h', hd. split; [exact E'|]. destruct RP as (T & A & B & C & D). exists T. split; [exact A|]. split; [exact B|]. split; [exact C|]. rewrite D. ino.
      * unfold half_r in E'. cbn [top] in E'. cbn [top]. rewrite E'. clear E'. destruct fuel as [|fuel]; [lia|].
        destruct (remove_exit fuel h' ((Rt, black, w, a) :: z) (N red (N red a1 v a2) p t) n F I) as (h3 & hd & E' & T & A & B & C & D);
          [cbn [zok] in *; tauto|cbn [weak rb]; tauto|exact H'|]. exists h3, hd. split; [exact E'|]. exists T. split; [exact A|]. split; [exact B|]. split; [exact C|]. rewrite D. ino.
    + (* black sibling *)
      form z (N cp (N black a w b) p t) F H.
      destruct (half_r_ok (remove_colour fuel) h z cp p t a w b n F ZO Rt' Bt H) as [(h' & hd & E' & RP)|(h' & E' & Q1 & Q2 & Q3 & Q4 & H')].
      * unfold half_r in E'. exists h', hd. split; [exact E'|exact RP].
      * unfold half_r in E'. cbn [top] in E'. rewrite E'. clear E'. destruct (weak_step cp t p a w b n z ltac:(auto) Rt' Q1 Q2 Q3 Q4) as (m & M1 & _ & M2).
        destruct (IH (k - 1) ltac:(lia) z ltac:(lia) fuel h' (N cp (N red a w b) p t) m F ltac:(lia) M1 M2 H') as (h3 & hd & E' & T & A & B & C & D).
        exists h3, hd. split; [exact E'|]. exists T. split; [exact A|]. split; [exact B|]. split; [exact C|]. rewrite D. ino.
Qed.

Fixpoint height (t : tree) : nat := match t with E => 0 | N _ l _ r => S (Nat.max (height l) (height r)) end.
Lemma height_plug z : forall t, length z + height t <= height (plug z t).
Proof.
  induction z as [|[[[[|] c] a] s] z IH]; intros t; cbn [length plug fill]; [lia| |]; (etransitivity; [|apply IH]); cbn [height]; lia.
Qed.
Lemma plug_zok z : forall t m, rb m (plug z t) -> blackt (plug z t) -> exists n, zok n z /\ rb n t /\ (blackt t \/ zblack z).
Proof.
  induction z as [|[[[[|] c] a] s] z IH]; intros t m R B; cbn [plug fill] in *; [exists m; cbn [zok]; auto| |];
    destruct (IH _ _ R B) as (n & Z & RN & BZ); destruct c; cbn [rb blackt zok zblack] in *.
  - exists n. destruct BZ as [[]|BZ]. tauto.
  - destruct n; [contradiction|]. exists n. tauto.
  - exists n. destruct BZ as [[]|BZ]. tauto.
  - destruct n; [contradiction|]. exists n. tauto.
Qed.
(** taking out a node with at most one child *)
Lemma unlink_ok h z cm l m r t F : (l = E /\ t = r) \/ (r = E /\ t = l) -> holds h (znodes z m ++ nodes (N cm l m r) (zroot z) ++ F) ->
  exists h', (h <- (if root t =? 0 then Ok h else setp h (root t) (zroot z)) ;; relink h (top z m) (zroot z) m (root t)) = Ok (h', top z (root t))
    /\ holds h' (znodes z (root t) ++ nodes t (zroot z) ++ (m, mknode cm (root l) (root r) (zroot z)) :: F).
Proof.
  intros HT H.
  assert (H0 : holds h (znodes z m ++ nodes t m ++ (m, mknode cm (root l) (root r) (zroot z)) :: F)) by (destruct HT as [[-> ->]|[-> ->]]; revert H; apply holds_perm; perm).
  clear H HT. rename H0 into H. generalize dependent (root l). intros lv H. generalize dependent (root r). intros rv H.
  assert (STEP : exists h1, (if root t =? 0 then Ok h else setp h (root t) (zroot z)) = Ok h1 /\ holds h1 (znodes z m ++ nodes t (zroot z) ++ (m, mknode cm lv rv (zroot z)) :: F)).
  { destruct t as [|ct t1 x t2]; cbn [root Nat.eqb]; [fin H|]. flat H. nz x H. st H. fin H. }
  destruct STEP as (h1 & E1 & H1). rewrite E1. cbn [obind]. clear H E1. rename H1 into H. unfold relink.
  destruct z as [|[[[[|] cp] p] s] z]; cbn [zroot top] in *.
  - cbn [Nat.eqb]. fin H.
  - flat H. nz p H. ld H. rewrite Nat.eqb_refl. st H. fin H.
  - flat H. nz p H. ld H. neroot m s p H NE. eqb_no NE. st H. fin H.
Qed.
Lemma leftmost_split : forall r, r <> E -> exists c2 cm m rm, r = plug c2 (N cm E m rm) /\ zleft c2 = [] /\
  forall fuel h p L, holds h (nodes r p ++ L) -> length c2 < fuel -> leftmost fuel h (root r) = Ok m.
Proof.
  induction r as [|c l IH a r _]; intros NE; [congruence|]. destruct l as [|c2 l1 x l2].
  - exists [], c, a, r. split; [reflexivity|]. split; [reflexivity|]. intros fuel h p L H LT. destruct fuel; [lia|]. cbn [leftmost root]. flat H. ld H. reflexivity.
  - destruct (IH ltac:(discriminate)) as (z & cm & m & rm & EQ & ZL & LM). exists (z ++ [(Lf, c, a, r)]), cm, m, rm. split; [rewrite plug_app, <- EQ; reflexivity|].
    split. { clear -ZL. induction z as [|[[[[|] ?] ?] ?] z IH]; cbn [app zleft] in *; [reflexivity|auto|]. apply app_eq_nil in ZL. destruct ZL as [_ ZL]. apply app_eq_nil in ZL. destruct ZL; discriminate. }
    intros fuel h p L H LT. rewrite app_length in LT. cbn [length] in LT. destruct fuel; [lia|]. cbn [leftmost root]. flat H. ld H. cbn [root]. nz x H.
    apply (LM fuel h a ((a, mknode c x (root r) p) :: nodes r a ++ L)); [|lia]. revert H; apply holds_perm; perm.
Qed.
Lemma zok_readdress c2 : forall n d co a b l c, zok n (c2 ++ (d, co, a, l) :: c) -> zok n (c2 ++ (d, co, b, l) :: c).
Proof.
  induction c2 as [|[[[d' [|]] x] s] z IH]; intros n d co a b l c Z; cbn [app zok] in *; [exact Z| |].
  - destruct Z as (A1 & A2 & A3 & A4). split; [exact A1|]. split; [exact A2|]. split; [destruct z as [|f z]; exact A3|eapply IH, A4].
  - destruct Z as (A1 & A2). split; [exact A1|eapply IH, A2].
Qed.
Lemma mid_ok h z co l old R m cm' lv rv pv F : l <> E -> holds h (znodes z old ++ nodes (N co l old R) (zroot z) ++ (m, mknode cm' lv rv pv) :: F) ->
  exists h' n', (o <- load h old ;;
    h <- setl h m (left o) ;; h <- setr h m (right o) ;; h <- setp h m (parent o) ;; h <- setc h m (colour o) ;;
    ' (h, head) <- relink h (top z old) (parent o) old m ;;
    o <- load h old ;;
    h <- setp h (left o) m ;;
    h <- (if right o =? 0 then Ok h else setp h (right o) m) ;; Ok (h, head)) = Ok (h', top z m)
  /\ holds h' (znodes z m ++ nodes (N co l m R) (zroot z) ++ (old, n') :: F).
Proof.
  intros NL H. flat H. ld H. st H. st H. st H. st H. clear h0 h1 h2. rename h3 into h1.
  assert (STEP : exists h2, relink h1 (top z old) (zroot z) old m = Ok (h2, top z m)
    /\ holds h2 (znodes z m ++ (old, mknode co (root l) (root R) (zroot z)) :: (m, mknode co (root l) (root R) (zroot z)) :: nodes l old ++ nodes R old ++ F)).
  { unfold relink. destruct z as [|[[[[|] cp] p] s] z]; cbn [zroot top] in *.
    - cbn [Nat.eqb]. fin H.
    - flat H. nz p H. ld H. rewrite Nat.eqb_refl. st H. fin H.
    - flat H. nz p H. ld H. neroot old s p H NE. eqb_no NE. st H. fin H. }
  destruct STEP as (h2 & E2 & H2). rewrite E2. cbn [obind]. clear H E2. rename H2 into H. ld H.
  destruct l as [|cl l1 x l2]; [congruence|]. cbn [root]. flat H. st H.
  destruct R as [|cr r1 y r2]; cbn [root Nat.eqb obind].
  - eexists _, (mknode co x 0 (zroot z)). split; [reflexivity|]. revert H; apply holds_perm; perm.
  - flat H. nz y H. st H. eexists _, (mknode co x y (zroot z)). split; [reflexivity|]. revert H; apply holds_perm; perm.
Qed.

Definition removed (c : list frame) (l : tree) (old : nat) (r : tree) (F : cellsof) (h' : nheap) (head' : nat) : Prop :=
  exists T n', head' = root T /\ holds h' (nodes T 0 ++ (old, n') :: F) /\ rbtree T /\ inorder T = zleft c ++ inorder l ++ inorder r ++ zright c.

(** colour repair after taking out a node of colour cm from context z with child t *)
Lemma after_unlink fuel h z cm l m r t n F : length z + 2 <= fuel -> (l = E /\ t = r) \/ (r = E /\ t = l) -> zok n z -> rb n (N cm l m r) ->
  holds h (znodes z (root t) ++ nodes t (zroot z) ++ F) ->
  exists h' head', (if is_red cm then Ok (h, top z (root t)) else remove_colour fuel h (top z (root t)) (zroot z) (root t)) = Ok (h', head') /\ (zblack z \/ blackt (N cm l m r) -> repaired z t F h' head').
Proof.
  intros FU HT ZO R H. destruct cm; cbn [is_red].
  - exists h, (top z (root t)). split; [reflexivity|]. intros [ZB|[]].
    assert (t = E /\ n = 0) as [-> ->].
    { cbn [rb] in R. destruct R as (R1 & R2 & B1 & B2). destruct HT as [[-> ->]|[-> ->]]; cbn [rb] in *; (split; [|assumption]); subst n.
      - destruct r as [|[|] ? ? ?]; [reflexivity|contradiction|contradiction].
      - destruct l as [|[|] ? ? ?]; [reflexivity|contradiction|contradiction]. }
    destruct (zok_plug z 0 E ZO eq_refl ltac:(left; exact I)) as (k & RK & BK). exists (plug z E). split; [rewrite root_plug; reflexivity|].
    split; [apply rep_plug; exact H|]. split; [split; [exact BK|now exists k]|reflexivity].
  - destruct n as [|n]; [contradiction|]. destruct R as [R1 R2].
    destruct (remove_fix (length z) z (le_n _) fuel h t n F FU ZO) as (h' & hd & E' & RP); [apply rb_weak; destruct HT as [[-> ->]|[-> ->]]; assumption|exact H|].
    exists h', hd. split; [exact E'|intros _; exact RP].
Qed.

Lemma remove_ok fuel h c co l old r F : rbtree (plug c (N co l old r)) -> height (plug c (N co l old r)) + 2 <= fuel ->
  holds h (nodes (plug c (N co l old r)) 0 ++ F) ->
  exists h' head', remove fuel h (root (plug c (N co l old r))) old = Ok (h', head', old) /\ removed c l old r F h' head'.
Proof.
  intros [BT (m0 & RT)] FU H. pose proof (height_plug c (N co l old r)) as HP.
  destruct (plug_zok c _ m0 RT BT) as (n & ZO & R & BZ). apply rep_plug in H. rewrite root_plug. cbn [root] in *.
  unfold remove.
  assert (LO : load h old = Ok (mknode co (root l) (root r) (zroot c))) by (flat H; bring old H; apply (holds_head _ _ _ _ H)).
  rewrite LO. cbn [obind left right parent colour].
  assert (CASES : (exists t, ((l = E /\ t = r) \/ (r = E /\ t = l)) /\ (root l =? 0) || (root r =? 0) = true /\ (if root l =? 0 then root r else root l) = root t)
    \/ (l <> E /\ r <> E /\ (root l =? 0) || (root r =? 0) = false)).
  { destruct l as [|cl l1 x l2]; [left; exists r; cbn [root Nat.eqb orb]; auto|]. flat H. cbn [root]. nz x H.
    destruct r as [|cr r1 y r2]; [left; exists (N cl l1 x l2); cbn [root Nat.eqb orb]; auto|]. right. flat H. cbn [root]. nz y H. split; [discriminate|]. split; [discriminate|reflexivity]. }
  destruct CASES as [(t & HT & E1 & E2)|(NL & NR & E1)]; rewrite E1; clear E1.
  - (* at most one child *)
    rewrite E2. clear E2 LO. destruct (unlink_ok h c co l old r t F HT H) as (h1 & E1 & H1).
    apply obind_ok in E1. destruct E1 as (h0 & E0 & E1). rewrite E0. cbn [obind]. rewrite E1. cbn [obind].
    destruct (after_unlink fuel h1 c co l old r t n ((old, mknode co (root l) (root r) (zroot c)) :: F) ltac:(lia) HT ZO R H1) as (h' & hd & E' & RP).
    rewrite E'. cbn [obind]. exists h', hd. split; [reflexivity|]. destruct (RP ltac:(tauto)) as (T & A & B & C & D). exists T, (mknode co (root l) (root r) (zroot c)).
    split; [exact A|]. split; [exact B|]. split; [exact C|]. rewrite D, inorder_plug. destruct HT as [[-> ->]|[-> ->]]; cbn [inorder app]; now rewrite ?app_nil_r.
  - (* two children *)
    destruct (leftmost_split r NR) as (c2 & cm & m & rm & ER & ZL & LM).
    assert (LR : leftmost fuel h (root r) = Ok m).
    { apply (LM fuel h old ((old, mknode co (root l) (root r) (zroot c)) :: nodes l old ++ znodes c old ++ F)); [revert H; apply holds_perm; perm|].
      pose proof (height_plug c2 (N cm E m rm)) as HQ. rewrite <- ER in HQ. cbn [height] in *. lia. }
    rewrite LR. cbn [obind]. clear LR LM LO.
    set (z := c2 ++ (Rt, co, old, l) :: c).
    assert (EZ : plug z (N cm E m rm) = plug c (N co l old r)) by (unfold z; rewrite plug_app, <- ER; reflexivity).
    assert (HZ : holds h (znodes z m ++ nodes (N cm E m rm) (zroot z) ++ F)) by (apply (rep_plug h z (N cm E m rm) F); rewrite EZ; apply rep_plug; exact H).
    assert (TZ : top c old = top z m) by (pose proof (root_plug z (N cm E m rm)) as Q; rewrite EZ, root_plug in Q; exact Q).
    assert (LM : load h m = Ok (mknode cm 0 (root rm) (zroot z))) by (flat HZ; bring m HZ; apply (holds_head _ _ _ _ HZ)).
    rewrite LM. cbn [obind left right parent colour]. clear LM H.
    destruct (unlink_ok h z cm E m rm rm F ltac:(auto) HZ) as (h1 & E1 & H1). rewrite TZ.
    apply obind_ok in E1. destruct E1 as (h0 & E0 & E1). rewrite E0. cbn [obind]. rewrite E1. cbn [obind]. clear E0 E1 HZ h0. cbn [root] in H1.
    assert (LM : load h1 m = Ok (mknode cm 0 (root rm) (zroot z))) by (flat H1; bring m H1; apply (holds_head _ _ _ _ H1)).
    rewrite LM. cbn [obind parent]. clear LM.
    set (R' := plug c2 rm). assert (EZ1 : plug z rm = plug c (N co l old R')) by (unfold z, R'; rewrite plug_app; reflexivity).
    assert (H2 : holds h1 (znodes c old ++ nodes (N co l old R') (zroot c) ++ (m, mknode cm 0 (root rm) (zroot z)) :: F)).
    { apply (rep_plug h1 c (N co l old R')). rewrite <- EZ1. apply rep_plug. exact H1. }
    assert (TZ1 : top z (root rm) = top c old) by (pose proof (root_plug z rm) as Q; rewrite EZ1, root_plug in Q; symmetry; exact Q). rewrite TZ1.
    assert (NZ : (zroot z =? old) = match c2 with [] => true | _ => false end).
    { unfold z. destruct c2 as [|[[[d2 c3] q] s] c2]; cbn [app zroot]; [apply Nat.eqb_refl|]. apply Nat.eqb_neq. intros ->.
      apply holds_app in H1. destruct H1 as [[ND _] _]. clear - ND. unfold z in ND. revert ND.
      assert (IN : forall x, In old (map fst (znodes (c2 ++ (Rt, co, old, l) :: c) x))).
      { clear. induction c2 as [|[[[d c3] q] s] c2 IH]; intros x; cbn [app znodes]; [now left|]. destruct d; cbn [map fst]; right; rewrite map_app; apply in_or_app; right; apply IH. }
      destruct d2; cbn [app znodes map fst]; intros ND; inversion ND as [|? ? NI _]; subst; apply NI; rewrite map_app; apply in_or_app; right; apply IN. }
    rewrite NZ. clear NZ H1.
    destruct (mid_ok h1 c co l old R' m cm 0 (root rm) (zroot z) F NL H2) as (h3 & n3 & E3 & H3).
    apply obind_ok in E3. destruct E3 as (o & L1 & E3). rewrite L1. cbn [obind].
    apply obind_ok in E3. destruct E3 as (g1 & L2 & E3). rewrite L2. cbn [obind].
    apply obind_ok in E3. destruct E3 as (g2 & L3 & E3). rewrite L3. cbn [obind].
    apply obind_ok in E3. destruct E3 as (g3 & L4 & E3). rewrite L4. cbn [obind].
    apply obind_ok in E3. destruct E3 as (g4 & L5 & E3). rewrite L5. cbn [obind].
    apply obind_ok in E3. destruct E3 as ([g5 hd5] & L6 & E3). rewrite L6. cbn [obind].
    apply obind_ok in E3. destruct E3 as (o2 & L7 & E3). rewrite L7. cbn [obind].
    apply obind_ok in E3. destruct E3 as (g6 & L8 & E3). rewrite L8. cbn [obind].
    apply obind_ok in E3. destruct E3 as (g7 & L9 & E3). rewrite L9. cbn [obind].
    assert (g7 = h3 /\ hd5 = top c m) as [-> ->] by (split; congruence). clear L1 L2 L3 L4 L5 L6 L7 L8 L9 E3 o o2 g1 g2 g3 g4 g5 g6.
    set (z' := c2 ++ (Rt, co, m, l) :: c).
    assert (EZ2 : plug z' rm = plug c (N co l m R')) by (unfold z', R'; rewrite plug_app; reflexivity).
    assert (TZ2 : top c m = top z' (root rm)) by (pose proof (root_plug z' rm) as Q; rewrite EZ2, root_plug in Q; exact Q). rewrite TZ2.
    assert (PZ : (if match c2 with [] => true | _ => false end then m else zroot z) = zroot z') by (unfold z, z'; destruct c2 as [|[[[? ?] ?] ?] c2]; reflexivity). rewrite PZ.
    assert (H4 : holds h3 (znodes z' (root rm) ++ nodes rm (zroot z') ++ (old, n3) :: F)).
    { apply rep_plug. rewrite EZ2. apply (rep_plug h3 c (N co l m R')). exact H3. }
    rewrite <- EZ in RT, BT. destruct (plug_zok z _ m0 RT BT) as (n' & ZO' & R2 & BZ').
    assert (LZ : length z' = length z) by (unfold z, z'; rewrite !app_length; reflexivity).
    pose proof (height_plug z (N cm E m rm)) as HQ. rewrite EZ in HQ.
    destruct (after_unlink fuel h3 z' cm E m rm rm n' ((old, n3) :: F) ltac:(lia) ltac:(auto) ltac:(eapply zok_readdress; exact ZO') R2 H4) as (h' & hd & E' & RP).
    rewrite E'. cbn [obind]. exists h', hd. split; [reflexivity|].
    assert (ZB : zblack z' \/ blackt (N cm E m rm)).
    { destruct BZ' as [B|B]; [now right|]. left. unfold z, z' in *. destruct c2 as [|[[[? ?] ?] ?] c2]; exact B. }
    destruct (RP ZB) as (T & A & B & C & D). exists T, n3. split; [exact A|]. split; [exact B|]. split; [exact C|].
    rewrite D, EZ2, inorder_plug, ER. cbn [inorder]. unfold R'. rewrite !inorder_plug, ZL. cbn [inorder app]. repeat (progress (cbn [app]; rewrite <- ?app_assoc)). reflexivity.
Qed.
