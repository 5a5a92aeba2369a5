(** Tokenisers of zt_cstr.c: split, cut, tok. *)
From Verif Require Import Prelude CstrModel CstrSpec CstrProofs CstrSearch CstrText.
Open Scope Z_scope.

Lemma fields_ne delim s : fields delim s <> [].
Proof. destruct s as [|c s]; cbn [fields]; [discriminate|]. destruct (existsb _ _); [discriminate|]. destruct (fields delim s); discriminate. Qed.
Lemma fields_delim delim c s : In c delim -> fields delim (c :: s) = [] :: fields delim s.
Proof. intros H. apply inset_In in H. cbn [fields]. unfold inset in H. rewrite H. reflexivity. Qed.
Lemma fields_tok delim t : Forall (fun c => ~ In c delim) t -> forall r,
  match r with [] => True | d :: _ => In d delim end ->
  fields delim (t ++ r) = match r with [] => [t] | _ :: r' => t :: fields delim r' end.
Proof.
  induction 1 as [|c t Hc Ht IH]; intros r Hr; cbn [app].
  - destruct r as [|d r]; [reflexivity|]. apply fields_delim, Hr.
  - cbn [fields]. rewrite IH by assumption.
    replace (existsb (Z.eqb c) delim) with false by (symmetry; apply not_true_iff_false; intros H; apply Hc, inset_In, H).
    destruct r; reflexivity.
Qed.

Lemma strspn_split s set : exists a b, s = a ++ b /\ Z.to_nat (strspn s set) = length a /\ Forall (fun c => In c set) a /\
  match b with [] => True | c :: _ => ~ In c set end.
Proof.
  induction s as [|c s (a & b & E & L & F & H)]; cbn [strspn].
  - exists [], []. repeat split; auto.
  - destruct (inset set c) eqn:Ec.
    + exists (c :: a), b. pose proof (strspn_nonneg s set). repeat split; auto.
      * cbn. congruence. * cbn [length]. lia. * constructor; [apply inset_In; assumption|assumption].
    + exists [], (c :: s). repeat split; auto. intros Hi. apply inset_In in Hi. congruence.
Qed.
Lemma strcspn_split s set : exists a b, s = a ++ b /\ Z.to_nat (strcspn s set) = length a /\ Forall (fun c => ~ In c set) a /\
  match b with [] => True | c :: _ => In c set end.
Proof.
  induction s as [|c s (a & b & E & L & F & H)]; cbn [strcspn].
  - exists [], []. repeat split; auto.
  - destruct (inset set c) eqn:Ec.
    + exists [], (c :: s). repeat split; auto. apply inset_In. assumption.
    + exists (c :: a), b. pose proof (strcspn_nonneg s set). repeat split; auto.
      * cbn. congruence. * cbn [length]. lia. * constructor; [|assumption]. intros Hi. apply inset_In in Hi. congruence.
Qed.
Lemma fields_skip delim a b : Forall (fun c => In c delim) a ->
  filter nonempty (fields delim (a ++ b)) = filter nonempty (fields delim b).
Proof. induction 1 as [|c a Hc Ha IH]; [reflexivity|]. cbn [app]. rewrite fields_delim by assumption. exact IH. Qed.

Lemma split_loop_ok delim : forall fuel s, (length s < fuel)%nat ->
  split_loop fuel s delim = Ok (filter nonempty (fields delim s)).
Proof.
  induction fuel as [|f IH]; intros s Hf; [lia|]. cbn [split_loop]. unfold strtok.
  destruct (strspn_split s delim) as (a & b & E & L & F & H). rewrite L.
  rewrite E, skipn_app_exact. rewrite fields_skip by assumption.
  destruct b as [|c b]; [reflexivity|].
  destruct (strcspn_split (c :: b) delim) as (t & r & E2 & L2 & F2 & H2). rewrite L2.
  assert (Ht : t <> []). { intros ->. cbn [app] in E2. subst r. auto. }
  assert (Hlen : length (a ++ c :: b) = (length a + length t + length r)%nat).
  { rewrite E2, !app_length. lia. }
  rewrite E2. rewrite (fields_tok delim t F2 r H2). rewrite firstn_app, firstn_all, Nat.sub_diag. cbn [firstn]. rewrite app_nil_r.
  rewrite <- skipn_skipn, skipn_app_exact.
  assert (length s = (length a + length t + length r)%nat) by (rewrite E; exact Hlen).
  assert (length t <> O) by (destruct t; [congruence|discriminate]).
  destruct r as [|d r]; cbn [skipn].
  - rewrite IH by (cbn [length] in *; lia). cbn [obind fields filter nonempty]. destruct t; [congruence|reflexivity].
  - rewrite IH by (cbn [length] in *; lia). cbn [obind filter]. destruct t; [congruence|reflexivity].
Qed.
Lemma split_ok s delim : zt_cstr_split s delim = Ok (filter nonempty (fields delim s)).
Proof. apply split_loop_ok. lia. Qed.

(** facts that make the specification readable: tokens are exactly the maximal runs *)
Lemma fields_nodelim delim s : Forall (fun t => Forall (fun c => ~ In c delim) t) (fields delim s).
Proof.
  induction s as [|c s IH]; cbn [fields]; [repeat constructor|].
  destruct (existsb (Z.eqb c) delim) eqn:E; [constructor; auto|].
  destruct (fields delim s) as [|f fs]; [|inversion IH; subst; constructor; auto];
  constructor; auto; try constructor; auto; intros Hi; apply inset_In in Hi; unfold inset in Hi; congruence.
Qed.
Lemma fields_concat delim s : concat (fields delim s) = filter (fun c => negb (existsb (Z.eqb c) delim)) s.
Proof.
  induction s as [|c s IH]; cbn [fields filter]; [reflexivity|].
  destruct (existsb (Z.eqb c) delim); cbn [negb]; [exact IH|].
  pose proof (fields_ne delim s). destruct (fields delim s) as [|f fs]; [congruence|]. cbn [concat app] in *. congruence.
Qed.
Lemma concat_filter_nonempty (l : list (list Z)) : concat (filter nonempty l) = concat l.
Proof. induction l as [|x l IH]; [reflexivity|]. cbn [filter]. destruct x; cbn [nonempty concat app]; congruence. Qed.

Lemma split_facts s delim : exists ts, zt_cstr_split s delim = Ok ts /\
  Forall (fun t => t <> [] /\ Forall (fun c => ~ In c delim) t) ts /\
  concat ts = filter (fun c => negb (existsb (Z.eqb c) delim)) s.
Proof.
  eexists. split; [apply split_ok|]. split; [|rewrite concat_filter_nonempty; apply fields_concat].
  pose proof (fields_nodelim delim s) as H. rewrite Forall_forall in H. apply Forall_forall. intros t Ht.
  apply filter_In in Ht as (Ht & Hn). split; [destruct t; discriminate|]. auto.
Qed.

(** cut *)
Fixpoint cuts (delim : Z) (keep : bool) (s : list Z) : list (list Z) :=
  match s with
  | [] => []
  | c :: r => if (c =? delim) && nonempty r then (if keep then c :: r else r) :: cuts delim keep r
              else cuts delim keep r
  end.
Lemma index_of_split s c : match index_of s c with
  | None => ~ In c s
  | Some k => exists a b, s = a ++ c :: b /\ length a = k /\ ~ In c a
  end.
Proof.
  induction s as [|x s IH]; cbn [index_of]; [auto|].
  destruct (x =? c) eqn:E.
  - apply Z.eqb_eq in E. subst x. exists [], s. auto.
  - destruct (index_of s c) as [k|]; cbn [option_map].
    + destruct IH as (a & b & -> & L & N). exists (x :: a), b. cbn. repeat split; [lia|]. intros [H|H]; [lia|auto].
    + cbn. intros [H|H]; [lia|auto].
Qed.
Lemma cuts_skip d k a b : ~ In d a -> cuts d k (a ++ b) = cuts d k b.
Proof.
  induction a as [|x a IH]; intros H; [reflexivity|]. cbn [app cuts]. cbn [In] in H.
  replace (x =? d) with false by lia. cbn [andb]. apply IH. tauto.
Qed.
Lemma cut_loop_ok d k : d <> 0 -> forall fuel s, (length s < fuel)%nat -> cut_loop fuel s d k = Ok (cuts d k s).
Proof.
  intros Hd. induction fuel as [|f IH]; intros s Hf; [lia|]. cbn [cut_loop]. replace (d =? 0) with false by lia.
  pose proof (index_of_split s d) as H. destruct (index_of s d) as [n|].
  - destruct H as (a & b & E & L & N). rewrite E, <- L. rewrite cuts_skip by assumption.
    replace (skipn (length a + 1) (a ++ d :: b)) with b.
    2:{ rewrite <- skipn_skipn, skipn_app_exact. reflexivity. }
    destruct b as [|x b].
    + cbn [cuts nonempty]. rewrite andb_false_r. reflexivity.
    + rewrite IH by (rewrite E, app_length in Hf; cbn [length] in *; lia).
      cbn [cuts nonempty]. rewrite Z.eqb_refl. cbn [andb obind]. reflexivity.
  - f_equal. rewrite <- (app_nil_r s). rewrite cuts_skip by assumption. reflexivity.
Qed.
Lemma cut_ok s d k : d <> 0 -> zt_cstr_cut s d k = Ok (cuts d k s).
Proof. intros H. apply cut_loop_ok; [assumption|lia]. Qed.

(** tok *)
Definition prefixes (d : Z) (s : list Z) : list (list Z) :=
  s :: rev (map (fun k => firstn k s) (filter (fun k => nth k s 0 =? d) (seq 1 (length s - 1)))).
Lemma rindex_of_split s c : match rindex_of s c with
  | None => ~ In c s
  | Some k => exists a b, s = a ++ c :: b /\ length a = k /\ ~ In c b
  end.
Proof.
  induction s as [|x s IH]; cbn [rindex_of]; [auto|].
  destruct (rindex_of s c) as [k|].
  - destruct IH as (a & b & -> & L & N). exists (x :: a), b. cbn. auto.
  - destruct (x =? c) eqn:E.
    + apply Z.eqb_eq in E. subst x. exists [], s. auto.
    + cbn. intros [H|H]; [lia|auto].
Qed.
Lemma filter_none {A} (P : A -> bool) l : (forall x, In x l -> P x = false) -> filter P l = [].
Proof. induction l as [|x l IH]; intros H; [reflexivity|]. cbn [filter]. rewrite (H x) by (left; reflexivity). apply IH. intros; apply H; right; assumption. Qed.
Lemma tok_loop_ok d : d <> 0 -> forall fuel s, (length s < fuel)%nat -> tok_loop fuel s d = Ok (prefixes d s).
Proof.
  intros Hd. induction fuel as [|f IH]; intros s Hf; [lia|]. cbn [tok_loop].
  pose proof (rindex_of_split s d) as H. destruct (rindex_of s d) as [[|k]|].
  - destruct H as (a & b & E & L & N). destruct a; [|discriminate]. cbn [app] in E. unfold prefixes.
    rewrite filter_none; [reflexivity|]. intros k Hk. apply in_seq in Hk. subst s. cbn [length] in Hk.
    destruct k as [|k]; [lia|]. cbn [nth]. apply Z.eqb_neq. apply nth_notin; assumption.
  - destruct H as (a & b & E & L & N).
    assert (Hls : length s = (S k + S (length b))%nat) by (rewrite E, app_length; cbn [length]; lia).
    rewrite IH by (rewrite firstn_length; lia). cbn [obind]. f_equal. unfold prefixes. f_equal.
    rewrite firstn_length, Nat.min_l by lia.
    replace (length s - 1)%nat with ((S k - 1) + S (length b))%nat by lia.
    rewrite seq_app, filter_app, map_app, rev_app_distr.
    replace (1 + (S k - 1))%nat with (S k) by lia. cbn [seq]. cbn [filter].
    replace (nth (S k) s 0) with d.
    2:{ rewrite E, app_nth2 by lia. rewrite L, Nat.sub_diag. reflexivity. }
    rewrite Z.eqb_refl. rewrite (filter_none _ (seq (S (S k)) (length b))).
    2:{ intros x Hx. apply in_seq in Hx. rewrite E, app_nth2 by lia. rewrite L.
        destruct (x - S k)%nat as [|y] eqn:Ey; [lia|]. cbn [nth]. apply Z.eqb_neq. apply nth_notin; assumption. }
    cbn [map rev app]. f_equal. f_equal.
    assert (Hf2 : filter (fun k0 => nth k0 (firstn (S k) s) 0 =? d) (seq 1 (S k - 1)) = filter (fun k0 => nth k0 s 0 =? d) (seq 1 (S k - 1))).
    { apply filter_ext_in. intros x Hx. apply in_seq in Hx. f_equal.
      rewrite <- (firstn_skipn (S k) s) at 2. rewrite app_nth1 by (rewrite firstn_length; lia). reflexivity. }
    rewrite Hf2. apply map_ext_in. intros x Hx. apply filter_In in Hx as (Hx & _). apply in_seq in Hx.
    rewrite firstn_firstn. f_equal. lia.
  - unfold prefixes. rewrite filter_none; [reflexivity|]. intros k _. apply Z.eqb_neq. apply nth_notin; assumption.
Qed.
Lemma tok_ok s c d : 0 < d < 128 -> 0 < c < 256 ->
  zt_cstr_tok (s ++ [c]) d = Ok (prefixes d (if c =? d then s else s ++ [c])).
Proof.
  intros Hd Hc. unfold zt_cstr_tok. rewrite rev_app_distr. cbn [rev app]. rewrite rev_involutive.
  replace (schar c =? d) with (c =? d) by (unfold schar; destruct (c <? 128) eqn:E; lia).
  apply tok_loop_ok; [lia|]. rewrite app_length. cbn [length]. destruct (c =? d); [lia|]. rewrite app_length. cbn [length]. lia.
Qed.
