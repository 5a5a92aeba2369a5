(** C15: zt_ptr_array_move with the index one past the end, exactly. *)
From Verif Require Import Prelude PtrArrayModel PtrArrayProofs.
Local Open Scope Z_scope.
(** As destination: when the block is full the write is outside it; otherwise the call reports success and the array holds what it held. Any index further out, on either side, is refused. *)
Theorem C15_move_end : forall a l src, holds a l -> 0 <= src < Z.of_nat (length l) ->
  (size a = Z.of_nat (length l) -> pa_move a src (Z.of_nat (length l)) = UB) /\
  (Z.of_nat (length l) < size a -> exists a', pa_move a src (Z.of_nat (length l)) = Ok (0, a') /\ holds a' l).
Proof.
  intros a l src H I. pose proof H as ((r & E) & C & SZ & B & N). unfold pa_move. rewrite C. replace (src >? Z.of_nat (length l)) with false by lia. replace (Z.of_nat (length l) >? Z.of_nat (length l)) with false by lia. rewrite (rd_ok a l src H I). cbn [obind]. unfold wr. rewrite <- SZ. split; intros K.
  - rewrite K. rewrite Z.ltb_irrefl, andb_false_r. reflexivity.
  - replace (0 <=? Z.of_nat (length l)) with true by lia. replace (Z.of_nat (length l) <? size a) with true by lia. cbn [andb obind]. eexists. split; [reflexivity|]. unfold holds. cbn [slots count size]. rewrite upd_length. repeat split; auto; try lia.
    rewrite E. rewrite upd_app_r by (rewrite map_length; lia). eexists. reflexivity.
Qed.
Theorem C15_move_refused : forall a l src dst, holds a l -> Z.of_nat (length l) < src \/ Z.of_nat (length l) < dst -> pa_move a src dst = Ok (-1, a) .
Proof. intros a l src dst (_ & C & _) K. unfold pa_move. rewrite C. destruct (src >? Z.of_nat (length l)) eqn:A; [reflexivity|]. replace (dst >? Z.of_nat (length l)) with true by lia. reflexivity. Qed.
Example C15_move_end_ex : holds (mkparr 1 1 [Some 7] false) [7] /\ holds (mkparr 2 1 [Some 7; None] false) [7] /\ pa_move (mkparr 2 1 [Some 7; None] false) 0 1 = Ok (0, mkparr 2 1 [Some 7; Some 7] false).
Proof. split; [|split; [|reflexivity]]; (split; [eexists; cbn [map app slots]; reflexivity|]; unfold I32MAX; cbn; repeat split; auto; try lia; intros [K|[]]; lia). Qed.
Print Assumptions C15_move_end. Print Assumptions C15_move_refused.
