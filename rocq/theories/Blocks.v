(** Raw memory blocks: lists of bytes, [None] = never written. *)
From Verif Require Import Prelude.
Open Scope Z_scope.

(** n bytes of the block starting at position i; UB outside the block or when uninitialised *)
Fixpoint rdn (l : list (option Z)) (i n : nat) : outcome (list Z) :=
  match n with
  | O => Ok []
  | S n' => match nth_error l i with
            | Some (Some v) => r <- rdn l (S i) n' ;; Ok (v :: r)
            | _ => UB end
  end.
(** overwrite from position i; UB outside the block *)
Fixpoint wrn (l : list (option Z)) (i : nat) (d : list Z) : outcome (list (option Z)) :=
  match d with
  | [] => Ok l
  | v :: r => if Nat.ltb i (length l) then wrn (upd l i (Some v)) (S i) r else UB
  end.

Lemma rdn_ok : forall s pre rest n, (n <= length s)%nat ->
  rdn (pre ++ map Some s ++ rest) (length pre) n = Ok (firstn n s).
Proof.
  induction s as [|x s IH]; intros pre rest n H.
  - destruct n; [reflexivity|cbn in H; lia].
  - destruct n as [|n]; [reflexivity|]. cbn [rdn]. rewrite nth_error_app2, Nat.sub_diag by lia. cbn [map app nth_error].
    replace (pre ++ Some x :: map Some s ++ rest) with ((pre ++ [Some x]) ++ map Some s ++ rest) by now rewrite <- app_assoc.
    replace (S (length pre)) with (length (pre ++ [Some x])) by (rewrite app_length; cbn; lia).
    rewrite IH by (cbn [length] in H; lia). reflexivity.
Qed.
Lemma wrn_ok : forall d pre rest, (length d <= length rest)%nat ->
  wrn (pre ++ rest) (length pre) d = Ok (pre ++ map Some d ++ skipn (length d) rest).
Proof.
  induction d as [|v d IH]; intros pre rest H; [reflexivity|]. cbn [wrn]. rewrite app_length.
  destruct rest as [|r rest]; [cbn in H; lia|]. cbn [length] in *. replace (length pre <? length pre + S (length rest))%nat with true by lia.
  rewrite upd_app_r, Nat.sub_diag by lia. cbn [upd].
  replace (pre ++ Some v :: rest) with ((pre ++ [Some v]) ++ rest) by now rewrite <- app_assoc.
  replace (S (length pre)) with (length (pre ++ [Some v])) by (rewrite app_length; cbn; lia).
  rewrite IH by lia. rewrite <- app_assoc. reflexivity.
Qed.

