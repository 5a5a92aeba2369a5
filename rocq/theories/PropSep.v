(** C84: strsep (zt_win32.c).  Specification: [fields ds text] (SepProofs.v): the text cut at every character of ds, empty pieces included; [cut ds text]: the text
    with those characters replaced by NUL; [text_at b p]: the C string at offset p of the block b.  The block is pre ++ text ++ 0 :: post, with anything
    before and after the string. *)
From Verif Require Import Prelude SepModel SepProofs.

(** calling it until it answers NULL gives the fields of the string, one after the other; at the end they are all still there, and nothing but the separators changed *)
Theorem C84_all : forall ds dp pre text post fuel, nonul ds -> nonul text -> length text + 2 <= fuel ->
  exists toks, strsep_all fuel (pre ++ text ++ 0%Z :: post) (Some (length pre)) (ds ++ 0%Z :: dp) = Ok (pre ++ cut ds text ++ 0%Z :: post, toks) /\
    map (text_at (pre ++ cut ds text ++ 0%Z :: post)) toks = fields ds text.
Proof.
  intros ds dp pre text post fuel ND NT FU. exists (starts (length pre) (fields ds text)). split; [now apply all_ok|]. now apply (starts_texts ds post (length text)).
Qed.
Print Assumptions C84_all.
(** one call: the answer is where the string was; if there is a separator, the first one becomes NUL and *stringp is behind it *)
Theorem C84_found : forall ds dp pre f c t, nonul ds -> nonul f -> c <> 0%Z -> (forall d, In d f -> ~ In d ds) -> In c ds ->
  strsep (pre ++ f ++ c :: t) (Some (length pre)) (ds ++ 0%Z :: dp) = Ok (pre ++ f ++ 0%Z :: t, Some (length pre + length f + 1), Some (length pre)).
Proof.
  intros ds dp pre f c t ND NF NC FA IC. replace (length pre + length f + 1) with (length pre + S (length f)) by lia. apply strsep_cut; try assumption.
  - apply Forall_forall. intros d J. destruct (isin d ds) eqn:K; [|reflexivity]. exfalso. unfold isin in K. apply existsb_exists in K. destruct K as (e & K & Q). apply Z.eqb_eq in Q. subst e. now apply (FA d).
  - unfold isin. apply existsb_exists. exists c. split; [exact IC|apply Z.eqb_refl].
Qed.
Print Assumptions C84_found.
(** otherwise nothing is written and *stringp is NULL *)
Theorem C84_none : forall ds dp pre text post, nonul ds -> nonul text -> (forall d, In d text -> ~ In d ds) ->
  strsep (pre ++ text ++ 0%Z :: post) (Some (length pre)) (ds ++ 0%Z :: dp) = Ok (pre ++ text ++ 0%Z :: post, None, Some (length pre)).
Proof.
  intros ds dp pre text post ND NT FA. apply strsep_last; try assumption.
  apply Forall_forall. intros d J. destruct (isin d ds) eqn:K; [|reflexivity]. exfalso. unfold isin in K. apply existsb_exists in K. destruct K as (e & K & Q). apply Z.eqb_eq in Q. subst e. now apply (FA d).
Qed.
Print Assumptions C84_none.
Theorem C84_null : forall block delim, strsep block None delim = Ok (block, None, None).
Proof. reflexivity. Qed.
Print Assumptions C84_null.
(** a string without end and without a separator is read past its block, and so is a list of separators without end that the next character is not in *)
Theorem C84_unterminated : forall ds dp pre text, nonul ds -> nonul text -> (forall d, In d text -> ~ In d ds) -> strsep (pre ++ text) (Some (length pre)) (ds ++ 0%Z :: dp) = UB.
Proof.
  intros ds dp pre text ND NT FA. unfold strsep. rewrite skipn_length, (walk_runs_off ds dp ND text _ NT); [reflexivity|].
  apply Forall_forall. intros d J. destruct (isin d ds) eqn:K; [|reflexivity]. exfalso. unfold isin in K. apply existsb_exists in K. destruct K as (e & K & Q). apply Z.eqb_eq in Q. subst e. now apply (FA d).
Qed.
Print Assumptions C84_unterminated.
Theorem C84_open_delim : forall ds pre c t, nonul ds -> ~ In c ds -> strsep (pre ++ c :: t) (Some (length pre)) ds = UB.
Proof.
  intros ds pre c t ND NC. unfold strsep. rewrite skipn_length. cbn [walk]. assert (K : span c ds = UB); [|now rewrite K].
  clear - ND NC. induction ds as [|d ds IH]; [reflexivity|]. cbn [span]. replace (d =? c)%Z with false by (symmetry; apply Z.eqb_neq; intros ->; apply NC; now left).
  replace (d =? 0)%Z with false by (symmetry; apply Z.eqb_neq; intros ->; apply ND; now left). apply IH; intros J; [apply ND|apply NC]; now right.
Qed.
Print Assumptions C84_open_delim.
(** the specification: no field contains a separator, there is one more field than separators, and the fields with the separators between them are the text *)
Theorem C84_fields : forall ds text, (forall f, In f (fields ds text) -> forall d, In d f -> In d text /\ ~ In d ds) /\
  length (fields ds text) = S (length (filter (fun c => isin c ds) text)) /\
  text = concat (map (fun p => fst p ++ snd p) (combine (fields ds text) (map (fun c => [c]) (filter (fun c => isin c ds) text) ++ [[]]))).
Proof.
  intros ds text. split; [|split].
  - induction text as [|c text IH]; cbn [fields]; [intros f [<-|[]] d []|]. destruct (isin c ds) eqn:IC.
    + intros f [<-|J] d K; [destruct K|]. destruct (IH f J d K). split; [now right|assumption].
    + destruct (fields ds text) as [|g gs]; [intros f []|]. intros f [<-|J] d K.
      * destruct K as [<-|K].
        -- split; [now left|]. intros L. assert (isin c ds = true) by (unfold isin; apply existsb_exists; exists c; split; [exact L|apply Z.eqb_refl]). congruence.
        -- destruct (IH g (or_introl eq_refl) d K). split; [now right|assumption].
      * destruct (IH f (or_intror J) d K). split; [now right|assumption].
  - induction text as [|c text IH]; cbn [fields filter]; [reflexivity|]. destruct (isin c ds); cbn [length]; [now rewrite IH|]. destruct (fields ds text); [discriminate|]. exact IH.
  - induction text as [|c text IH]; cbn [fields filter]; [reflexivity|].
    destruct (isin c ds) eqn:IC; cbn [map app combine concat fst snd]; [now rewrite <- IH|].
    destruct (fields ds text) as [|g gs] eqn:EF; [destruct text as [|e text]; cbn [fields] in EF; [discriminate|]; destruct (isin e ds); [discriminate|]; destruct (fields ds text) eqn:EG; [|discriminate]|].
    + exfalso. clear - EG. induction text as [|e text IH]; cbn [fields] in EG; [discriminate|]. destruct (isin e ds); [discriminate|]. destruct (fields ds text); [auto|discriminate].
    + destruct (map (fun c0 => [c0]) (filter (fun c0 => isin c0 ds) text) ++ [[]]) as [|s ss] eqn:ES; [destruct (map (fun c0 => [c0]) (filter (fun c0 => isin c0 ds) text)); discriminate|].
      cbn [combine map concat fst snd app] in *. now rewrite <- IH.
Qed.
Print Assumptions C84_fields.

(** non-vacuity: "a,,b;c" cut at ",;" in a block with a byte before and after *)
Example all_case : strsep_all 9 ([7] ++ [97; 44; 44; 98; 59; 99] ++ 0 :: [9])%Z (Some 1) [44; 59; 0]%Z = Ok ([7; 97; 0; 0; 98; 0; 99; 0; 9]%Z, [1; 3; 4; 6]) /\
  fields [44; 59]%Z [97; 44; 44; 98; 59; 99]%Z = [[97]; []; [98]; [99]]%Z.
Proof. split; reflexivity. Qed.
Example text_case : nonul [44; 59]%Z /\ nonul [97; 44; 44; 98; 59; 99]%Z.
Proof. unfold nonul. cbn [In]. split; lia. Qed.
Example found_case : strsep [7; 97; 44; 98; 0]%Z (Some 1) [44; 0]%Z = Ok ([7; 97; 0; 98; 0]%Z, Some 3, Some 1) /\ strsep [7; 97]%Z (Some 1) [44; 0]%Z = UB.
Proof. split; reflexivity. Qed.
