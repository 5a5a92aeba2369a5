(** What the help and the error messages of the option parser look like. *)
From Verif Require Import Prelude CstrSpec OptsModel OptsSpec LogSpec HelpModel.
From Coq Require Import Ascii String.
Local Open Scope Z_scope.

Definition newline : list Z := [10].
Definition blanks (n : nat) : list Z := repeat 32 n.
(** the names of an option as they are shown:  -x, --long argument *)
Definition title (s : option Z) (l a : option (list Z)) : list Z :=
  str "   " ++ (match s with Some c => str "-" ++ [c] | None => str "  " end) ++ (match s, l with Some _, Some _ => str "," | _, _ => str " " end) ++ str " " ++
  (match l with Some l => str "--" ++ l | None => str "  " end) ++ str " " ++ match a with Some a => a | None => [] end.
Definition announce (name : list Z) (help : option (list Z)) : list Z := str "Usage: " ++ name ++ str " " ++ (match help with Some h => h | None => [] end) ++ newline ++ str "Options:" ++ newline.
(** an option that has a name and a help text without very long words *)
Definition shown (d : entry) : Prop := (e_sopt d <> None \/ e_lopt d <> None) /\ exists t, e_help d = Some t /\ Forall (fun w => (List.length w < 50)%nat) (words t).
(** the rows printed for an option: its help text is cut into lines of at most 50 bytes that have the words of the text in order (a text of at most 50 bytes is not cut);
    names of at most 30 bytes are followed by the text in column 30; behind longer names, as many blanks as they exceed the column *)
Definition described (d : entry) (rows : list (list Z)) : Prop :=
  let names := title (e_sopt d) (e_lopt d) (e_arg d) in
  let n := List.length names in
  exists t l ls, e_help d = Some t /\ flat_map words (l :: ls) = words t /\ Forall (fun x => (List.length x <= 50)%nat) (l :: ls) /\ ((List.length t <= 50)%nat -> l :: ls = [t]) /\
    ((n <= 30)%nat -> rows = (names ++ blanks (30 - n) ++ l ++ newline) :: map (fun x => blanks 30 ++ x ++ newline) ls) /\
    ((n > 30)%nat -> rows = (names ++ blanks (n - 30) ++ l ++ newline) :: map (fun x => blanks (n + (n - 30)) ++ x ++ newline) ls).
(** the error message *)
Definition complaint (code : Z) (why : list Z) (msg : list Z) : list Z :=
  str "error: { code: " ++ decimal code ++ str ", string: """ ++ why ++ str ": " ++ msg ++ str """ }".
Definition null_text : list Z := str "(null)".
Definition programmer : list Z := str "Programmer Error: must have a short or long opt at least".
(** an option that is described in an example: -o, --output FILE *)
Definition t_output : list Z := str "output".
Definition t_file : list Z := str "FILE".
Definition t_write : list Z := str "write the result to FILE".
Definition t_tool : list Z := str "tool".
Definition row_output : list Z := str "   -o, --output FILE          write the result to FILE" ++ newline.
