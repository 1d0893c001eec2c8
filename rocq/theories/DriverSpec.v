(* Small specification for the driver (C47-C50, C55). *)
From Coq Require Import String Ascii.
From Verif Require Import Common ParamsModel ParamsSpec DriverModel.
Open Scope Z_scope.
Open Scope list_scope.

(* outcomes in sequence: all values, or the first failure *)
Fixpoint collect {A} (l : list (outcome A)) : outcome (list A) :=
  match l with
  | [] => Ok []
  | x :: r => do a <- x; do b <- collect r; Ok (a :: b)
  end.

(* the text file with these lines; the last line may lack its newline *)
Definition has_lines (content : string) (lines : list string) : Prop :=
  (forall l, In l lines -> ~ has_char newline l) /\
  (content = unlines lines \/ exists init l, lines = init ++ [l] /\ l <> EmptyString /\ content = append (unlines init) l).
(* the file holds a table: each line is one row of n numbers, separated by single blanks *)
Definition table_file {dbl} (stod : string -> option dbl) (content : string) (rows : list (list dbl)) (n : nat) : Prop :=
  rows <> [] /\ (1 <= n)%nat /\
  exists lines, has_lines content lines /\
  Forall2 (fun line row => exists words, line = String.concat " " words /\ (forall w, In w words -> ~ has_char " "%char w) /\
             map stod words = map Some row /\ length row = n) lines rows.

(* the parameter sets of a run: without a walk there is one, number 0 *)
Definition sets_of (w : walk) : list Z :=
  if w_on w then map (fun k => w_start w + Z.of_nat k) (seq 0 (Z.to_nat (w_stop w - w_start w))) else [0].
(* every (channel, set) of a run, in order *)
Definition tasks (w : walk) (channels : list nat) : list (nat * Z) :=
  flat_map (fun c => map (fun psi => (c, psi)) (sets_of w)) channels.

(* interaction names, the model each stands for and how many numbers of a set it uses *)
Definition model_table : list (string * potential * nat) :=
  [("LO_internal", LO_internal, 0); ("malfliet_tjon", MalflietTjon, 0); ("nijmegen", Nijmegen, 0);
   ("IS_LO", IS_LO, 2); ("IS_NLO", IS_NLO, 13); ("IS_N2LO", IS_N2LO, 16); ("IS_N3LO", IS_N3LO, 31);
   ("N2LOopt", N2LOopt, 15); ("Idaho_N3LO", Idaho_N3LO, 35)]%string%nat.
