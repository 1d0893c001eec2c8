(* std::to_string on int, and the file names the program builds. *)
From Coq Require Import String Ascii DecimalString DecimalZ Decimal DecimalFacts.
From Verif Require Import Common.
Open Scope string_scope.

(* std::to_string(int) *)
Definition to_string (z : Z) : string := NilZero.string_of_int (Z.to_int z).

(* generate_subarray_file_name, make_permutation_matrix.cpp l.143-157 *)
Definition subarray_file_name (folder : string) (twoJ P Np Nq J2max thread tfc : Z) : string :=
  folder ++ "/P123_subsparse_JP_" ++ to_string twoJ ++ "_" ++ to_string P
    ++ "_Np_" ++ to_string Np ++ "_Nq_" ++ to_string Nq
    ++ "_J2max_" ++ to_string J2max ++ "_TFC_" ++ to_string thread
    ++ "_" ++ to_string tfc ++ ".h5".

(* fill_P123_arrays l.1319-1322 *)
Definition P123_file_name (folder : string) (twoJ P Np Nq J2max : Z) : string :=
  folder ++ "/" ++ "P123_sparse_JP_" ++ to_string twoJ ++ "_" ++ to_string P
    ++ "_Np_" ++ to_string Np ++ "_Nq_" ++ to_string Nq ++ "_J2max_" ++ to_string J2max ++ ".h5".
