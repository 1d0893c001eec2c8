(* main.cpp l.167-445 as a whole: the work on one three-nucleon channel, from the inputs to the amplitudes (C92).  The stages
   are the models of the other files, in the order of main; what is not an input of the user is in a record [environment].
   Simplified: as ChainModel.v (printing, output files, parameter walk, breakup and iterative solver left out; tensor force
   on; calculate_and_store_P123 and production_run as in main). *)
From Coq Require Import Reals Permutation String.
From Verif Require Import Common ArrayLib PWModel PWSpec SwpModel PermModel PermWholeModel GeoModel NameModel PioModel PotentialModel KernelModel ResolventModel OnShellModel FaddeevModel DetModel DenseModel ChainModel.
Open Scope nat_scope.

(* Everything a run depends on besides the user's input: library routines, uninitialised memory, threads and their schedule,
   files already on disk. *)
Record environment := mkenv {
  en_diag : nat -> list R -> list R * list R;   (* LAPACKE_dspevd, make_swp_states.cpp l.25 *)
  en_sort : list Z -> list nat;                 (* sort_indexes, matrix_routines.cpp l.300 *)
  en_solve : solve_t;                           (* solve_MM, matrix_routines.cpp l.50-80 *)
  en_mem : nat -> nat -> list R;                (* new double[n] *)
  en_cmem : nat -> nat -> list cdouble;         (* new cdouble[n] *)
  en_pmem : nat -> nat -> list ptr;             (* new double*[n] *)
  en_junk : R * R;                              (* uninitialised locals of calculate_potential_matrices_in_WP_basis *)
  en_phi : list R; en_wphi : list R; en_tab : list bool;   (* phi_array, wphi_array, pq_WP_overlap_array: make_permutation_matrix.cpp l.1334-1337 *)
  en_geo : gjunk;                               (* tables of make_permutation_matrix.cpp l.340-606 *)
  en_G : nat -> list R;                         (* contents of Gtilde_subarray when iteration qp starts *)
  en_veqb : R -> R -> bool;                     (* == on doubles *)
  en_srt : list Z -> list nat;                  (* make_permutation_matrix.cpp l.1077 *)
  en_folder : string;                           (* output folder *)
  en_B : nat;                                   (* elements per thread buffer *)
  en_T : nat;                                   (* threads *)
  en_buf : nat -> list (elem R);                (* their buffers, uninitialised *)
  en_fs : PioModel.fsys R;                      (* files on disk before the run *)
  en_evs : list (nat * elem R) }.               (* schedule: which thread emits which element, in order of time *)

(* [out] is what main does with the channel number c, in the environment E: l.173-224 (permutation matrix: overlap table,
   geometric tables, the rows in parallel, merging of the threads' files) and l.226-445 (channel_run).  [nth_chn c] is the pair
   (2J, parity) of channel c, l.193-194. *)
Definition channel_program (sixj : Z -> Z -> Z -> Z -> Z -> Z -> R) (ninej : Z -> Z -> Z -> Z -> Z -> Z -> Z -> Z -> Z -> R)
    (threej : Z -> Z -> Z -> Z -> Z -> Z -> R) (legblock : Z -> R -> list R) (legsize : Z -> Z) (roots : list R) (dleg : R -> R) (xs wxs : list R)
    (iso mid : bool) (J_2N_max : Z) (Nq : nat) (q : list R) (pot : potmodel) (vg : vgrid) (ss : statespace) (c : Z) (inputs : list R)
    (E : environment) (out : outcome chan_result) : Prop :=
  let Np := vg_Np vg in let p := vg_pWP vg in
  exists states phi wphi tab t rows fs res,
    channel_slice ss c = Ok states /\
    calculate_WP_overlap roots dleg Np Nq p q xs (en_phi E, en_wphi E, en_tab E) = Ok (phi, wphi, tab) /\
    geo_tables sixj ninej threej legblock legsize states Np Nq (length roots) phi xs (en_geo E) = Ok t /\
    (forall qp, qp < Nq -> row_work legsize states t roots Np Nq p q phi wphi xs wxs tab qp (en_G E qp) = Ok (rows qp)) /\
    Permutation (map snd (en_evs E)) (flat_map rows (seq 0 Nq)) /\
    build R (en_veqb E) (fun t k => subarray_file_name (en_folder E) (fst (nth_chn c)) (snd (nth_chn c)) (Z.of_nat Np) (Z.of_nat Nq) J_2N_max (Z.of_nat t) (Z.of_nat k))
      (mkspace R Np p Nq q states) (en_srt E) (Z.of_nat (length states * Nq * Np)) (en_B E) (en_T E) (en_buf E) (en_fs E) (en_evs E) = Ok (fs, res) /\
    out = channel_run (en_diag E) (en_sort E) (en_solve E) (en_mem E) (en_cmem E) (en_pmem E) iso mid J_2N_max Nq q pot (en_junk E) vg ss c inputs res.
