(* Property theorems about building, merging, recovering and storing the permutation matrix (C21-C24). *)
From Coq Require Import Permutation Sorted String.
From Verif Require Import Common ArrayLib PWModel NameModel NameProofs PioModel PioSpec PioProofs PioPropsLemmas.
Open Scope nat_scope.
Open Scope list_scope.

(* C21: however the emitted elements are interleaved over T threads ([evs]: the events in time order, each with its
   thread), whatever the buffer size B, the previous contents of the buffers and of the disk, the run ends, and the
   merged matrix is strictly increasing in (row, column) and holds (row, col, v) exactly when v is the computed
   non-zero value of an overlapping cell pair.  Bound: file names fit in char[300]. *)
Theorem C21_merged_matrix V veqb vzero srt (sp : space V) folder twoJ P J2max ovl value B T buf0 fs0 evs :
  decides_eq veqb -> sorts srt -> well_formed sp -> 1 <= B ->
  let Nalpha := length (sp_pw V sp) in let Np := sp_Np V sp in let Nq := sp_Nq V sp in
  let name t k := subarray_file_name folder twoJ P (Z.of_nat Np) (Z.of_nat Nq) J2max (Z.of_nat t) (Z.of_nat k) in
  (forall t k, t < T -> k <= length evs -> String.length (name t k) < 300) ->
  (forall t, length (buf0 t) = B) -> (forall ev, In ev evs -> fst ev < T) ->
  Permutation (map snd evs) (flat_map (work V vzero Nalpha Np Nq ovl value) (seq 0 Nq)) ->
  exists fs res, build V veqb name sp srt (Z.of_nat (Nalpha * Nq * Np)) B T buf0 fs0 evs = Ok (fs, res) /\
    StronglySorted before res /\
    (forall row col v, In (row, col, v) res <->
       exists ap qp pp a q p, ap < Nalpha /\ qp < Nq /\ pp < Np /\ a < Nalpha /\ q < Nq /\ p < Np /\
         row = Z.of_nat (ap * Nq * Np + qp * Np + pp) /\ col = Z.of_nat (a * Nq * Np + q * Np + p) /\
         v = value ap qp pp a q p /\ ovl qp pp q p = true /\ vzero v = false).
Proof. exact (merged_matrix V veqb vzero srt sp folder twoJ P J2max ovl value B T buf0 fs0 evs). Qed.
Print Assumptions C21_merged_matrix.

(* C21: two runs with different thread counts, schedules, buffer sizes, folders and sort routines give the same matrix *)
Theorem C21_schedule_independent V veqb vzero srt srt' (sp : space V) folder folder' twoJ twoJ' P P' J2max J2max' ovl value B B' T T' buf0 buf0' fs0 fs0' evs evs' :
  decides_eq veqb -> sorts srt -> sorts srt' -> well_formed sp -> 1 <= B -> 1 <= B' ->
  let Nalpha := length (sp_pw V sp) in let Np := sp_Np V sp in let Nq := sp_Nq V sp in
  let name t k := subarray_file_name folder twoJ P (Z.of_nat Np) (Z.of_nat Nq) J2max (Z.of_nat t) (Z.of_nat k) in
  let name' t k := subarray_file_name folder' twoJ' P' (Z.of_nat Np) (Z.of_nat Nq) J2max' (Z.of_nat t) (Z.of_nat k) in
  (forall t k, t < T -> k <= length evs -> String.length (name t k) < 300) ->
  (forall t k, t < T' -> k <= length evs' -> String.length (name' t k) < 300) ->
  (forall t, length (buf0 t) = B) -> (forall t, length (buf0' t) = B') ->
  (forall ev, In ev evs -> fst ev < T) -> (forall ev, In ev evs' -> fst ev < T') ->
  Permutation (map snd evs) (flat_map (work V vzero Nalpha Np Nq ovl value) (seq 0 Nq)) ->
  Permutation (map snd evs') (flat_map (work V vzero Nalpha Np Nq ovl value) (seq 0 Nq)) ->
  exists fs fs' res, build V veqb name sp srt (Z.of_nat (Nalpha * Nq * Np)) B T buf0 fs0 evs = Ok (fs, res) /\
    build V veqb name' sp srt' (Z.of_nat (Nalpha * Nq * Np)) B' T' buf0' fs0' evs' = Ok (fs', res).
Proof. exact (schedule_independent V veqb vzero srt srt' sp folder folder' twoJ twoJ' P P' J2max J2max' ovl value B B' T T' buf0 buf0' fs0 fs0' evs evs'). Qed.
Print Assumptions C21_schedule_independent.

(* the hypotheses are met: one partial wave, one p bin, two q bins, full table, two threads, buffers of one element *)
Definition ex_pw : pw := mkpw 0 1 1 0 0 1 1 1 1.
Definition ex_sp : space Z := mkspace Z 1 [0; 5]%Z 2 [0; 3; 9]%Z [ex_pw].
Definition ex_value (ap qp pp a q p : nat) : Z := (10 * Z.of_nat qp + Z.of_nat q)%Z.
Definition ex_evs : list (nat * elem Z) := [(1, (1, 0, 10)%Z); (0, (0, 1, 1)%Z); (1, (1, 1, 11)%Z)].
Definition ex_name (t k : nat) : string := subarray_file_name "d" 1 1 1 2 1 (Z.of_nat t) (Z.of_nat k).
Definition ex_run (B T : nat) := build Z Z.eqb ex_name ex_sp isort 2 B T (fun _ => repeat (7, 7, 7)%Z B) (fun _ => None) ex_evs.
Example C21_example :
  sorts isort /\ decides_eq Z.eqb /\ well_formed ex_sp /\
  Permutation (map snd ex_evs) (flat_map (work Z (Z.eqb 0) 1 1 2 (fun _ _ _ _ => true) ex_value) (seq 0 2)) /\
  (forall t k, t < 2 -> k <= 3 -> String.length (ex_name t k) < 300) /\
  (exists fs, ex_run 1 2 = Ok (fs, [(0, 1, 1); (1, 0, 10); (1, 1, 11)]%Z)) /\
  (exists fs, ex_run 64 5 = Ok (fs, [(0, 1, 1); (1, 0, 10); (1, 1, 11)]%Z)).
Proof.
  split; [ exact isort_sorts | ]. split; [ intros a b; apply Z.eqb_eq | ].
  split; [ split; [ reflexivity | split; [ reflexivity | split; [ discriminate | intros s t [<-|[]] [<-|[]]; auto ] ] ] | ].
  split; [ apply perm_swap | ].
  split; [ intros [|[|t]] [|[|[|[|k]]]] H1 H2; try lia; cbv; lia | ].
  split; eexists; vm_compute; reflexivity.
Qed.

(* C22 is false: a recovery run of a channel whose estimated matrix is below 1 GB per thread looks at no file at all
   and returns the empty matrix, whatever was written *)
Theorem C22_refuted V veqb srt (sp : space V) name_of D cells hits T fs : sorts srt ->
  (0 <= D * D * hits / cells)%Z -> (32 * (D * D * hits / cells + 1) < 2 ^ 30 * Z.of_nat T)%Z ->
  recover V veqb name_of sp srt D cells hits T fs = Ok [].
Proof. exact (recovery_small V veqb srt sp name_of D cells hits T fs). Qed.
Print Assumptions C22_refuted.
(* concretely: the run of C21_example, then recovery: the three elements are lost *)
Example C22_refuted_example : exists fs,
  ex_run 1 2 = Ok (fs, [(0, 1, 1); (1, 0, 10); (1, 1, 11)]%Z) /\ recover Z Z.eqb ex_name ex_sp isort 2 4 4 2 fs = Ok [].
Proof.
  eexists. split; [ vm_compute; reflexivity | ]. apply C22_refuted; [ exact isort_sorts | vm_compute; congruence | reflexivity ].
Qed.
(* C22: recovery gives the same matrix when the estimated number of files is at least the number each thread wrote
   (tfc), and no older file of the same naming scheme lies beyond those *)
Theorem C22_partial V veqb vzero srt (sp : space V) folder twoJ P J2max ovl value B T buf0 fs0 evs fs res tfc cells hits :
  decides_eq veqb -> sorts srt -> well_formed sp -> 1 <= B ->
  let Nalpha := length (sp_pw V sp) in let Np := sp_Np V sp in let Nq := sp_Nq V sp in
  let D := Z.of_nat (Nalpha * Nq * Np) in
  let name t k := subarray_file_name folder twoJ P (Z.of_nat Np) (Z.of_nat Nq) J2max (Z.of_nat t) (Z.of_nat k) in
  (forall t k, t < T -> k <= length evs -> String.length (name t k) < 300) ->
  (forall t, length (buf0 t) = B) -> (forall ev, In ev evs -> fst ev < T) ->
  Permutation (map snd evs) (flat_map (work V vzero Nalpha Np Nq ovl value) (seq 0 Nq)) ->
  build V veqb name sp srt D B T buf0 fs0 evs = Ok (fs, res) ->
  calculate_elements V name sp B T buf0 fs0 evs = Ok (fs, tfc) ->
  let lim := Z.to_nat (recovery_max_TFC D cells hits (Z.of_nat T)) in
  (forall t, t < T -> nth t tfc 0 <= lim) ->
  (forall t k, t < T -> nth t tfc 0 <= k < lim -> fs0 (name t k) = None) ->
  recover V veqb name sp srt D cells hits T fs = Ok res.
Proof. exact (recover_complete V veqb vzero srt sp folder twoJ P J2max ovl value B T buf0 fs0 evs fs res tfc cells hits). Qed.
Print Assumptions C22_partial.
(* met when the estimate is large: the same run, recovered with a (too high) hit count *)
Example C22_partial_example : exists fs,
  ex_run 1 2 = Ok (fs, [(0, 1, 1); (1, 0, 10); (1, 1, 11)]%Z) /\
  recover Z Z.eqb ex_name ex_sp isort 2 4 (2 ^ 28) 2 fs = Ok [(0, 1, 1); (1, 0, 10); (1, 1, 11)]%Z.
Proof. eexists. split; [ vm_compute; reflexivity | vm_compute; reflexivity ]. Qed.

(* C23: what was stored is read back exactly for the same model space; for any other model space (sizes, a single
   boundary, a single quantum number) the reader stops.  Storing itself never fails for names below 300 characters. *)
Theorem C23_store_then_read V veqb (fs : fsys V) buf dim sp name : decides_eq veqb -> well_formed sp ->
  String.length name < 300 -> dim <= length buf ->
  exists fs', store_h5 V fs buf dim sp name = Ok fs' /\
    (forall other, other <> name -> fs' other = fs other) /\
    forall sp', well_formed sp' ->
      (sp' = sp -> read_h5 V veqb fs' sp' name = Ok (firstn dim buf)) /\ (sp' <> sp -> read_h5 V veqb fs' sp' name = Err).
Proof.
  intros Heq W Hn Hd. assert (Hf : name_fits name = true) by (apply Nat.ltb_lt, Hn).
  rewrite (store_ok V fs buf dim sp name W Hf Hd). eexists. split; [ reflexivity | ]. split.
  - intros other Ho. apply fs_write_other, Ho.
  - intros sp' W'. apply (read_stored V veqb Heq _ name sp sp' (firstn dim buf) W W' Hf). apply fs_write_same.
Qed.
Print Assumptions C23_store_then_read.
(* the result file of one channel and grid is not that of another *)
Theorem C23_file_names folder J P Np Nq J2 J' P' Np' Nq' J2' :
  P123_file_name folder J P Np Nq J2 = P123_file_name folder J' P' Np' Nq' J2' -> (J, P, Np, Nq, J2) = (J', P', Np', Nq', J2').
Proof. intros H. apply P123_name_inj in H. exact H. Qed.
Print Assumptions C23_file_names.
Example C23_example : exists fs', store_h5 Z (fun _ => None) [(0, 1, 5); (1, 1, 6); (9, 9, 9)]%Z 2 ex_sp "a" = Ok fs' /\
  read_h5 Z Z.eqb fs' ex_sp "a" = Ok [(0, 1, 5); (1, 1, 6)]%Z /\
  read_h5 Z Z.eqb fs' (mkspace Z 1 [0; 5]%Z 2 [0; 4; 9]%Z [ex_pw]) "a" = Err /\
  read_h5 Z Z.eqb fs' (mkspace Z 1 [0; 5]%Z 2 [0; 3; 9]%Z [mkpw 2 1 1 0 0 1 1 1 1]) "a" = Err.
Proof. eexists. split; [ vm_compute; reflexivity | ]. repeat split; vm_compute; reflexivity. Qed.

(* C24 is false of the checks in the merge: an intermediate file with a row equal to the dimension passes *)
Theorem C24_refuted : exists (fs : fsys Z) res row col v,
  merge_files Z Z.eqb ex_name ex_sp isort 2 fs [1] = Ok res /\ In (row, col, v) res /\ ~ (row < 2)%Z.
Proof.
  exists (fun n => if String.eqb n (ex_name 0 0) then Some (file_of Z ex_sp [(2, 0, 5)%Z]) else None), [(2, 0, 5)%Z], 2%Z, 0%Z, 5%Z.
  split; [ vm_compute; reflexivity | ]. split; [ left; reflexivity | lia ].
Qed.
Print Assumptions C24_refuted.
(* what the checks do guarantee for arbitrary files *)
Theorem C24_partial V veqb name_of sp srt D fs tfc res :
  merge_files V veqb name_of sp srt D fs tfc = Ok res ->
  forall row col v, In (row, col, v) res -> (0 <= row <= D /\ 0 <= col <= D /\ row * D + col <= D * D)%Z.
Proof. exact (merged_in_bounds V veqb name_of sp srt D fs tfc res). Qed.
Print Assumptions C24_partial.
(* for matrices the program itself computed all indices are inside *)
Theorem C24_computed_inside V veqb vzero srt (sp : space V) folder twoJ P J2max ovl value B T buf0 fs0 evs :
  decides_eq veqb -> sorts srt -> well_formed sp -> 1 <= B ->
  let Nalpha := length (sp_pw V sp) in let Np := sp_Np V sp in let Nq := sp_Nq V sp in
  let D := Z.of_nat (Nalpha * Nq * Np) in
  let name t k := subarray_file_name folder twoJ P (Z.of_nat Np) (Z.of_nat Nq) J2max (Z.of_nat t) (Z.of_nat k) in
  (forall t k, t < T -> k <= length evs -> String.length (name t k) < 300) ->
  (forall t, length (buf0 t) = B) -> (forall ev, In ev evs -> fst ev < T) ->
  Permutation (map snd evs) (flat_map (work V vzero Nalpha Np Nq ovl value) (seq 0 Nq)) ->
  exists fs res, build V veqb name sp srt D B T buf0 fs0 evs = Ok (fs, res) /\
    forall row col v, In (row, col, v) res -> (0 <= row < D /\ 0 <= col < D)%Z.
Proof.
  intros Heq Hs W HB Nalpha Np Nq D name Hfit Lb Hev Perm.
  destruct (build_in_matrix V veqb vzero srt sp folder twoJ P J2max ovl value B T buf0 fs0 evs Heq Hs W HB Hfit Lb Hev Perm)
    as (fs & res & tfc & E1 & _ & _ & _ & P1 & _). exists fs, res. split; [ exact E1 | ].
  intros row col v Hin. apply (Permutation_in _ P1) in Hin. exact (emitted_in_matrix V vzero Nalpha Np Nq ovl value _ Hin).
Qed.
Print Assumptions C24_computed_inside.
