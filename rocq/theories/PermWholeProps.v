(* Property theorems about the assembled permutation matrix (C72). *)
From Coq Require Import Reals Lra Permutation Sorted String ZifyBool.
From Verif Require Import Common ArrayLib PWModel PWSpec SwpModel GridSpec PermModel PermSpec KernelModel NameModel PioModel PioSpec
  GeoModel GeoSpec PermProps GeoProps PermWholeModel PermWholeSpec PermWholeProofs.
Open Scope nat_scope.
Open Scope list_scope.

(* C72: the matrix the whole calculation hands over.  For every channel of every model space, every grid, every quadrature
   mesh and every pair of cells, whatever the number of threads, the size of their buffers, the order in which the rows are
   worked on and the files that were on disk before: the run does not fail, the result is sorted with one element per
   position, holds no zeros and nothing out of range, and its entry at (row, column) is the discretised integral of the full
   geometric formula over the overlap of the two cells (0 where it stores nothing).  The hypotheses: the special functions
   obey their selection rules; the arrays have the sizes the program allocates; file names below 300 characters; each
   emitted element is pushed exactly once, to a buffer of one of the threads. *)
Theorem C72_whole_matrix (sixj : Z -> Z -> Z -> Z -> Z -> Z -> R) (ninej : Z -> Z -> Z -> Z -> Z -> Z -> Z -> Z -> Z -> R)
    (threej : Z -> Z -> Z -> Z -> Z -> Z -> R) (sphP : Z -> Z -> R -> R) (legblock : Z -> R -> list R) (legsize : Z -> Z)
    g Jm mx iso ss cn states roots dleg Np Nq pb qb xs wxs phi0 wphi0 tab0 k :
  let n := length roots in
  threej_rule threej -> ninej_rule ninej -> legendre_rule sphP legblock legsize ->
  (1 <= mx)%Z -> Z.Odd mx -> construct_symmetric_pw_states_g g Jm mx iso = Ok ss ->
  (0 <= cn < ss_N_chn ss)%Z -> channel_slice ss cn = Ok states ->
  partition_from_zero Np pb -> partition_from_zero Nq qb -> mesh_in (-1) 1 roots -> mesh_in (-1) 1 xs -> length wxs = length xs ->
  length phi0 = Nq * Np * n -> length wphi0 = Nq * Np * n -> length tab0 = Nq * Nq * Np * Np ->
  allocated legsize states Np Nq n (length xs) k ->
  exists phi wphi tab t rows,
    calculate_WP_overlap roots dleg Np Nq pb qb xs (phi0, wphi0, tab0) = Ok (phi, wphi, tab) /\
    geo_tables sixj ninej threej legblock legsize states Np Nq n phi xs k = Ok t /\
    (forall qp G0, qp < Nq -> length G0 = n * length xs ->
       row_work legsize states t roots Np Nq pb qb phi wphi xs wxs tab qp G0 = Ok (rows qp)) /\
    forall veqb srt folder J2max B T buf0 fs0 evs,
      decides_eq veqb -> sorts srt -> 1 <= B ->
      let Na := length states in
      let D := Z.of_nat (Na * Nq * Np) in
      let name t k := subarray_file_name folder (fst (nth_chn cn)) (snd (nth_chn cn)) (Z.of_nat Np) (Z.of_nat Nq) J2max (Z.of_nat t) (Z.of_nat k) in
      (forall t k, t < T -> k <= length evs -> String.length (name t k) < 300) ->
      (forall t, length (buf0 t) = B) -> (forall ev, In ev evs -> fst ev < T) ->
      Permutation (map snd evs) (flat_map rows (seq 0 Nq)) ->
      exists fs res, build R veqb name (mkspace R Np pb Nq qb states) srt D B T buf0 fs0 evs = Ok (fs, res) /\
        StronglySorted before res /\
        (forall row col v, In (row, col, v) res -> v <> 0%R /\ (0 <= row < D)%Z /\ (0 <= col < D)%Z) /\
        forall ap qp pp a q p r c, nth_error states ap = Some r -> nth_error states a = Some c ->
          qp < Nq -> pp < Np -> q < Nq -> p < Np ->
          let lo := atan_ratio (lower pb pp) (upper qb qp) in
          let hi := atan_ratio (upper pb pp) (lower qb qp) in
          let angle j := (lo + (hi - lo) * ((nth j roots 0 + 1) / 2))%R in
          let weight j := ((hi - lo) / 2 * (2 / ((1 - nth j roots 0 * nth j roots 0) * (dleg (nth j roots 0) * dleg (nth j roots 0)))))%R in
          let x i := nth i xs 0%R in
          exists v : nat -> nat -> R,
            (forall j i, j < n -> i < length xs ->
               direction_integral (fun a b => pi1_tilde a b (x i)) (fun a b => pi2_tilde a b (x i)) pb qb pp qp p q (angle j) (v j i)) /\
            entry res (Z.of_nat (ap * Nq * Np + qp * Np + pp)) (Z.of_nat (a * Nq * Np + q * Np + p)) =
            (GridSpec.sum (fun i => GridSpec.sum (fun j => nth i wxs 0 * weight j *
               geometric sixj ninej threej sphP r c (x i) (pair_cos (sin (angle j)) (cos (angle j)) (x i)) (spectator_cos (sin (angle j)) (cos (angle j)) (x i))
               * v j i) n) (length xs)
             / (sqrt (upper qb q - lower qb q) * sqrt (upper pb p - lower pb p)
                * sqrt (upper qb qp - lower qb qp) * sqrt (upper pb pp - lower pb pp)))%R.
Proof.
  exact (whole_matrix sixj ninej threej sphP legblock legsize g Jm mx iso ss cn states roots dleg Np Nq pb qb xs wxs phi0 wphi0 tab0 k).
Qed.
Print Assumptions C72_whole_matrix.

(* the example of C69 (10 states, 2 x 2 cells) meets the hypotheses, and so does a schedule that pushes all its (at most
   1600) elements through the buffer of one of four threads *)
Example C72_example : exists phi wphi tab t rows,
  calculate_WP_overlap [0%R] (fun _ => 1%R) 2 2 [0; 5; 9]%R [0; 5; 9]%R [0%R] (repeat 7%R 4, repeat 7%R 4, repeat true 16) = Ok (phi, wphi, tab) /\
  (forall qp, qp < 2 -> row_work ex_legsize ex_states t [0%R] 2 2 [0; 5; 9]%R [0; 5; 9]%R phi wphi [0%R] [2%R] tab qp [3%R] = Ok (rows qp)) /\
  let evs := map (fun e => (1, e)) (flat_map rows (seq 0 2)) in
  Permutation (map snd evs) (flat_map rows (seq 0 2)) /\ (forall ev, In ev evs -> fst ev < 4).
Proof.
  destruct C69_example as (R3 & R9 & RL & Hc & Hs & _ & Pp & Mx & _ & HA).
  destruct (C72_whole_matrix (fun _ _ _ _ _ _ => 1%R) ex_ninej ex_threej ex_sphP ex_legblock ex_legsize 0 1 1 false ex_ss 0 ex_states [0%R] (fun _ => 1%R)
     2 2 [0; 5; 9]%R [0; 5; 9]%R [0%R] [2%R] (repeat 7%R 4) (repeat 7%R 4) (repeat true 16) ex_junk) as (phi & wphi & tab & t & rows & E & _ & RW & _);
    try assumption; try reflexivity; try lia.
  - exists 0%Z; reflexivity.
  - vm_compute. split; [ discriminate | reflexivity ].
  - exists phi, wphi, tab, t, rows. split; [ exact E | ]. split; [ intros qp Hqp; apply RW; [ exact Hqp | reflexivity ] | ].
    cbv zeta. split; [ rewrite map_map; cbn [snd]; rewrite map_id; apply Permutation_refl | ].
    intros ev Hi. apply in_map_iff in Hi. destruct Hi as (e & <- & _). cbn. lia.
Qed.
Example C72_example_names : forall t k, t < 4 -> k <= 1600 ->
  String.length (subarray_file_name "Output/run" (fst (nth_chn 0)) (snd (nth_chn 0)) 2 2 1 (Z.of_nat t) (Z.of_nat k)) < 300.
Proof.
  assert (H : forallb (fun t => forallb (fun k =>
     Nat.ltb (String.length (subarray_file_name "Output/run" (fst (nth_chn 0)) (snd (nth_chn 0)) 2 2 1 (Z.of_nat t) (Z.of_nat k))) 300)
     (seq 0 1601)) (seq 0 4) = true) by (vm_compute; reflexivity).
  intros t k Ht Hk. rewrite forallb_forall in H.
  assert (It : In t (seq 0 4)) by (apply in_seq; lia). assert (Ik : In k (seq 0 1601)) by (apply in_seq; lia).
  specialize (H t It). cbv beta in H. rewrite forallb_forall in H. apply Nat.ltb_lt. exact (H k Ik).
Qed.
