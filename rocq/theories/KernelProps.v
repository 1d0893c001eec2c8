(* Three-nucleon kernel: C38, C39. *)
From Coq Require Import Reals Lra.
From Verif Require Import Common ArrayLib PWModel PWSpec SwpModel SparseModel GridSpec PotentialSpec KernelModel KernelSpec.
From Verif Require KernelPropsLemmas.
Open Scope nat_scope.

(* C38: for every channel of every partial-wave table and any two sets V, C of two-nucleon matrices, both
   constructions succeed whatever the fresh arrays contained; block (a, b) of the first is the transpose of the
   operator of C, block (a, b) of the second the transpose of the operator product V C; a block is NULL exactly when a
   two-nucleon force cannot connect the two partial waves.  Excluded: tensor force off together with J_2N_max >= 2
   (below) or isospin breaking (C13). *)
Theorem C38_partial g J_2N_max two_J_3N_max iso ss c states tensor Np Nq V C iu ic ip iu' ic' ip' :
  (1 <= two_J_3N_max)%Z -> Z.Odd two_J_3N_max ->
  construct_symmetric_pw_states_g g J_2N_max two_J_3N_max iso = Ok ss ->
  (0 <= c < ss_N_chn ss)%Z -> channel_slice ss c = Ok states ->
  tensor = true \/ (tensor = false /\ iso = false /\ (J_2N_max <= 1)%Z) ->
  mats_ok tensor iso J_2N_max Np V -> mats_ok tensor iso J_2N_max Np C ->
  mats_ok tensor iso J_2N_max Np (iu, ic) -> length ip = length states * length states ->
  mats_ok tensor iso J_2N_max Np (iu', ic') -> length ip' = length states * length states ->
  exists CT VC, create_CT tensor iso J_2N_max Np states (fst C) (snd C) iu ic ip = Ok CT /\
    create_VC tensor iso J_2N_max Np states (fst V) (snd V) (fst C) (snd C) iu' ic' ip' = Ok VC /\
    let N := length states in
    let C3 := op3 tensor iso Np states C in
    let V3 := op3 tensor iso Np states V in
    forall a b q x y, a < N -> b < N -> q < Nq -> x < Np -> y < Np ->
      block_elem CT N Np a b x y = Ok (C3 (b, q, y) (a, q, x)) /\
      block_elem VC N Np a b x y = Ok (sum3 N Nq Np (fun k => V3 (b, q, y) k * C3 k (a, q, x))%R) /\
      (aread (k_ptr CT) (a * N + b) = Ok None <-> connects tensor (nth a states dummy_pw) (nth b states dummy_pw) = false) /\
      (aread (k_ptr VC) (a * N + b) = Ok None <-> connects tensor (nth a states dummy_pw) (nth b states dummy_pw) = false).
Proof.
  exact (fun H1 H2 H3 H4 H5 H6 H7 H8 => KernelPropsLemmas.blocks g J_2N_max two_J_3N_max iso ss c states tensor Np Nq V C
    H1 H2 H3 H4 H5 H6 H7 H8 iu ic ip iu' ic' ip').
Qed.
Print Assumptions C38_partial.
(* A channel with coupled and uncoupled pairs, connected and unconnected blocks. *)
Example C38_example : exists ss states,
  construct_symmetric_pw_states_g 0 1 1 false = Ok ss /\ channel_slice ss 0 = Ok states /\ length states = 10 /\
  mats_ok true false 1 2 (repeat 1%R 16, repeat 2%R 16) /\
  connects true (nth 4 states dummy_pw) (nth 8 states dummy_pw) = true /\
  connects true (nth 4 states dummy_pw) (nth 5 states dummy_pw) = false.
Proof. do 2 eexists. split; [ vm_compute; reflexivity | ]. split; [ vm_compute; reflexivity | ]. vm_compute. repeat split; reflexivity. Qed.

(* With the tensor force off and J_2N_max = 2 a block pointer leads outside the matrices. *)
Theorem C38_refuted : exists ss states CT a,
  construct_symmetric_pw_states_g 0 2 1 false = Ok ss /\ channel_slice ss 0 = Ok states /\
  mats_ok false false 2 1 (repeat 1%R 10, []) /\
  create_CT false false 2 1 states (repeat 1%R 10) [] (repeat 1%R 10) [] (repeat None (length states * length states)) = Ok CT /\
  a < length states /\ block_elem CT (length states) 1 a a 0 0 = UB.
Proof. exact KernelPropsLemmas.blocks_refuted. Qed.
Print Assumptions C38_refuted.

(* C39: every computed column and every computed on-shell row consists of the elements of C^T (2 P123) V C. *)
Theorem C39_partial g J_2N_max two_J_3N_max iso ss c states tensor Np Nq V C P iu ic ip iu' ic' ip' deut qcom rows :
  (1 <= two_J_3N_max)%Z -> Z.Odd two_J_3N_max ->
  construct_symmetric_pw_states_g g J_2N_max two_J_3N_max iso = Ok ss ->
  (0 <= c < ss_N_chn ss)%Z -> channel_slice ss c = Ok states ->
  tensor = true \/ (tensor = false /\ iso = false /\ (J_2N_max <= 1)%Z) ->
  mats_ok tensor iso J_2N_max Np V -> mats_ok tensor iso J_2N_max Np C ->
  csc_ok (length states * Nq * Np) P -> 0 < Np ->
  mats_ok tensor iso J_2N_max Np (iu, ic) -> length ip = length states * length states ->
  mats_ok tensor iso J_2N_max Np (iu', ic') -> length ip' = length states * length states ->
  (forall d, In d deut -> d < length states) -> (forall q, In q qcom -> q < Nq) ->
  length rows = length deut * length qcom * (length states * Nq * Np) ->
  exists CT VC, create_CT tensor iso J_2N_max Np states (fst C) (snd C) iu ic ip = Ok CT /\
    create_VC tensor iso J_2N_max Np states (fst V) (snd V) (fst C) (snd C) iu' ic' ip' = Ok VC /\
    let N := length states in
    let D := N * Nq * Np in
    let K := kernel N Nq Np (op3 tensor iso Np states C) (op3 tensor iso Np states V) P in
    (forall ac qc pc, valid3 N Nq Np (ac, qc, pc) ->
      exists col, CPVC_col N Nq Np CT VC P ac pc qc (repeat 0%R D) = Ok col /\ length col = D /\
        forall x, valid3 N Nq Np x -> nth (idx3 Nq Np x) col 0%R = K x (ac, qc, pc)) /\
    (exists rows', CPVC_rows N Nq Np CT VC P deut qcom rows = Ok rows' /\ length rows' = length rows /\
      forall i j y, i < length deut -> j < length qcom -> valid3 N Nq Np y ->
        nth ((i * length qcom + j) * D + idx3 Nq Np y) rows' 0%R = K (nth i deut 0, nth j qcom 0, 0) y).
Proof.
  exact (fun H1 H2 H3 H4 H5 H6 H7 H8 => KernelPropsLemmas.products g J_2N_max two_J_3N_max iso ss c states tensor Np Nq V C
    H1 H2 H3 H4 H5 H6 H7 H8 P iu ic ip iu' ic' ip' deut qcom rows).
Qed.
Print Assumptions C39_partial.

(* In the excluded configuration of C38_refuted there is a column whose computation leaves the matrices, for every P. *)
Theorem C39_refuted : exists ss states CT VC ac,
  construct_symmetric_pw_states_g 0 2 1 false = Ok ss /\ channel_slice ss 0 = Ok states /\
  mats_ok false false 2 1 (repeat 1%R 10, []) /\
  create_CT false false 2 1 states (repeat 1%R 10) [] (repeat 1%R 10) [] (repeat None (length states * length states)) = Ok CT /\
  create_VC false false 2 1 states (repeat 1%R 10) [] (repeat 1%R 10) [] (repeat 1%R 10) [] (repeat None (length states * length states)) = Ok VC /\
  ac < length states /\ forall P, CPVC_col (length states) 1 1 CT VC P ac 0 0 (repeat 0%R (length states)) = UB.
Proof. exact KernelPropsLemmas.columns_refuted. Qed.
Print Assumptions C39_refuted.

(* ... where P is any P123 given as a list of elements, sorted and compressed as main does (C25): the compressed form
   meets the hypothesis above and stands for the same matrix. *)
Theorem C39_p123 dim rows cols (vals : list R) idx :
  length cols = length rows -> length vals = length rows -> (Z.of_nat dim < 2 ^ 31)%Z ->
  (forall r, In r rows -> r < dim) -> (forall c, In c cols -> c < dim) ->
  sort_indexes_contract (keys_col_major dim rows cols) idx ->
  exists rows' cols' vals',
    apply_sort rows cols vals idx = Ok (rows', cols', vals') /\
    csc_ok dim (mkcsc vals' rows' (coo_to_csr cols' dim)) /\
    forall i j, i < dim -> j < dim ->
      csc_elem (mkcsc vals' rows' (coo_to_csr cols' dim)) i j = coo_elem (combine (combine rows cols) vals) i j.
Proof. exact (KernelPropsLemmas.p123_csc dim rows cols vals idx). Qed.
Print Assumptions C39_p123.
Example C39_example : csc_ok 3 (mkcsc [1; 2; 3]%R [0; 1; 2] (coo_to_csr [0; 1; 1] 3)) /\
  csc_elem (mkcsc [1; 2; 3]%R [0; 1; 2] (coo_to_csr [0; 1; 1] 3)) 2 1 = 3%R /\
  coo_elem (combine (combine [2; 0; 1] [1; 0; 1]) [3; 1; 2]%R) 2 1 = 3%R /\ valid3 10 1 2 (3, 0, 1).
Proof.
  split; [ | split; [ cbv -[Rplus Rmult IZR]; lra | split; [ cbv -[Rplus Rmult IZR]; lra | cbn; lia ] ] ].
  unfold csc_ok. cbn. repeat split; try reflexivity.
  - intros [|[|[|k]]] H; cbn; lia.
  - destruct j as [|[|[|j]]]; cbn; lia.
  - destruct j as [|[|[|j]]]; cbn; lia.
Qed.
