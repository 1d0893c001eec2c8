(* Property theorems about the OpenMP regions (C80, C81).  [assign]: the iterations each thread does, in its order; schedules
   are arbitrary interleavings of single memory accesses (OmpModel); [every_execution], [race_free]: OmpSpec. *)
From Coq Require Import Reals Lra String Permutation Sorted.
From Verif Require Import Common ArrayLib PWModel PWSpec NameModel SwpModel KernelModel FaddeevModel FaddeevSpec FaddeevExample
  GeoModel GridModel GridSpec PermModel PermSpec PioModel PioSpec PRunSpec OmpModel OmpSpec.
From Verif Require OmpProofs OmpRegions OmpCols OmpOverlap OmpMerge OmpSerial OmpElements OmpPropsLemmas PioProps PioPropsLemmas PermProps.
Import OmpRegions(peqb). Import OmpOverlap(ov_mem).
Open Scope nat_scope.
Open Scope list_scope.

(* C80, on-shell rows (calculate_all_CPVC_rows): however the idx_alpha_c iterations are spread over threads and interleaved,
   whatever is in the private buffers, the rows are those of the kernel matrix. *)
Theorem C80_kernel_rows s tensor iso J_2N_max two_J_3N_max c states V C z assign init :
  channel_system s tensor iso J_2N_max two_J_3N_max c states V C ->
  length z = s_nd s * s_nq s * s_D s -> distributes assign (seq 0 (s_N s)) -> (forall t, length (init t) = s_D s) ->
  let A := kernel_matrix s tensor iso states V C in
  every_execution Nat.eqb
    (omp_for (rows_body (s_N s) (s_Nq s) (s_Np s) (s_CT s) (s_VC s) (s_P s) (s_d s) (s_q s)) init assign) (nth_error z)
    (fun m => forall r k, r < s_nd s * s_nq s -> k < s_D s -> m (r * s_D s + k) = Some (A (row_state s r) k)).
Proof. exact (fun H Lz Hp Hi => proj1 (OmpPropsLemmas.rows_every s tensor iso J_2N_max two_J_3N_max c states V C H z assign init Lz Hp Hi)). Qed.
Print Assumptions C80_kernel_rows.
(* C80, the columns st .. st+w-1 of one chunk in a buffer for nc columns, with at most 100 threads (counter_array[100]) *)
Theorem C80_kernel_columns s tensor iso J_2N_max two_J_3N_max c states V C st w nc counters assign :
  channel_system s tensor iso J_2N_max two_J_3N_max c states V C ->
  w <= nc -> st + w <= s_D s -> length counters = 100 -> length assign <= 100 -> distributes assign (seq st w) ->
  let A := kernel_matrix s tensor iso states V C in
  every_execution peqb (omp_for (cols_body s st) (fun _ => tt) assign) (cols_mem (repeat 0%R (s_D s * nc)) counters)
    (fun m => forall j i, j < w -> i < s_D s -> m (0, j * s_D s + i) = Some (inl (A i (st + j)))).
Proof.
  exact (fun H Hw HD HC HT Hp => proj1 (OmpPropsLemmas.cols_every s tensor iso J_2N_max two_J_3N_max c states V C H st w nc counters assign Hw HD HC HT Hp)).
Qed.
Print Assumptions C80_kernel_columns.
(* C80, coupling tables (collapse(3) loops) *)
Theorem C80_sixj_table sixj jm tab assign : (0 <= jm -> Z.of_nat (length tab) = (jm + 1) * (jm + 1) * (jm + 1) * (jm + 1) * (jm + 1) * (jm + 1) ->
  distributes assign (sixj_iters jm) ->
  every_execution Nat.eqb (omp_for (sixj_body sixj jm) (fun _ => tt) assign) (nth_error tab) (fun m =>
    forall a b c d e f, 0 <= a <= jm -> 0 <= b <= jm -> 0 <= c <= jm -> 0 <= d <= jm -> 0 <= e <= jm -> 0 <= f <= jm ->
      m (Z.to_nat (sixj_idx jm a b c d e f)) = Some (sixj a b c d e f)))%Z.
Proof. exact (fun Hj Hl Hp => proj1 (OmpPropsLemmas.sixj_every sixj jm tab assign Hj Hl Hp)). Qed.
Print Assumptions C80_sixj_table.
Theorem C80_clebsch_table threej jm tab assign : (0 <= jm -> Z.of_nat (length tab) = cg_size jm -> distributes assign (cg_iters jm) ->
  every_execution Nat.eqb (omp_for (cg_body (cg_fun threej) jm) (fun _ => tt) assign) (nth_error tab) (fun m =>
    forall j1 j2 j3 m1 m2, 0 <= j1 <= jm -> 0 <= j2 <= jm -> 0 <= j3 <= 2 * jm -> Z.abs m1 <= j1 -> Z.abs m2 <= j2 ->
      m (Z.to_nat (cg_idx jm j1 j2 j3 m1 m2)) = Some (cg_fun threej j1 j2 j3 m1 m2 (m1 + m2))))%Z.
Proof. exact (fun Hj Hl Hp => proj1 (OmpPropsLemmas.cg_every threej jm tab assign Hj Hl Hp)). Qed.
Print Assumptions C80_clebsch_table.
(* C80, overlap table: the result is that of the loop done by one thread (the one C20 describes) *)
Theorem C80_overlap_table roots dleg Np Nq pb qb xs phi0 wphi0 tab0 assign :
  let n := length roots in
  partition_from_zero Np pb -> partition_from_zero Nq qb -> mesh_in (-1) 1 roots -> mesh_in (-1) 1 xs ->
  length phi0 = Nq * Np * n -> length wphi0 = Nq * Np * n -> length tab0 = Nq * Nq * Np * Np ->
  distributes assign (seq 0 Nq) ->
  exists phi wphi tab, calculate_WP_overlap roots dleg Np Nq pb qb xs (phi0, wphi0, tab0) = Ok (phi, wphi, tab) /\
  every_execution peqb (omp_for (ov_body roots dleg Np Nq pb qb xs) (fun _ => tt) assign) (ov_mem (phi0, wphi0, tab0))
    (fun m => (forall k, m (0, k) = option_map VR (nth_error phi k)) /\ (forall k, m (1, k) = option_map VR (nth_error wphi k)) /\
              (forall k, m (2, k) = option_map VB (nth_error tab k))).
Proof.
  intros n A B C D L1 L2 L3 Hp.
  destruct (OmpPropsLemmas.overlap_every roots dleg Np Nq pb qb xs phi0 wphi0 tab0 assign A B C D L1 L2 L3 Hp) as ([[phi wphi] tab] & E & H & _).
  exists phi, wphi, tab. split; [ exact E | ]. intros sched. destruct (H sched) as (H1 & H2 & H3). split; [ exact H1 | ]. split; [ | exact H3 ].
  intros Fin. assert (Q := H2 Fin). split; [ | split ]; intros k; apply Q.
Qed.
Print Assumptions C80_overlap_table.
(* C80, the elements of the permutation matrix: T threads with buffers of B elements fill their buffers and files; what the
   sequential rest of the program (writing the remaining elements, reading the files back, sorting) makes of them is the
   matrix of [value] on overlapping cells *)
Theorem C80_permutation_elements V veqb vzero srt (sp : space V) folder twoJ P J2max ovl value B T buf0 fs0 assign :
  decides_eq veqb -> sorts srt -> well_formed sp -> 1 <= B ->
  let Nalpha := length (sp_pw V sp) in let Np := sp_Np V sp in let Nq := sp_Nq V sp in
  let name t k := subarray_file_name folder twoJ P (Z.of_nat Np) (Z.of_nat Nq) J2max (Z.of_nat t) (Z.of_nat k) in
  (forall t k, t < T -> k <= length (flat_map (work V vzero Nalpha Np Nq ovl value) (seq 0 Nq)) -> String.length (name t k) < 300) ->
  (forall t, length (buf0 t) = B) -> length assign = T -> distributes assign (seq 0 Nq) ->
  every_execution eloc_eqb (omp_for (elem_body V vzero Nalpha Np Nq ovl value name sp B T) (fun _ => tt) assign) (elem_mem V T buf0 fs0) (fun m =>
    exists M M' res, holds T m M /\ ofold (final_flush V name sp) (seq 0 T) M = Ok M' /\
      merge_files V veqb name sp srt (Z.of_nat (Nalpha * Nq * Np)) (m_fs V M') (map (t_tfc V) (m_th V M')) = Ok res /\
      matrix_of vzero sp ovl value res).
Proof.
  exact (fun Heq Hs W HB Hfit Lb HT Hp =>
    proj1 (OmpPropsLemmas.elements_every V veqb vzero srt sp folder twoJ P J2max ovl value B T buf0 fs0 assign Heq Hs W HB Hfit Lb HT Hp)).
Qed.
Print Assumptions C80_permutation_elements.
(* C80, the merge: all T threads do the whole loop; the index vector and the reordered arrays are those of one thread *)
Theorem C80_merge_indices V D (all : list (elem V)) vec T : 1 <= T ->
  (forall e, In e all -> index_ok V D e = true) -> length vec = length all ->
  every_execution Nat.eqb (omp_all T (fun _ => coo_prog D all (length all))) (nth_error vec)
    (fun m => forall i e, nth_error all i = Some e -> m i = Some (e_row V e * D + e_col V e)%Z).
Proof.
  intros HT Hok Hl sched. cbv zeta.
  assert (E : ofold (fun _ e => if index_ok V D e then Ok tt else Err) all tt = Ok tt).
  { clear Hl. induction all as [|e l IH]; [ reflexivity | ]. cbn [ofold]. rewrite (Hok e (or_introl eq_refl)). apply IH. intros x Hx. apply Hok. right. exact Hx. }
  destruct (OmpMerge.coo_region D all vec T sched E Hl) as (H1 & H2 & _ & H4). split; [ exact H1 | ]. split; [ | exact H4 ].
  intros Fin i e He. rewrite (H2 Fin HT i), nth_error_map, He. reflexivity.
Qed.
Print Assumptions C80_merge_indices.
Theorem C80_merge_reorder A (d : A) (src : list A) (ord : list nat) tmp T : 1 <= T ->
  (forall k, In k ord -> k < length src) -> length tmp = length ord ->
  every_execution Nat.eqb (omp_all T (fun _ => gather_prog src ord (length ord))) (nth_error tmp)
    (fun m => forall i k, nth_error ord i = Some k -> m i = nth_error src k).
Proof.
  intros HT Hok Hl sched. cbv zeta.
  assert (E : forall l pre, (forall k, In k l -> k < length src) -> exists out, ofold (fun acc i => do e <- aread src i; Ok (acc ++ [e])) l pre = Ok out).
  { induction l as [|x l IH]; intros pre H; [ exists pre; reflexivity | ]. cbn [ofold]. unfold aread at 1.
    destruct (nth_error src x) as [e|] eqn:Ex; [ | apply nth_error_None in Ex; specialize (H x (or_introl eq_refl)); lia ]. cbn [obind].
    apply IH. intros k Hk. apply H. right. exact Hk. }
  destruct (E ord [] Hok) as (out & Eo). destruct (OmpMerge.gather_region src ord d tmp out T sched Eo Hl) as (H1 & _ & H3 & _ & H5).
  split; [ exact H1 | ]. split; [ | exact H5 ]. intros Fin i k Hk. rewrite (H3 Fin HT i).
  destruct (OmpMerge.gathered src ord out [] Eo) as (vs & Ev & _ & G). cbn in Ev. subst vs. destruct (G i k Hk) as (v & G1 & G2). congruence.
Qed.
Print Assumptions C80_merge_reorder.

(* the hypotheses are met: the ten-state system of C41_example, one thread doing the odd partial waves backwards *)
Example C80_example_kernel : exists CT VC,
  let s := sys10 CT VC 1 2 3 4 true [0; 2] [(4, 0, 0); (5, 0, 0)] in
  channel_system s true false 1 1 0 (states_of 1) (unit_mats 4 1) (unit_mats 4 1) /\
  distributes [[9; 7; 5; 3; 1]; []; [0; 2; 4; 6; 8]] (seq 0 (s_N s)) /\ s_nd s * s_nq s * s_D s = 20 /\
  4 + 3 <= s_D s /\ distributes [[6]; [5; 4]] (seq 4 3).
Proof.
  destruct (sys10_ok 1 2 3 4 true [0; 2] [(4, 0, 0); (5, 0, 0)]) as (CT & VC & H).
  { intros _. split; [ reflexivity | ]. split; [ cbn; lia | ]. split; [ cbn; lia | ]. intros x [<-|[<-|[]]]; cbn; lia. }
  exists CT, VC. split; [ exact H | ]. split; [ | split; [ reflexivity | split; [ cbn; lia | ] ] ].
  - apply NoDup_Permutation; [ repeat constructor; cbn; lia | apply seq_NoDup | ]. intros x. cbn. lia.
  - apply NoDup_Permutation; [ repeat constructor; cbn; lia | apply seq_NoDup | ]. intros x. cbn. lia.
Qed.
Example C80_example_tables : Z.of_nat (length (repeat 0%R 729)) = ((2 + 1) * (2 + 1) * (2 + 1) * (2 + 1) * (2 + 1) * (2 + 1))%Z /\
  distributes [rev (firstn 20 (sixj_iters 2)); skipn 20 (sixj_iters 2)] (sixj_iters 2) /\ length (sixj_iters 2) = 27 /\
  Z.of_nat (length (repeat 0%R 405)) = cg_size 2 /\ distributes [skipn 20 (cg_iters 2); firstn 20 (cg_iters 2)] (cg_iters 2) /\ length (cg_iters 2) = 45.
Proof.
  split; [ reflexivity | ]. split; [ | split; [ reflexivity | split; [ vm_compute; reflexivity | split; [ | reflexivity ] ] ] ]; unfold distributes; cbn [concat]; rewrite app_nil_r.
  - rewrite <- (firstn_skipn 20 (sixj_iters 2)) at 3. apply Permutation_app_tail. symmetry. apply Permutation_rev.
  - etransitivity; [ apply Permutation_app_comm | ]. rewrite firstn_skipn. reflexivity.
Qed.
Example C80_example_overlap : partition_from_zero 2 [0; 5; 9]%R /\ mesh_in (-1) 1 [0]%R /\ distributes [[1]; [0]] (seq 0 2).
Proof.
  split; [ exact PermProps.C20_example_grid | ]. split; [ intros t [<-|[]]; lra | ]. apply perm_swap.
Qed.
Definition ex_threads (B : nat) : list (acc eloc (evalue Z) unit) :=
  omp_for (elem_body Z (Z.eqb 0) 1 1 2 (fun _ _ _ _ => true) PioProps.ex_value PioProps.ex_name PioProps.ex_sp B 2) (fun _ => tt) [[1]; [0]].
Definition ex_start (B : nat) : memory eloc (evalue Z) := elem_mem Z 2 (fun _ => repeat (7, 7, 7)%Z B) (fun _ => None).
Lemma ex_elements B : 1 <= B -> every_execution eloc_eqb (ex_threads B) (ex_start B) (fun m =>
  exists M M' res, holds 2 m M /\ ofold (final_flush Z PioProps.ex_name PioProps.ex_sp) (seq 0 2) M = Ok M' /\
    merge_files Z Z.eqb PioProps.ex_name PioProps.ex_sp PioPropsLemmas.isort 2 (m_fs Z M') (map (t_tfc Z) (m_th Z M')) = Ok res /\
    matrix_of (Z.eqb 0) PioProps.ex_sp (fun _ _ _ _ => true) PioProps.ex_value res).
Proof.
  intros HB. destruct PioProps.C21_example as (E1 & E2 & E3 & _).
  apply (C80_permutation_elements Z Z.eqb (Z.eqb 0) PioPropsLemmas.isort PioProps.ex_sp "d" 1 1 1 (fun _ _ _ _ => true) PioProps.ex_value B 2
    (fun _ => repeat (7, 7, 7)%Z B) (fun _ => None) [[1]; [0]]); [ exact E2 | exact E1 | exact E3 | exact HB | | | reflexivity | apply perm_swap ].
  - intros [|[|t]] [|[|[|[|k]]]] H1 H2; cbn [length sp_pw sp_Np sp_Nq PioProps.ex_sp] in H2; try (exfalso; vm_compute in H2; lia); try lia; vm_compute; lia.
  - intros _. apply repeat_length.
Qed.
(* one execution: thread 0 does iteration 1, thread 1 iteration 0, alternately; it ends *)
Example C80_example_elements : exists sched, finished (parallel eloc_eqb (ex_threads 1) (ex_start 1) sched).
Proof. destruct (ex_elements 1 (le_n 1) [0; 1; 1; 0]) as (_ & _ & more & H). eexists. exact H. Qed.
Example C80_example_merge : (forall e, In e [(1, 0, 10); (0, 1, 1)]%Z -> index_ok Z 2 e = true) /\ (forall k, In k [1; 0] -> k < length [10; 20]%Z).
Proof. split; [ intros e [<-|[<-|[]]]; reflexivity | intros k [<-|[<-|[]]]; cbn; lia ]. Qed.

(* C81 is false.  (1) The element loop of the permutation matrix: thread 0 reads the progress counters of all threads while
   they are being increased.  In every complete execution in which thread 0 and thread j have work, that is a race. *)
Theorem C81_refuted_progress V (vzero : V -> bool) Nalpha Np Nq ovl value name_of sp B T start assign j qp0 qpj :
  1 <= Np -> 1 <= Nalpha -> length assign = T -> 0 < j < T -> In qp0 (nth 0 assign []) -> In qpj (nth j assign []) ->
  always_races eloc_eqb (omp_for (elem_body V vzero Nalpha Np Nq ovl value name_of sp B T) (fun _ => tt) assign) start (Cnt j).
Proof.
  intros H1 H2 H3 H4 H5 H6 sched Fin.
  exact (OmpElements.progress_race V vzero Nalpha Np Nq ovl value name_of sp B T start assign sched j qp0 qpj H1 H2 H3 H4 H5 H6 Fin).
Qed.
Print Assumptions C81_refuted_progress.
(* (2) The merge: omp parallel without omp for; with two threads every element is written by both *)
Theorem C81_refuted_merge A (d : A) (src : list A) (ord : list nat) tmp T i : 2 <= T ->
  (forall k, In k ord -> k < length src) -> length tmp = length ord -> i < length ord ->
  always_races Nat.eqb (omp_all T (fun _ => gather_prog src ord (length ord))) (nth_error tmp) i.
Proof.
  intros HT Hok Hl Hi sched Fin.
  assert (E : forall l pre, (forall k, In k l -> k < length src) -> exists out, ofold (fun acc i => do e <- aread src i; Ok (acc ++ [e])) l pre = Ok out).
  { induction l as [|x l IH]; intros pre H; [ exists pre; reflexivity | ]. cbn [ofold]. unfold aread at 1.
    destruct (nth_error src x) as [e|] eqn:Ex; [ | apply nth_error_None in Ex; specialize (H x (or_introl eq_refl)); lia ]. cbn [obind].
    apply IH. intros k Hk. apply H. right. exact Hk. }
  destruct (E ord [] Hok) as (out & Eo). destruct (OmpMerge.gather_region src ord d tmp out T sched Eo Hl) as (_ & _ & _ & H4 & _).
  exact (H4 Fin HT i Hi).
Qed.
Print Assumptions C81_refuted_merge.
(* (3) The solver with more than 100 threads: a thread with number 100 or higher that gets a column counts outside
   counter_array[100]; no schedule brings the region to its end *)
Theorem C81_refuted_threads s st n cols counters assign t0 : length counters = 100 -> distributes assign (seq st n) ->
  100 <= t0 -> nth t0 assign [] <> [] ->
  let execution sched := parallel peqb (omp_for (cols_body s st) (fun _ => tt) assign) (cols_mem cols counters) sched in
  (forall sched, ~ finished (execution sched)) /\ (exists sched, failed (execution sched)).
Proof. exact (OmpCols.too_many_threads s st n cols counters assign t0). Qed.
Print Assumptions C81_refuted_threads.
Example C81_refuted_example :
  (exists sched, finished (parallel eloc_eqb (ex_threads 1) (ex_start 1) sched) /\ race_on (elog (parallel eloc_eqb (ex_threads 1) (ex_start 1) sched)) (Cnt 1)) /\
  (exists sched, finished (parallel Nat.eqb (omp_all 2 (fun _ => gather_prog [10; 20]%Z [1; 0] 2)) (nth_error [0; 0]%Z) sched)) /\
  (exists assign, distributes assign (seq 0 101) /\ nth 100 assign [] <> []).
Proof.
  split; [ | split ].
  - destruct C80_example_elements as (sched & Fin). exists sched. split; [ exact Fin | ].
    apply (C81_refuted_progress Z (Z.eqb 0) 1 1 2 (fun _ _ _ _ => true) PioProps.ex_value PioProps.ex_name PioProps.ex_sp 1 2 (ex_start 1) [[1]; [0]] 1 1 0);
      [ lia | lia | reflexivity | lia | left; reflexivity | left; reflexivity | exact Fin ].
  - exists (repeat 0 2 ++ repeat 1 2). intros [|[|t]] p Hp; vm_compute in Hp; [ exists tt; congruence | exists tt; congruence | destruct t; discriminate ].
  - exists (map (fun i => [i]) (seq 0 101)). split; [ | discriminate ]. unfold distributes.
    assert (E : forall l : list nat, concat (map (fun i => [i]) l) = l) by (induction l as [|x l IH]; [ reflexivity | cbn; rewrite IH; reflexivity ]).
    rewrite E. reflexivity.
Qed.

(* What holds: the other regions are free of races in all executions (the columns with at most 100 threads) *)
Theorem C81_kernel_partial s tensor iso J_2N_max two_J_3N_max c states V C z init st w nc counters assign assign' :
  channel_system s tensor iso J_2N_max two_J_3N_max c states V C ->
  length z = s_nd s * s_nq s * s_D s -> distributes assign (seq 0 (s_N s)) -> (forall t, length (init t) = s_D s) ->
  w <= nc -> st + w <= s_D s -> length counters = 100 -> length assign' <= 100 -> distributes assign' (seq st w) ->
  race_free Nat.eqb (omp_for (rows_body (s_N s) (s_Nq s) (s_Np s) (s_CT s) (s_VC s) (s_P s) (s_d s) (s_q s)) init assign) (nth_error z) /\
  race_free peqb (omp_for (cols_body s st) (fun _ => tt) assign') (cols_mem (repeat 0%R (s_D s * nc)) counters).
Proof.
  intros H Lz Hp Hi Hw HD HC HT Hp'. split.
  - exact (proj2 (OmpPropsLemmas.rows_every s tensor iso J_2N_max two_J_3N_max c states V C H z assign init Lz Hp Hi)).
  - exact (proj2 (OmpPropsLemmas.cols_every s tensor iso J_2N_max two_J_3N_max c states V C H st w nc counters assign' Hw HD HC HT Hp')).
Qed.
Print Assumptions C81_kernel_partial.
Theorem C81_tables_partial sixj threej jm tab6 tab5 assign6 assign5 : (0 <= jm)%Z ->
  Z.of_nat (length tab6) = ((jm + 1) * (jm + 1) * (jm + 1) * (jm + 1) * (jm + 1) * (jm + 1))%Z -> distributes assign6 (sixj_iters jm) ->
  Z.of_nat (length tab5) = cg_size jm -> distributes assign5 (cg_iters jm) ->
  race_free Nat.eqb (omp_for (sixj_body sixj jm) (fun _ => tt) assign6) (nth_error tab6) /\
  race_free Nat.eqb (omp_for (cg_body (cg_fun threej) jm) (fun _ => tt) assign5) (nth_error tab5).
Proof.
  intros Hj H6 P6 H5 P5. split.
  - exact (proj2 (OmpPropsLemmas.sixj_every sixj jm tab6 assign6 Hj H6 P6)).
  - exact (proj2 (OmpPropsLemmas.cg_every threej jm tab5 assign5 Hj H5 P5)).
Qed.
Print Assumptions C81_tables_partial.
Theorem C81_overlap_partial roots dleg Np Nq pb qb xs phi0 wphi0 tab0 assign :
  let n := length roots in
  partition_from_zero Np pb -> partition_from_zero Nq qb -> mesh_in (-1) 1 roots -> mesh_in (-1) 1 xs ->
  length phi0 = Nq * Np * n -> length wphi0 = Nq * Np * n -> length tab0 = Nq * Nq * Np * Np ->
  distributes assign (seq 0 Nq) ->
  race_free peqb (omp_for (ov_body roots dleg Np Nq pb qb xs) (fun _ => tt) assign) (ov_mem (phi0, wphi0, tab0)).
Proof.
  intros n A B C D L1 L2 L3 Hp.
  destruct (OmpPropsLemmas.overlap_every roots dleg Np Nq pb qb xs phi0 wphi0 tab0 assign A B C D L1 L2 L3 Hp) as (s' & _ & _ & H). exact H.
Qed.
Print Assumptions C81_overlap_partial.
(* the element loop: buffers, counts and files are never raced for, only the progress counters *)
Theorem C81_elements_partial V (veqb : V -> V -> bool) vzero srt (sp : space V) folder twoJ P J2max ovl value B T buf0 fs0 assign :
  decides_eq veqb -> sorts srt -> well_formed sp -> 1 <= B ->
  let Nalpha := length (sp_pw V sp) in let Np := sp_Np V sp in let Nq := sp_Nq V sp in
  let name t k := subarray_file_name folder twoJ P (Z.of_nat Np) (Z.of_nat Nq) J2max (Z.of_nat t) (Z.of_nat k) in
  (forall t k, t < T -> k <= length (flat_map (work V vzero Nalpha Np Nq ovl value) (seq 0 Nq)) -> String.length (name t k) < 300) ->
  (forall t, length (buf0 t) = B) -> length assign = T -> distributes assign (seq 0 Nq) ->
  forall sched l, race_on (elog (parallel eloc_eqb (omp_for (elem_body V vzero Nalpha Np Nq ovl value name sp B T) (fun _ => tt) assign) (elem_mem V T buf0 fs0) sched)) l ->
    exists i, l = Cnt i.
Proof.
  exact (fun Heq Hs W HB Hfit Lb HT Hp =>
    proj2 (OmpPropsLemmas.elements_every V veqb vzero srt sp folder twoJ P J2max ovl value B T buf0 fs0 assign Heq Hs W HB Hfit Lb HT Hp)).
Qed.
Print Assumptions C81_elements_partial.
