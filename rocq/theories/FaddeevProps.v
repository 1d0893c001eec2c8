(* The Faddeev solvers: C40-C45, C60-C62.  LAPACK enters by the contracts of DetModel.v and DenseModel.v, which can be
   met (C62_example, C60_example_solver); [mem] is what the two reads before the approximant arrays return. *)
From Coq Require Import Reals Lra.
From Verif Require Import Common ArrayLib PWModel PWSpec SwpModel ResolventModel KernelModel KernelSpec FaddeevModel FaddeevSpec DetModel DenseModel PadeSpec FaddeevExample.
From Verif Require FaddeevPropsLemmas FaddeevStatements FaddeevSolveProofs FaddeevLink DetLaplace DetExists.
Open Scope nat_scope.

(* C40: the column chunks of a kernel of any dimension D from 1 to 2^28: each fits the 4 GiB buffer, lies inside the
   matrix, and every column is in exactly one chunk. *)
Theorem C40 (D : Z) : (1 <= D <= 2 ^ 28)%Z -> exists nc nch, chunking D = Ok (nc, nch) /\ (1 <= nc)%Z /\ (nc * D * 16 <= 4 * 1024 ^ 3)%Z /\
  (forall k, (0 <= k < nch)%Z -> exists st en, chunk_range D nc k = (st, en, en - st)%Z /\ (0 <= st)%Z /\ (st <= en <= D)%Z /\ (en - st <= nc)%Z) /\
  (forall j, (0 <= j < D)%Z -> exists! k, (0 <= k < nch)%Z /\ let '(st, en, _) := chunk_range D nc k in (st <= j < en)%Z).
Proof. exact (FaddeevStatements.st_chunks D). Qed.
Print Assumptions C40.
Example C40_example : chunking 100000 = Ok (2684, 38)%Z /\ chunk_range 100000 2684 37 = (99308, 100000, 692)%Z.
Proof. split; vm_compute; reflexivity. Qed.
(* Outside that range the program divides by zero. *)
Theorem C40_beyond (D : Z) : D = 0%Z \/ (2 ^ 28 < D < 2 ^ 60)%Z -> chunking D = UB.
Proof. exact (FaddeevLink.chunking_ub D). Qed.
Print Assumptions C40_beyond.

(* C41: h m tells which elements have been dropped as converged before step m; once dropped, always dropped.  The
   coefficients stored for every element still in play after step n are the elements of A (G A)^m, for any chunk width. *)
Theorem C41 s tensor iso J_2N_max two_J_3N_max c states V C (nc : nat) (h : nat -> list bool * list bool) (n : nat) :
  channel_system s tensor iso J_2N_max two_J_3N_max c states V C ->
  0 < nc -> n < num_terms ->
  (forall m, length (fst (h m)) = s_nd s * s_nd s * s_nq s /\ length (snd (h m)) = (if s_breakup s then s_nd s * s_nBU s else 0)) ->
  (forall m i, nth i (fst (h m)) false = true -> nth i (fst (h (S m))) false = true) ->
  (forall m i, nth i (snd (h m)) false = true -> nth i (snd (h (S m))) false = true) ->
  let A := kernel_matrix s tensor iso states V C in
  exists st0 st, neumann_init s = Ok st0 /\
    ofold (fun st k => neumann_step s nc (s_D s / nc + 1) (fst (h k)) (snd (h k)) st k) (seq 1 n) st0 = Ok st /\
    (forall e m, elastic s e -> nth (e_idx e) (fst (h n)) false = false -> m <= n -> nth (e_idx e * num_terms + m) (n_a st) c0 = term s A m e) /\
    (forall e m, breakup s e -> nth (e_idx e) (snd (h n)) false = false -> m <= n -> nth (e_idx e * num_terms + m) (n_abu st) c0 = term s A m e).
Proof. exact (fun H => FaddeevStatements.st_history s tensor iso J_2N_max two_J_3N_max c states V C H nc h n). Qed.
Print Assumptions C41.
(* a system of ten partial waves with two deuteron channels and breakup cells meets the hypotheses *)
Example C41_example : exists CT VC,
  let s := sys10 CT VC 1 2 3 4 true [0; 2] [(4, 0, 0); (5, 0, 0)] in
  channel_system s true false 1 1 0 (states_of 1) (unit_mats 4 1) (unit_mats 4 1) /\ s_D s = 10 /\ s_nd s = 2 /\ breakup s (mkelt 3 1 5).
Proof.
  destruct (sys10_ok 1 2 3 4 true [0; 2] [(4, 0, 0); (5, 0, 0)]) as (CT & VC & H).
  { intros _. split; [ reflexivity | ]. split; [ cbn; lia | ]. split; [ cbn; lia | ]. intros x [<-|[<-|[]]]; cbn; lia. }
  exists CT, VC. split; [ exact H | ]. split; [ reflexivity | ]. split; [ reflexivity | ]. split; [ reflexivity | ].
  exists 1, 0, 1. cbn. repeat split; lia.
Qed.

(* C42: a_0 + a_1 z + ... the expansion of p/q up to order 2M, degrees at most M: whenever the denominator determinant is
   not zero, the approximant is p(z)/q(z).  Only a_0 .. a_2M are read. *)
Theorem C42 getrf a p q M z rd : getrf_contract getrf ->
  rational_series a p q M -> (forall k, k <= 2 * M -> rd k = Ok (a k)) -> laplace (M + 1) (denominator a M z) <> c0 ->
  poly_at q M z <> c0 /\ pade_approximant (determinant getrf) rd M M z = Ok (cdiv (poly_at p M z) (poly_at q M z)).
Proof. exact (fun H => FaddeevPropsLemmas.rational_laplace getrf H a p q M z rd). Qed.
Print Assumptions C42.
(* 1/(1 - 2z): series 1, 2, 4 *)
Example C42_example : rational_series (fun k => rc (2 ^ k)) (fun k => match k with O => c1 | _ => c0 end) (fun k => match k with O => c1 | 1 => rc (-2) | _ => c0 end) 1 /\
  laplace 2 (denominator (fun k => rc (2 ^ k)) 1 c1) <> c0.
Proof.
  split.
  - split; [ exists 0; split; [ lia | exact FaddeevPropsLemmas.one_neq ] | ]. split; [ intros [|[|i]] Hi; [ lia | lia | split; reflexivity ] | ].
    intros [|[|[|k]]] Hk; [ | | | lia ]; unfold cadd, cmul, rc, c1, c0; cbn; unfold cadd; cbn; f_equal; ring.
  - intros E. apply (f_equal fst) in E. cbn in E. lra.
Qed.

(* C43, for orders M >= D for which the denominator determinant is not zero (which for M > D never happens): the
   approximant of an elastic element is the element the direct solver reports; that of a breakup element, which the
   direct solver does not report, is the element of the solution of the Faddeev equation. *)
Theorem C43_partial s tensor iso J_2N_max two_J_3N_max c states V C getrf solve U :
  channel_system s tensor iso J_2N_max two_J_3N_max c states V C ->
  getrf_contract getrf -> solve_contract solve -> length U = s_nd s * s_nd s * s_nq s ->
  let A := kernel_matrix s tensor iso states V C in
  exists U', dense_solver solve s U = Ok U' /\ length U' = length U /\
    forall e M, elastic s e -> faddeev_regular (s_D s) A (row_G s (e_row e)) -> s_D s <= M -> laplace (M + 1) (denominator (fun k => term s A k e) M c1) <> c0 ->
      pade_approximant (determinant getrf) (fun k => Ok (term s A k e)) M M c1 = Ok (nth (e_idx e) U' c0).
Proof. exact (fun H1 H2 => FaddeevStatements.st_agree s tensor iso J_2N_max two_J_3N_max c states V C H1 getrf H2 solve U). Qed.
Print Assumptions C43_partial.
Theorem C43_breakup_partial s tensor iso J_2N_max two_J_3N_max c states V C getrf e M X :
  channel_system s tensor iso J_2N_max two_J_3N_max c states V C -> getrf_contract getrf ->
  let A := kernel_matrix s tensor iso states V C in
  breakup s e -> s_D s <= M -> laplace (M + 1) (denominator (fun k => term s A k e) M c1) <> c0 ->
  faddeev_solution (s_D s) A (row_G s (e_row e)) X ->
  pade_approximant (determinant getrf) (fun k => Ok (term s A k e)) M M c1 = Ok (X (row_state s (e_row e)) (e_col e)).
Proof. exact (fun H1 H2 => FaddeevStatements.st_breakup s tensor iso J_2N_max two_J_3N_max c states V C H1 getrf H2 e M X). Qed.
Print Assumptions C43_breakup_partial.
(* D = M = 2 *)
Example C43_example : exists CT VC,
  let s := sys2 CT VC 1 1 1 0 (1 / 2) in
  let A := kernel_matrix s true false (states_of 0) (unit_mats 2 0) (unit_mats 2 0) in
  channel_system s true false 0 1 0 (states_of 0) (unit_mats 2 0) (unit_mats 2 0) /\ s_D s = 2 /\ s_nq s = 1 /\
  faddeev_regular (s_D s) A (row_G s 0) /\ In (mkelt 0 0 0) (el_elts s) /\
  laplace 3 (denominator (fun k => term s A k (mkelt 0 0 0)) 2 c1) <> c0.
Proof. exact FaddeevPropsLemmas.two_example. Qed.
(* Beyond order D the program always divides zero by zero. *)
Theorem C43_refuted s tensor iso J_2N_max two_J_3N_max c states V C getrf e M :
  channel_system s tensor iso J_2N_max two_J_3N_max c states V C -> getrf_contract getrf ->
  elastic s e \/ breakup s e -> s_D s < M ->
  pade_approximant (determinant getrf) (fun k => Ok (term s (kernel_matrix s tensor iso states V C) k e)) M M c1 = Ok (cdiv c0 c0).
Proof. exact (fun H1 H2 => FaddeevStatements.st_beyond s tensor iso J_2N_max two_J_3N_max c states V C H1 getrf H2 e M). Qed.
Print Assumptions C43_refuted.

(* C44 without breakup channels, taking the read before the array (below) to return some value f: every elastic element
   reported is an approximant of its own Neumann series. *)
Theorem C44_partial s tensor iso J_2N_max two_J_3N_max c states V C getrf f fb U UBU :
  channel_system s tensor iso J_2N_max two_J_3N_max c states V C -> (1 <= zn (s_D s) <= 2 ^ 28)%Z -> getrf_contract getrf ->
  s_breakup s = false -> length U = s_nd s * s_nd s * s_nq s ->
  exists U', pade_method_solve (determinant getrf) (Some f, Some fb) s U UBU = Ok (U', UBU) /\ length U' = length U /\
    forall e, elastic s e -> exists b, b <= 14 /\ nth (e_idx e) U' c0 = approximant (fun k => term s (kernel_matrix s tensor iso states V C) k e) b c1.
Proof. exact (fun H1 H2 H3 => FaddeevStatements.st_elastic s tensor iso J_2N_max two_J_3N_max c states V C H1 getrf H3 H2 f fb U UBU). Qed.
Print Assumptions C44_partial.
(* By the rules of the language every run is undefined: the first element's first difference reads before the array. *)
Theorem C44_refuted s tensor iso J_2N_max two_J_3N_max c states V C det mem_bu U UBU :
  channel_system s tensor iso J_2N_max two_J_3N_max c states V C -> (1 <= zn (s_D s) <= 2 ^ 28)%Z ->
  0 < s_nd s -> 0 < s_nq s -> pade_method_solve det (None, mem_bu) s U UBU = UB.
Proof. exact (fun H1 H2 => FaddeevSolveProofs.strict_ub s tensor iso J_2N_max two_J_3N_max c states V C H1 H2 det mem_bu U UBU). Qed.
Print Assumptions C44_refuted.
(* And what is found there decides the result: the same system, two values of the memory before the array, two answers. *)
Theorem C44_refuted_memory getrf fb : getrf_contract getrf -> exists CT VC U1 U2,
  let s := sys10 CT VC 1 0 (1 / 10 ^ 8) 0 false [] [] in
  channel_system s true false 1 1 0 (states_of 1) (unit_mats 4 1) (unit_mats 4 1) /\
  pade_method_solve (determinant getrf) (Some (fun _ => rc (1 + 5 / 10 ^ 8)), Some fb) s (repeat c0 4) [] = Ok (U1, []) /\
  pade_method_solve (determinant getrf) (Some (fun _ => rc 3), Some fb) s (repeat c0 4) [] = Ok (U2, []) /\
  nth 0 U1 c0 = rc 1 /\ nth 0 U2 c0 = rc (1 / (1 - 1 / 10 ^ 8)).
Proof. exact (fun H => FaddeevPropsLemmas.memory_dependence getrf H fb). Qed.
Print Assumptions C44_refuted_memory.

(* C45: with breakup channels and output arrays large enough, the run through the orders never fails; if every element
   has been accepted at its end, everything reported is an accepted approximant; otherwise the loop has stopped because
   the number of accepted elements of both kinds equals the number of elastic ones, and uninitialised memory is used. *)
Theorem C45_partial s tensor iso J_2N_max two_J_3N_max c states V C getrf f fb U UBU :
  channel_system s tensor iso J_2N_max two_J_3N_max c states V C -> (1 <= zn (s_D s) <= 2 ^ 28)%Z -> getrf_contract getrf ->
  s_breakup s = true -> length U = s_nd s * s_nd s * s_nq s -> s_nd s * s_nBU s <= length UBU ->
  let det := determinant getrf in
  let a := fun e k => term s (kernel_matrix s tensor iso states V C) k e in
  exists nc nch v, chunking (zn (s_D s)) = Ok (nc, nch) /\ pade_run det (Some f, Some fb) s (Z.to_nat nc) (Z.to_nat nch) = Ok v /\
    (((forall e, elastic s e -> nth (e_idx e) (p_conv (v_el v)) false = true) /\ (forall e, breakup s e -> nth (e_idx e) (p_conv (v_bu v)) false = true)) ->
     exists U' UBU', pade_method_solve det (Some f, Some fb) s U UBU = Ok (U', UBU') /\
       (forall e, elastic s e -> exists b NM, nth (e_idx e) U' c0 = approximant (a e) b c1 /\ accepted (a e) b NM) /\
       (forall e, breakup s e -> exists b NM, nth (e_idx e) UBU' c0 = approximant (a e) b c1 /\ accepted (a e) b NM)) /\
    (((exists e, elastic s e /\ nth (e_idx e) (p_conv (v_el v)) false = false) \/ (exists e, breakup s e /\ nth (e_idx e) (p_conv (v_bu v)) false = false)) ->
     v_count v = s_nd s * s_nd s * s_nq s /\ pade_method_solve det (Some f, Some fb) s U UBU = UB).
Proof. exact (fun H1 H2 H3 => FaddeevStatements.st_run s tensor iso J_2N_max two_J_3N_max c states V C H1 H2 getrf H3 f fb U UBU). Qed.
Print Assumptions C45_partial.
(* The array main allocates for the breakup amplitudes has one entry per energy and cell: with fewer energies than
   deuteron channels the solver writes outside it. *)
Theorem C45_refuted s tensor iso J_2N_max two_J_3N_max c states V C det f fb U UBU :
  channel_system s tensor iso J_2N_max two_J_3N_max c states V C -> (1 <= zn (s_D s) <= 2 ^ 28)%Z ->
  s_nq s < s_nd s -> (exists e, breakup s e) -> length UBU = s_nq s * s_nBU s ->
  pade_method_solve det (Some f, Some fb) s U UBU = UB.
Proof. 
  intros H1 H2 H3 (e & He). apply (FaddeevSolveProofs.small_array s tensor iso J_2N_max two_J_3N_max c states V C H1 H2 det f fb U UBU); [ exact (proj1 He) | exact H3 | ].
  exists e. apply (FaddeevStatements.breakup_in s tensor iso J_2N_max two_J_3N_max c states V C H1 e). exact He.
Qed.
Print Assumptions C45_refuted.
Example C45_refuted_example getrf f fb U : exists CT VC,
  let s := sys10 CT VC 1 1 0 0 true [0; 1] [(4, 0, 0)] in
  channel_system s true false 1 1 0 (states_of 1) (unit_mats 4 1) (unit_mats 4 1) /\
  pade_method_solve (determinant getrf) (Some f, Some fb) s U (repeat c0 (s_nq s * s_nBU s)) = UB.
Proof. exact (FaddeevPropsLemmas.small_witness getrf f fb U). Qed.
(* The premature end of the loop happens: two deuteron channels, two cells, weak coupling. *)
Theorem C45_refuted_break getrf U UBU : getrf_contract getrf -> exists CT VC,
  let s := sys10 CT VC (1 / 10 ^ 8) (1 / 10 ^ 8) 0 0 true [0; 2] [(4, 0, 0); (5, 0, 0)] in
  channel_system s true false 1 1 0 (states_of 1) (unit_mats 4 1) (unit_mats 4 1) /\
  pade_method_solve (determinant getrf) (Some (fun _ => c0), Some (fun _ => c0)) s U UBU = UB.
Proof. exact (fun H => FaddeevPropsLemmas.break_witness getrf H U UBU). Qed.
Print Assumptions C45_refuted_break.

(* C60: the direct solver always returns; at every energy where the equation X = A + A G X has one solution it reports, for
   every elastic element, the element of that solution. *)
Theorem C60 s tensor iso J_2N_max two_J_3N_max c states V C solve U :
  channel_system s tensor iso J_2N_max two_J_3N_max c states V C -> solve_contract solve -> length U = s_nd s * s_nd s * s_nq s ->
  let A := kernel_matrix s tensor iso states V C in
  exists U', dense_solver solve s U = Ok U' /\ length U' = length U /\
    forall dr dc q, dr < s_nd s -> dc < s_nd s -> q < s_nq s ->
      let G := fun k => nth (q * s_D s + k) (s_G s) c0 in
      faddeev_regular (s_D s) A G ->
      exists X, faddeev_solution (s_D s) A G X /\
        (forall Y, faddeev_solution (s_D s) A G Y -> forall x y, x < s_D s -> y < s_D s -> Y x y = X x y) /\
        nth (dr * s_nd s * s_nq s + dc * s_nq s + q) U' c0 =
          X (idx3 (s_Nq s) (s_Np s) (nth dr (s_d s) 0, nth q (s_q s) 0, 0)) (idx3 (s_Nq s) (s_Np s) (nth dc (s_d s) 0, nth q (s_q s) 0, 0)).
Proof. exact (fun H => FaddeevStatements.st_direct s tensor iso J_2N_max two_J_3N_max c states V C H solve U). Qed.
Print Assumptions C60.
Example C60_example_solver : exists solve, solve_contract solve.
Proof. exact DetExists.solve_exists. Qed.

(* C61: every amplitude reported by the iterative solver that is not the first approximant (order zero, the Born term)
   satisfies the stopping rule with respect to the approximants of its own series. *)
Theorem C61_partial s tensor iso J_2N_max two_J_3N_max c states V C getrf f fb U UBU U' UBU' :
  channel_system s tensor iso J_2N_max two_J_3N_max c states V C -> (1 <= zn (s_D s) <= 2 ^ 28)%Z -> getrf_contract getrf ->
  pade_method_solve (determinant getrf) (Some f, Some fb) s U UBU = Ok (U', UBU') ->
  let a := fun e k => term s (kernel_matrix s tensor iso states V C) k e in
  (forall e, elastic s e -> exists b NM, nth (e_idx e) U' c0 = approximant (a e) b c1 /\ accepted (a e) b NM) /\
  (forall e, breakup s e -> exists b NM, nth (e_idx e) UBU' c0 = approximant (a e) b c1 /\ accepted (a e) b NM).
Proof. exact (fun H1 H2 H3 => FaddeevStatements.st_breakup_run s tensor iso J_2N_max two_J_3N_max c states V C H1 getrf H3 H2 f fb U UBU U' UBU'). Qed.
Print Assumptions C61_partial.
(* The Born term is reported for every element but the first whose Born term is between 1e-15 and 1e-7 in size ... *)
Theorem C61_born s tensor iso J_2N_max two_J_3N_max c states V C getrf f fb U UBU U' UBU' :
  getrf_contract getrf -> channel_system s tensor iso J_2N_max two_J_3N_max c states V C -> (1 <= zn (s_D s) <= 2 ^ 28)%Z ->
  pade_method_solve (determinant getrf) (Some f, Some fb) s U UBU = Ok (U', UBU') ->
  let A := kernel_matrix s tensor iso states V C in
  (forall e, elastic s e -> 0 < e_idx e -> (1 / 10 ^ 15 < cabs (term s A 0 e) < 1 / 10 ^ 7)%R -> nth (e_idx e) U' c0 = term s A 0 e) /\
  (forall e, breakup s e -> 0 < e_idx e -> (1 / 10 ^ 15 < cabs (term s A 0 e) < 1 / 10 ^ 7)%R -> nth (e_idx e) UBU' c0 = term s A 0 e).
Proof.
  intros H Hs HD E. destruct (FaddeevPropsLemmas.born getrf H s tensor iso J_2N_max two_J_3N_max c states V C f fb U UBU U' UBU' Hs HD E) as [P Q].
  split; intros e He; [ apply P | apply Q ].
  - apply (FaddeevStatements.elastic_in s tensor iso J_2N_max two_J_3N_max c states V C Hs e). exact He.
  - apply (FaddeevStatements.breakup_in s tensor iso J_2N_max two_J_3N_max c states V C Hs e). exact He.
Qed.
Print Assumptions C61_born.
(* ... whatever the rest of the series: here the reported value is half the exact one. *)
Theorem C61_refuted getrf f fb : getrf_contract getrf -> exists CT VC U' X,
  let s := sys10 CT VC 0 (1 / 10 ^ 8) 0 (5 * 10 ^ 7) false [] [] in
  let A := kernel_matrix s true false (states_of 1) (unit_mats 4 1) (unit_mats 4 1) in
  channel_system s true false 1 1 0 (states_of 1) (unit_mats 4 1) (unit_mats 4 1) /\
  faddeev_regular (s_D s) A (row_G s 1) /\ faddeev_solution (s_D s) A (row_G s 1) X /\
  elastic s (mkelt 3 1 5) /\
  pade_method_solve (determinant getrf) (Some f, Some fb) s (repeat c0 4) [] = Ok (U', []) /\
  nth 3 U' c0 = rc (1 / 10 ^ 8) /\ X (row_state s 1) 5 = rc (2 / 10 ^ 8).
Proof.
  intros H. destruct (FaddeevPropsLemmas.born_witness getrf H f fb) as (CT & VC & U' & X & W1 & W2 & W3 & W4 & W5). exists CT, VC, U', X.
  split; [ exact W1 | ]. split; [ exact W2 | ]. split; [ exact W3 | ]. split; [ | exact W5 ].
  apply (FaddeevStatements.elastic_in _ _ _ _ _ _ _ _ _ W1). exact W4.
Qed.
Print Assumptions C61_refuted.

(* C62: determinant() is the determinant, by first-row expansion, and pade_approximant the ratio of the two determinants. *)
Theorem C62 getrf A n : getrf_contract getrf -> determinant getrf A n = laplace n (fun r c => nth (r * n + c) A c0).
Proof. exact (DetLaplace.determinant_laplace A n). Qed.
Print Assumptions C62.
Theorem C62_pade getrf a M z : getrf_contract getrf -> pade_approximant (determinant getrf) (fun k => Ok (a k)) M M z = Ok (approximant a M z).
Proof. exact (FaddeevStatements.code_approximant getrf a M z). Qed.
Print Assumptions C62_pade.
Example C62_example : (exists getrf, getrf_contract getrf) /\ laplace 2 (fun r c => rc (match r, c with O, O => 1 | O, _ => 2 | _, O => 3 | _, _ => 4 end)) = rc (-2).
Proof. split; [ exact DetExists.getrf_exists | ]. unfold laplace, cadd, cmul, copp, rc, c0, c1. cbn. unfold cadd, cmul. cbn. f_equal; ring. Qed.
