(* Concrete runs for C92: the toy interaction of C91_example, in two different environments. *)
From Coq Require Import Reals Lra Lia Permutation Sorted String.
From Verif Require Import Common ArrayLib PWModel PWSpec SwpModel SwpSpec SparseModel GridSpec GridPropsLemmas PermModel PermSpec PermWholeModel PermWholeSpec
  GeoModel GeoSpec NameModel PioModel PioSpec KernelModel KernelSpec PotentialModel PotentialSpec ResolventModel SwpWholeModel SwpWholeSpec SpectralSpec OnShellModel OnShellSpec
  FaddeevModel FaddeevSpec DetModel DenseModel PadeSpec AgsSpec ChainModel ChainSpec ChainProofs ChainProps ChainExample ReproModel ReproSpec ReproProps.
From Verif Require SpectralProps GeoProps PermWholeProofs PermPropsLemmas PioPropsLemmas DetExists.
Open Scope nat_scope.

(* an eigensolver that returns the opposite eigenvectors, and other memory *)
Definition ex10_diag (N : nat) (A : list R) : list R * list R := let '(w, z) := SpectralProps.ex6_diag N A in (w, map Ropp z).
Definition ex10_mem (k n : nat) : list R := repeat (-3)%R n.
Definition ex10_cmem (k n : nat) : list cdouble := repeat (1, 2)%R n.
Definition ex10_pmem (k n : nat) : list ptr := repeat None n.

Lemma opp_decomposition n A w z : eigen_decomposition n A w z -> eigen_decomposition n A w (map Ropp z).
Proof.
  assert (H : forall j, nth j (map Ropp z) 0%R = (- nth j z 0)%R).
  { intros j. rewrite <- (map_nth Ropp z 0%R j). rewrite Ropp_0. reflexivity. }
  intros (L1 & L2 & S & E & O). split; [ exact L1 | ]. split; [ rewrite map_length; exact L2 | ]. split; [ exact S | ]. split.
  - intros x k Hx Hk. rewrite H. transitivity (sum (fun y => -1 * (A x y * nth (y * n + k) z 0))%R n); [ apply sum_ext; intros y _; rewrite H; ring | ].
    rewrite sum_scal, (E x k Hx Hk). ring.
  - intros k l Hk Hl. rewrite <- (O k l Hk Hl). apply sum_ext. intros y _. rewrite !H. ring.
Qed.

Lemma ex10_solves V : solves SpectralProps.ex6_diag 3 (vg_pWP ex9_vg) V (num_channels false 1) -> solves ex10_diag 3 (vg_pWP ex9_vg) V (num_channels false 1).
Proof.
  intros H cm i Hi. assert (X := opp_decomposition _ _ _ _ (H cm i Hi)). unfold spectrum, ex10_diag in *. destruct (SpectralProps.ex6_diag _ _) as [w z]. exact X.
Qed.
Lemma ex10_spec V cm i : fst (spectrum ex10_diag 3 (vg_pWP ex9_vg) V cm i) = fst (spectrum SpectralProps.ex6_diag 3 (vg_pWP ex9_vg) V cm i).
Proof. unfold spectrum, ex10_diag. destruct (SpectralProps.ex6_diag _ _) as [w z]. reflexivity. Qed.
Lemma ex10_spectra ss V : construct_symmetric_pw_states_g 0 1 1 false = Ok ss -> fresh_potential ex10_mem false true 1 ex9_pot (5, 6)%R ex9_vg (ss_states ss) = Ok V ->
     solves ex10_diag 3 (vg_pWP ex9_vg) V (num_channels false 1) /\
     forall cm i, is_channel false (ss_states ss) cm i -> let w := fst (spectrum ex10_diag 3 (vg_pWP ex9_vg) V cm i) in
       increasing w /\ forall k, k < dim2 cm 3 -> nth k w 0%R <> 0%R /\ (- (Mn + Mp) < nth k w 0)%R.
Proof.
  intros Ess EV.
  destruct (potential_all 0 1 1 false true ss ex9_pot (0, 0)%R ex9_vg ltac:(lia) Ess (or_intror eq_refl) (ex9_hermitian _) ex9_grid
    (ex9_mem 0 (3 * 3 * Z.to_nat (num_2N_unco_states true false 1))) (ex9_mem 1 (3 * 3 * 4 * Z.to_nat (num_2N_coup_states true false 1))))
    as (V' & E & _); [ apply repeat_length | apply repeat_length | ].
  assert (V' = V) as -> by (refine (ReproProofs.potential_unique 0 1 1 false true ss 1 ex9_pot ex9_vg ltac:(lia) Ess (or_intror eq_refl) (ex9_hermitian _) ex9_grid
    (le_n 3) (le_n 1) (0, 0)%R (5, 6)%R _ _ _ _ V' V _ _ _ _ E EV); apply repeat_length).
  destruct (ex9_spectra ss V Ess E) as [S1 S2]. split; [ apply ex10_solves; exact S1 | ]. intros cm i Hch. rewrite ex10_spec. exact (S2 cm i Hch).
Qed.

(* Non-vacuity of C92_channel: two runs with opposite eigenvectors, other memory, and the elements of the permutation matrix
   split and shuffled.  Both succeed; there is an energy and a deuteron wave, the kernel is not zero and the equation is
   uniquely solvable; hence the amplitudes agree. *)
Definition ex10_res : list (Z * Z * R) := [(3, 3, 0%R); (0, 27, (1 / 4)%R); (0, 27, (3 / 4)%R)]%Z.
Example C92_channel_example : exists ss states solve r1 r2,
  construct_symmetric_pw_states_g 0 1 1 false = Ok ss /\ channel_slice ss 0 = Ok states /\
  channel_run SpectralProps.ex6_diag isort solve ex9_mem ex9_cmem ex9_pmem false true 1 2 ex9_q ex9_pot (0, 0)%R ex9_vg ss 0 ex9_inputs ex9_res = Ok r1 /\
  channel_run ex10_diag isort solve ex10_mem ex10_cmem ex10_pmem false true 1 2 ex9_q ex9_pot (5, 6)%R ex9_vg ss 0 ex9_inputs ex10_res = Ok r2 /\
  ex10_diag 3 [] <> SpectralProps.ex6_diag 3 [] /\ ex9_K states 0 27 <> 0%R /\
  0 < length (cr_ds r1) /\ length (os_T (cr_os r1)) = 2 /\ length (cr_U r1) = 2 * length (cr_ds r1) * length (cr_ds r1) /\
  forall d d' j, d < length (cr_ds r1) -> d' < length (cr_ds r1) -> j < 2 ->
    nth (d * length (cr_ds r1) * 2 + d' * 2 + j) (cr_U r1) c0 = nth (d * length (cr_ds r1) * 2 + d' * 2 + j) (cr_U r2) c0.
Proof.
  destruct ex9_tables as (ss & states & Ess & Esl & Ls & Lc & Hd & H4). destruct DetExists.solve_exists as (solve & Hsolve).
  assert (Hr : forall row col v, In (row, col, v) ex9_res -> (0 <= row < Z.of_nat (length states * 2 * 3))%Z /\ (0 <= col < Z.of_nat (length states * 2 * 3))%Z).
  { intros row col v [E|[]]. injection E as <- <- <-. rewrite Ls. cbn. lia. }
  assert (Hr' : forall row col v, In (row, col, v) ex10_res -> (0 <= row < Z.of_nat (length states * 2 * 3))%Z /\ (0 <= col < Z.of_nat (length states * 2 * 3))%Z).
  { intros row col v [E|[E|[E|[]]]]; injection E as <- <- <-; rewrite Ls; cbn; lia. }
  destruct (ex9_runs ss states solve ex9_res Ess Esl Ls Lc Hd H4 Hsolve Hr) as (r & Er & HT & H4r).
  assert (AM : forall (A : Type) (x : A), allocates (fun _ n : nat => repeat x n)) by (intros A x k n; apply repeat_length).
  assert (R := C92_channel 0 1 1 false true ss 0 states 2 ex9_q ex9_pot ex9_vg ex9_inputs
    SpectralProps.ex6_diag isort solve ex9_mem ex9_cmem ex9_pmem (0, 0)%R ex9_res ex10_diag isort solve ex10_mem ex10_cmem ex10_pmem (5, 6)%R ex10_res
    ltac:(lia) ltac:(exists 0%Z; reflexivity) Ess ltac:(lia) Esl (or_intror eq_refl) (ex9_hermitian _) ex9_grid (le_n 3) ltac:(lia) ex9_part
    ltac:(rewrite Ls; reflexivity) isort_ok isort_ok Hsolve Hsolve (AM _ _) (AM _ _) (AM _ _) (AM _ _) (AM _ _) (AM _ _)
    (fun V => ex9_spectra ss V Ess) (fun V => ex10_spectra ss V Ess) Hr Hr').
  destruct R as [[E _]|(r1 & r2 & E1 & E2 & S)].
  - intros i j _ _. rewrite ex9_P. unfold ex10_res. cbn [PermWholeSpec.entry fold_right].
    cbn [fst snd]. repeat match goal with |- context [Z.eqb ?a ?b] => destruct (Z.eqb_spec a b) | |- context [Nat.eqb ?a ?b] => destruct (Nat.eqb_spec a b) end;
      cbn [andb]; try lia; lra.
  - congruence.
  - assert (r1 = r) as -> by congruence. exists ss, states, solve, r, r2. split; [ exact Ess | ]. split; [ exact Esl | ]. split; [ exact E1 | ]. split; [ exact E2 | ].
    split. { intros X. apply (f_equal (fun x => nth 0 (snd x) 0%R)) in X. cbn in X. lra. }
    split. { rewrite ex9_K1. change (state_of 2 3 27) with (4, 1, 0). unfold potential3. rewrite H4. cbv -[Rplus Rmult Rinv Ropp IZR Rdiv sqrt Rminus SwpWholeProps.ex_t]. lra. }
    destruct S as (_ & _ & _ & _ & _ & _ & LU & _ & (P & C & lam & edge & HP & HW) & HR). rewrite HT in LU, HR.
    split; [ destruct (cr_ds r); [ destruct H4r | cbn; lia ] | ]. split; [ exact HT | ]. split; [ exact LU | ].
    intros d d' j Hdd Hdd' Hj. refine (HR P C lam edge HP HW d d' j Hdd Hdd' Hj _).
    change (vg_Np ex9_vg) with 3. rewrite Ls. unfold averaged_resolvent. rewrite Ls.
    refine (ChainFinal.regular_same 60 (ex9_K states) _ _ _ _ (fun x y _ _ => eq_refl) (ex9_regular states C _ _)).
    + intros x y Hx Hy. unfold ex9_K, kernel_2PV, two_PV. rewrite Ls. apply sum_ext. intros z Hz. change (vg_Np ex9_vg) with 3 in HP. rewrite HP by (rewrite Ls; assumption). reflexivity.
    + intros a iq i a' iq' i' Hn. destruct HW as (_ & HZ & _). exact (HZ _ _ _ _ _ _ Hn).
Qed.

(* ---- two runs of the whole program ---- *)
Lemma ofold_len {S X} (m : S -> nat) (f : S -> X -> outcome S) k l : (forall s x s', f s x = Ok s' -> m s' <= m s + k) ->
  forall s s', ofold f l s = Ok s' -> m s' <= m s + k * length l.
Proof.
  intros Hf. induction l as [|x l IH]; cbn [ofold length]; intros s s' E; [ injection E as <-; lia | ].
  destruct (f s x) as [s1| | |] eqn:E1; cbn [obind] in E; try discriminate. specialize (Hf _ _ _ E1). specialize (IH _ _ E). lia.
Qed.
Lemma row_len legsize states t roots Np Nq pb qb phi wphi xs wxs tab qp G0 l :
  row_work legsize states t roots Np Nq pb qb phi wphi xs wxs tab qp G0 = Ok l -> length l <= Np * Nq * length states * length states * Np.
Proof.
  unfold row_work. cbv zeta. destruct (ofold _ (seq 0 Np) ([], G0)) as [r| | |] eqn:E; cbn [obind]; try discriminate. intros H. injection H as <-.
  set (m := fun s : list (elem R) * list R => length (fst s)).
  match type of E with ofold ?f _ _ = _ => assert (F := ofold_len m f (Np * Nq * length states * length states)%nat (seq 0 Np)) end.
  rewrite seq_length in F. enough (X : length (fst r) <= 0 + Np * Nq * length states * length states * Np) by exact X. refine (F _ _ _ E). clear. intros s pp s' E.
  match type of E with ofold ?f _ _ = _ => assert (F := ofold_len m f (Np * Nq * length states)%nat (seq 0 (length states))) end.
  rewrite seq_length in F. refine (F _ _ _ E). clear. intros s ap s' E.
  match type of E with ofold ?f _ _ = _ => assert (F := ofold_len m f (Np * Nq)%nat (seq 0 (length states))) end.
  rewrite seq_length in F. refine (F _ _ _ E). clear. intros s a s' E. cbv beta in E.
  destruct (gtilde_subarray _ _ _ _ _ _ _ _ _ _ _) as [G| | |]; cbn [obind] in E; try discriminate.
  match type of E with obind ?x _ = _ => destruct x as [acc| | |] eqn:E2 end; cbn [obind] in E; try discriminate. injection E as <-. unfold m. cbn [fst].
  match type of E2 with ofold ?f _ _ = _ => assert (F := ofold_len (@length (elem R)) f Np (seq 0 Nq)) end.
  rewrite seq_length in F. refine (F _ _ _ E2). clear. intros s1 q s' E.
  match type of E with ofold ?f _ _ = _ => assert (F := ofold_len (@length (elem R)) f 1 (seq 0 Np)) end.
  rewrite seq_length, Nat.mul_1_l in F. refine (F _ _ _ E). clear. intros s p s' E. cbv beta in E. unfold elem in *.
  destruct (aread _ _) as [o| | |]; cbn [obind] in E; try discriminate. destruct o; [ | injection E as <-; lia ].
  destruct (P123_element _ _ _ _ _ _ _ _ _ _ _ _ _) as [v| | |]; cbn [obind] in E; try discriminate.
  destruct (Req_EM_T v 0); injection E as <-; [ lia | rewrite app_length; cbn; lia ].
Qed.
Definition ex10_eqb (a b : R) : bool := if Req_EM_T a b then true else false.
Definition ex10_env1 solve evs : environment :=
  mkenv SpectralProps.ex6_diag isort solve ex9_mem ex9_cmem ex9_pmem (0, 0)%R (repeat 7%R 6) (repeat 7%R 6) (repeat true 36) ex9_junk (fun _ => [3%R])
    ex10_eqb PioPropsLemmas.isort "Output/run" 1 1 (fun _ => [(0%Z, 0%Z, 7%R)]) (fun _ => None) evs.
Definition ex10_env2 solve evs : environment :=
  mkenv ex10_diag isort solve ex10_mem ex10_cmem ex10_pmem (5, 6)%R (repeat 0%R 6) (repeat 1%R 6) (repeat false 36) ex9_junk (fun _ => [8%R])
    ex10_eqb PioPropsLemmas.isort "elsewhere" 5 4 (fun _ => repeat (4%Z, 2%Z, 7%R) 5) (fun _ => Some (mkh5 R 0 0 0 0 [] [] [] [])) evs.
Lemma ex10_names f t k : f = "Output/run"%string \/ f = "elsewhere"%string -> t < 4 -> k <= 3600 ->
  String.length (subarray_file_name f (fst (nth_chn 0)) (snd (nth_chn 0)) 3 2 1 (Z.of_nat t) (Z.of_nat k)) < 300.
Proof.
  assert (H : forallb (fun f => forallb (fun t => forallb (fun k =>
     Nat.ltb (String.length (subarray_file_name f (fst (nth_chn 0)) (snd (nth_chn 0)) 3 2 1 (Z.of_nat t) (Z.of_nat k))) 300)
     (seq 0 3601)) (seq 0 4)) ["Output/run"; "elsewhere"]%string = true) by (vm_compute; reflexivity).
  intros Hf Ht Hk. rewrite forallb_forall in H. assert (If : In f ["Output/run"; "elsewhere"]%string) by (destruct Hf as [-> | ->]; cbn; auto).
  assert (It : In t (seq 0 4)) by (apply in_seq; lia). assert (Ik : In k (seq 0 3601)) by (apply in_seq; lia).
  specialize (H f If). cbv beta in H. rewrite forallb_forall in H. specialize (H t It). cbv beta in H. rewrite forallb_forall in H. apply Nat.ltb_lt. exact (H k Ik).
Qed.
Notation ex10_program := (channel_program (fun _ _ _ _ _ _ => 1%R) GeoProps.ex_ninej GeoProps.ex_threej GeoProps.ex_legblock GeoProps.ex_legsize
  [0%R] (fun _ => 1%R) [0%R] [2%R] false true 1 2 ex9_q ex9_pot ex9_vg GeoProps.ex_ss 0 ex9_inputs).
Notation ex10_ok := (environment_ok GeoProps.ex_legsize 1 1 false true 1 2 ex9_pot ex9_vg GeoProps.ex_ss 0 GeoProps.ex_states).
Lemma ex10_run (env : list (nat * elem R) -> environment) (f : list (elem R) -> list (nat * elem R)) :
  (forall l, Permutation (map snd (f l)) l) ->
  (forall evs, en_evs (env evs) = evs) -> (forall evs, en_phi (env evs) = en_phi (env [])) -> (forall evs, en_wphi (env evs) = en_wphi (env [])) ->
  (forall evs, en_tab (env evs) = en_tab (env [])) -> (forall evs, en_geo (env evs) = ex9_junk) -> (forall evs qp, length (en_G (env evs) qp) = 1) ->
  length (en_phi (env [])) = 6 -> length (en_wphi (env [])) = 6 -> length (en_tab (env [])) = 36 ->
  (forall l, length l <= 3600 -> ex10_ok (env (f l))) ->
  exists l out, ex10_ok (env (f l)) /\ ex10_program (env (f l)) out.
Proof.
  intros Hf He Hp Hw Ht Hg HG L1 L2 L3 Hok.
  destruct GeoProps.C69_example as (R3 & R9 & RL & Hc & Hs & Ls & _ & Mx & _ & _). destruct C91_whole_example as (ss & E1 & E2 & _ & _ & _ & _ & Hal). assert (ss = GeoProps.ex_ss) as -> by congruence.
  destruct (PermWholeProofs.whole_matrix (fun _ _ _ _ _ _ => 1%R) GeoProps.ex_ninej GeoProps.ex_threej GeoProps.ex_sphP GeoProps.ex_legblock GeoProps.ex_legsize
    0 1 1 false GeoProps.ex_ss 0 GeoProps.ex_states [0%R] (fun _ => 1%R) 3 2 (vg_pWP ex9_vg) ex9_q [0%R] [2%R] (en_phi (env [])) (en_wphi (env [])) (en_tab (env [])) ex9_junk)
    as (phi & wphi & tab & t & rows & A1 & A2 & A3 & A4); try assumption; try reflexivity; try lia.
  - exists 0%Z. reflexivity.
  - vm_compute. split; [ discriminate | reflexivity ].
  - exact ex9_part3.
  - exact ex9_part.
  - assert (Ll : length (flat_map rows (seq 0 2)) <= 3600).
    { cbn [seq flat_map]. rewrite !app_length. assert (B : forall qp, qp < 2 -> length (rows qp) <= 3 * 2 * 10 * 10 * 3).
      { intros qp Hq. rewrite <- Ls. exact (row_len _ _ _ _ _ _ _ _ _ _ _ _ _ qp [0%R] _ (A3 qp [0%R] Hq eq_refl)). }
      assert (B0 := B 0 ltac:(lia)). assert (B1 := B 1 ltac:(lia)). cbn [length]. revert B0 B1. generalize (length (rows 0)) (length (rows 1)). intros u v. cbn. lia. }
    exists (flat_map rows (seq 0 2)). assert (Ho := Hok _ Ll). destruct Ho as [O1 O2 O3 O4 O5 O6 O7 Ov Os [HB Hb] Hth Hn].
    destruct (A4 (en_veqb (env (f (flat_map rows (seq 0 2))))) (en_srt (env (f (flat_map rows (seq 0 2))))) (en_folder (env (f (flat_map rows (seq 0 2))))) 1%Z
      (en_B (env (f (flat_map rows (seq 0 2))))) (en_T (env (f (flat_map rows (seq 0 2))))) (en_buf (env (f (flat_map rows (seq 0 2))))) (en_fs (env (f (flat_map rows (seq 0 2)))))
      (en_evs (env (f (flat_map rows (seq 0 2))))) Ov Os HB Hn Hb Hth ltac:(rewrite He; apply Hf)) as (fs & res & EB & _).
    eexists. split; [ exact (Hok _ Ll) | ].
    exists GeoProps.ex_states, phi, wphi, tab, t, rows, fs, res. split; [ exact Hs | ]. split; [ rewrite Hp, Hw, Ht; exact A1 | ]. split; [ rewrite Hg; exact A2 | ].
    split; [ intros qp Hq; apply A3; [ exact Hq | apply HG ] | ]. split; [ rewrite He; apply Hf | ]. split; [ exact EB | reflexivity ].
Qed.
Lemma ex10_env1_ok solve l : solve_contract solve -> length l <= 3600 -> ex10_ok (ex10_env1 solve (map (fun e => (0, e)) l)).
Proof.
  intros Hs Hl. destruct C91_whole_example as (ss & E1 & _ & _ & _ & _ & _ & Hal). assert (Ess : construct_symmetric_pw_states_g 0 1 1 false = Ok GeoProps.ex_ss) by (vm_compute; reflexivity).
  constructor; cbn [ex10_env1 en_diag en_sort en_solve en_mem en_cmem en_pmem en_junk en_phi en_wphi en_tab en_geo en_G en_veqb en_srt en_folder en_B en_T en_buf en_fs en_evs].
  - exact isort_ok.
  - exact Hs.
  - intros k n. apply repeat_length.
  - intros k n. apply repeat_length.
  - intros k n. apply repeat_length.
  - intros V. exact (ex9_spectra GeoProps.ex_ss V Ess).
  - split; [ reflexivity | ]. split; [ reflexivity | ]. split; [ reflexivity | ]. split; [ exact Hal | reflexivity ].
  - intros a b. unfold ex10_eqb. destruct (Req_EM_T a b); split; congruence.
  - exact PioPropsLemmas.isort_sorts.
  - split; [ lia | reflexivity ].
  - intros ev Hi. apply in_map_iff in Hi. destruct Hi as (e & <- & _). cbn. lia.
  - intros t k Ht Hk. rewrite map_length in Hk. apply ex10_names; [ auto | lia | lia ].
Qed.
Lemma ex10_env2_ok solve l : solve_contract solve -> length l <= 3600 -> ex10_ok (ex10_env2 solve (map (fun e => (3, e)) (rev l))).
Proof.
  intros Hs Hl. destruct C91_whole_example as (ss & E1 & _ & _ & _ & _ & _ & Hal). assert (Ess : construct_symmetric_pw_states_g 0 1 1 false = Ok GeoProps.ex_ss) by (vm_compute; reflexivity).
  constructor; cbn [ex10_env2 en_diag en_sort en_solve en_mem en_cmem en_pmem en_junk en_phi en_wphi en_tab en_geo en_G en_veqb en_srt en_folder en_B en_T en_buf en_fs en_evs].
  - exact isort_ok.
  - exact Hs.
  - intros k n. apply repeat_length.
  - intros k n. apply repeat_length.
  - intros k n. apply repeat_length.
  - intros V. exact (ex10_spectra GeoProps.ex_ss V Ess).
  - split; [ reflexivity | ]. split; [ reflexivity | ]. split; [ reflexivity | ]. split; [ exact Hal | reflexivity ].
  - intros a b. unfold ex10_eqb. destruct (Req_EM_T a b); split; congruence.
  - exact PioPropsLemmas.isort_sorts.
  - split; [ lia | reflexivity ].
  - intros ev Hi. apply in_map_iff in Hi. destruct Hi as (e & <- & _). cbn. lia.
  - intros t k Ht Hk. rewrite map_length, rev_length in Hk. apply ex10_names; [ auto | lia | lia ].
Qed.
(* Non-vacuity of C92_reproducible: a run with one thread and a run with four (all the work done by the last one, in reverse
   order), another eigensolver, other memory, another folder, in which the files exist already; the geometry of C69_example.
   Both succeed. *)
Example C92_example : exists solve l1 l2 r1 r2, let E1 := ex10_env1 solve (map (fun e => (0, e)) l1) in let E2 := ex10_env2 solve (map (fun e => (3, e)) (rev l2)) in
  ex10_ok E1 /\ ex10_ok E2 /\ ex10_program E1 (Ok r1) /\ ex10_program E2 (Ok r2) /\
  length (os_T (cr_os r1)) = 2 /\ In 4 (cr_ds r1).
Proof.
  destruct DetExists.solve_exists as (solve & Hsolve). exists solve.
  assert (Ess : construct_symmetric_pw_states_g 0 1 1 false = Ok GeoProps.ex_ss) by (vm_compute; reflexivity).
  destruct ex9_tables as (ss & states & Ess' & Esl & Ls & Lc & Hd & H4). assert (ss = GeoProps.ex_ss) by congruence. subst ss.
  destruct GeoProps.C69_example as (R3 & R9 & RL & _ & Hs & _ & _ & Mx & _ & _). assert (states = GeoProps.ex_states) by congruence. subst states.
  destruct (ex10_run (ex10_env1 solve) (map (fun e => (0, e)))) as (l1 & o1 & Ok1 & P1); try reflexivity.
  { intros l. rewrite map_map. cbn [snd]. rewrite map_id. apply Permutation_refl. }
  { intros l. apply ex10_env1_ok. exact Hsolve. }
  destruct (ex10_run (ex10_env2 solve) (fun l => map (fun e => (3, e)) (rev l))) as (l2 & o2 & Ok2 & P2); try reflexivity.
  { intros l. rewrite map_map. cbn [snd]. rewrite map_id. apply Permutation_sym, Permutation_rev. }
  { intros l. apply ex10_env2_ok. exact Hsolve. }
  assert (P1' := P1). destruct (ReproFinal.program_permutation (fun _ _ _ _ _ _ => 1%R) GeoProps.ex_ninej GeoProps.ex_threej GeoProps.ex_sphP GeoProps.ex_legblock GeoProps.ex_legsize
    [0%R] (fun _ => 1%R) [0%R] [2%R] 0 1 1 false true GeoProps.ex_ss 0 GeoProps.ex_states 2 ex9_q ex9_pot ex9_vg ex9_inputs R3 R9 RL ltac:(lia) ltac:(exists 0%Z; reflexivity) Ess ltac:(lia) Hs
    (le_n 3) ltac:(lia) ex9_part3 ex9_part ltac:(rewrite Ls; reflexivity) Mx Mx eq_refl _ _ Ok1 P1') as (res & (_ & _ & _ & _ & _ & Hr & _) & _ & E1).
  destruct (ex9_runs GeoProps.ex_ss GeoProps.ex_states solve res Ess Esl Ls Lc Hd H4 Hsolve Hr) as (r & Er & HT & H4r).
  assert (E1' : o1 = Ok r) by (rewrite E1; exact Er).
  assert (R := C92_reproducible (fun _ _ _ _ _ _ => 1%R) GeoProps.ex_ninej GeoProps.ex_threej GeoProps.ex_sphP GeoProps.ex_legblock GeoProps.ex_legsize
    [0%R] (fun _ => 1%R) [0%R] [2%R] 0 1 1 false true GeoProps.ex_ss 0 GeoProps.ex_states 2 ex9_q ex9_pot ex9_vg ex9_inputs _ _ o1 o2 R3 R9 RL ltac:(lia) ltac:(exists 0%Z; reflexivity) Ess ltac:(lia) Hs
    (or_intror eq_refl) (ex9_hermitian _) ex9_grid (le_n 3) ltac:(lia) ex9_part3 ex9_part ltac:(rewrite Ls; reflexivity) Mx Mx eq_refl Ok1 Ok2 P1 P2).
  destruct R as [[X _]|(r1 & r2 & X1 & X2 & _)]; [ congruence | ]. exists l1, l2, r, r2. cbv zeta. rewrite E1' in P1. rewrite X2 in P2. auto 10.
Qed.
