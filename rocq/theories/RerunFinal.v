(* Proof of C95. *)
From Coq Require Import Reals Lra Lia String Permutation Sorted.
From Verif Require Import Common ArrayLib NameModel ParamsModel ParamsSpec DriverModel DriverSpec InputModel InputSpec PWModel PWSpec PWPropsLemmas SwpModel SwpSpec SparseModel GridModel GridSpec
  PermModel PermSpec PermWholeModel PermWholeSpec GeoModel GeoSpec
  PioModel PioSpec PotentialModel PotentialSpec KernelModel KernelSpec ResolventModel SwpWholeModel SwpWholeSpec SpectralSpec OnShellModel OnShellSpec
  FaddeevModel FaddeevSpec DetModel DenseModel PadeSpec AgsSpec ChainModel ChainSpec ReproModel ReproSpec OutputModel OutputSpec TextModel TextSpec ProgramModel ProgramSpec RerunSpec.
From Verif Require Import RerunProofs.
From Verif Require OmpCols ParamsProofs2 ProgramProofs ProgramFinal.
Open Scope nat_scope.

Lemma settings_same (dbl : Type) sd fs omp1 omp2 d1 d100 args :
  let run omp := set_run_parameters dbl sd fs omp d1 d100 args in
  (forall cfg1, run omp1 = Ok cfg1 -> exists cfg2, run omp2 = Ok cfg2 /\ forall f, f <> F_P123_omp_num_threads -> cfg1 f = cfg2 f) /\
  (run omp1 = Err <-> run omp2 = Err) /\ (run omp1 = Exc <-> run omp2 = Exc) /\ (run omp1 = UB <-> run omp2 = UB).
Proof.
  cbv zeta. assert (B := settings_both dbl sd fs omp1 omp2 d1 d100 args).
  destruct (set_run_parameters dbl sd fs omp1 d1 d100 args) as [c| | |], (set_run_parameters dbl sd fs omp2 d1 d100 args) as [c'| | |]; cbn [both] in B; try contradiction;
    (split; [ intros cfg1 H; try discriminate | repeat split; congruence || reflexivity ]).
  injection H as <-. exists c'. split; [ reflexivity | exact B ].
Qed.

Lemma states_machine g g' J mx iso ss : (0 <= J)%Z -> construct_symmetric_pw_states_g g J mx iso = Ok ss -> construct_symmetric_pw_states_g g' J mx iso = Ok ss.
Proof. intros HJ H. rewrite <- (proj1 (stray_irrelevant g g' J mx iso HJ)). exact H. Qed.

Lemma F2_in {A B} (Q : A -> B -> Prop) l l' a : Forall2 Q l l' -> In a l -> exists b, Q a b.
Proof. intros F. induction F as [|x y l l' H F IH]; [ intros [] | intros [<-|Hi]; [ exists y; exact H | exact (IH Hi) ] ]. Qed.
Lemma F2_pair {A B} (Q1 Q2 : A -> B -> Prop) (Rr : A -> B -> B -> Prop) (l : list A) : forall l1 l2,
  (forall a b b', In a l -> Q1 a b -> Q2 a b' -> Rr a b b') -> Forall2 Q1 l l1 -> Forall2 Q2 l l2 ->
  length l1 = length l /\ length l2 = length l /\
  forall n a, nth_error l n = Some a -> exists b b', nth_error l1 n = Some b /\ nth_error l2 n = Some b' /\ Rr a b b'.
Proof.
  induction l as [|a l IH]; intros l1 l2 H F1 F2.
  - inversion F1; subst. inversion F2; subst. split; [ reflexivity | ]. split; [ reflexivity | ]. intros [|n] a E; discriminate.
  - inversion F1 as [|? b ? t1 A1 G1]; subst. inversion F2 as [|? b' ? t2 A2 G2]; subst.
    destruct (IH t1 t2) as (L1 & L2 & HH); [ intros; eapply H; eauto; right; assumption | exact G1 | exact G2 | ].
    split; [ cbn; congruence | ]. split; [ cbn; congruence | ]. intros [|n] x E; cbn in E.
    + injection E as <-. exists b, b'. split; [ reflexivity | ]. split; [ reflexivity | ]. apply H; [ left; reflexivity | exact A1 | exact A2 ].
    + exact (HH n x E).
Qed.

(* two runs over the same tasks: same end, same names, same files where they are determined *)
Lemma F2_both {T} (Q1 Q2 : T -> string * string -> Prop) (U : T -> Prop) l out1 out2 :
  (forall t a b, In t l -> Q1 t a -> Q2 t b -> fst a = fst b /\ (U t -> a = b)) -> Forall2 Q1 l out1 -> Forall2 Q2 l out2 ->
  map fst out1 = map fst out2 /\ forall n t, nth_error l n = Some t -> U t -> nth_error out1 n = nth_error out2 n.
Proof.
  intros H F1 F2. destruct (F2_pair Q1 Q2 (fun t a b => fst a = fst b /\ (U t -> a = b)) l out1 out2 H F1 F2) as (L1 & L2 & HH). split.
  - apply nth_ext_all. intros n. rewrite !nth_error_map. destruct (nth_error l n) as [t|] eqn:En.
    + destruct (HH n t En) as (f1 & f2 & -> & -> & Hf & _). cbn. rewrite Hf. reflexivity.
    + apply nth_error_None in En. rewrite (proj2 (nth_error_None out1 n)), (proj2 (nth_error_None out2 n)) by lia. reflexivity.
  - intros n t En HQ. destruct (HH n t En) as (f1 & f2 & -> & -> & _ & Hf). rewrite (Hf HQ). reflexivity.
Qed.
Lemma F2_nth_ex {A B} (Q : A -> B -> Prop) l l' n a : Forall2 Q l l' -> nth_error l n = Some a -> exists b, Q a b.
Proof. intros F H. eapply F2_in; [ exact F | eapply nth_error_In; exact H ]. Qed.
Lemma same_trace {T} (good1 good2 : T -> string * string -> Prop) (stops1 stops2 U : T -> Prop) todo (run1 run2 : ran unit) :
  one_file_each good1 stops1 todo run1 -> one_file_each good2 stops2 todo run2 ->
  (forall t file, In t todo -> stops1 t -> good2 t file -> False) -> (forall t file, In t todo -> stops2 t -> good1 t file -> False) ->
  (forall t a b, In t todo -> good1 t a -> good2 t b -> fst a = fst b /\ (U t -> a = b)) ->
  snd run1 = snd run2 /\ map fst (fst run1) = map fst (fst run2) /\ forall n t, nth_error todo n = Some t -> U t -> nth_error (fst run1) n = nth_error (fst run2) n.
Proof.
  intros [[E1 F1]|(E1 & n1 & t1 & N1 & S1 & F1)] [[E2 F2]|(E2 & n2 & t2 & N2 & S2 & F2)] H1 H2 H.
  - split; [ congruence | ]. exact (F2_both good1 good2 U todo _ _ H F1 F2).
  - exfalso. destruct (F2_nth_ex _ _ _ _ _ F1 N2) as (b & Hb). exact (H2 t2 b (nth_error_In _ _ N2) S2 Hb).
  - exfalso. destruct (F2_nth_ex _ _ _ _ _ F2 N1) as (b & Hb). exact (H1 t1 b (nth_error_In _ _ N1) S1 Hb).
  - split; [ congruence | ]. assert (n1 = n2) as ->.
    { destruct (Nat.lt_trichotomy n1 n2) as [L|[L|L]]; [ exfalso | exact L | exfalso ].
      - rewrite <- (OmpCols.nth_error_firstn_lt todo n2 n1 L) in N1. destruct (F2_nth_ex _ _ _ _ _ F2 N1) as (b & Hb).
        rewrite (OmpCols.nth_error_firstn_lt todo n2 n1 L) in N1. exact (H1 t1 b (nth_error_In _ _ N1) S1 Hb).
      - rewrite <- (OmpCols.nth_error_firstn_lt todo n1 n2 L) in N2. destruct (F2_nth_ex _ _ _ _ _ F1 N2) as (b & Hb).
        rewrite (OmpCols.nth_error_firstn_lt todo n1 n2 L) in N2. exact (H2 t2 b (nth_error_In _ _ N2) S2 Hb). }
    destruct (F2_both good1 good2 U (firstn n2 todo) (fst run1) (fst run2)) as [A B]; [ | exact F1 | exact F2 | ].
    { intros t a b Hi. apply H. rewrite <- (firstn_skipn n2 todo). apply in_or_app. left. exact Hi. }
    split; [ exact A | ]. intros n t Hn HU. destruct (Nat.lt_ge_cases n n2) as [L|L].
    + apply (B n t); [ rewrite OmpCols.nth_error_firstn_lt by exact L; exact Hn | exact HU ].
    + assert (X : forall (Q : T -> string * string -> Prop) out, Forall2 Q (firstn n2 todo) out -> nth_error out n = None).
      { intros Q out F. apply nth_error_None. assert (length (firstn n2 todo) = length out) by (clear -F; induction F; cbn; congruence). rewrite firstn_length in *. lia. }
      rewrite (X _ _ F1), (X _ _ F2). reflexivity.
Qed.

Lemma trace_short {T} (good : T -> string * string -> Prop) stops todo (run : ran unit) : one_file_each good stops todo run -> length (fst run) <= length todo.
Proof.
  assert (X : forall l out, Forall2 good l out -> length out = length l) by (intros l out F; induction F; cbn; congruence).
  intros [[_ F]|(_ & n & t & _ & _ & F)]; apply X in F; [ lia | ]. rewrite firstn_length in F. lia.
Qed.
Section Rerun.
Variables (lb : library) (sphP : Z -> Z -> R -> R) (mc1 mc2 : machine) (fs : file_system) (args : list string) (cfg cfg2 : config R) (m : potential) (ss : statespace)
  (p q : list R) (rows : list (list R)) (energies : list R).
Let iso := cflag cfg F_isospin_breaking_1S0. Let J := cint cfg F_J_2N_max. Let mid := cflag cfg F_midpoint_approx.
Let Np := cnat cfg F_Np_WP. Let Nq := cnat cfg F_Nq_WP.
Let vg := packet_points mid (lb_gx lb) (lb_gw lb) Np (cnat cfg F_Np_per_WP) p.
Let pot psi := lb_interaction lb m (parameters_of lb cfg m rows psi).
Let todo := tasks (walk_of cfg) (channels_of cfg ss).
Hypothesis Hlib : library_ok lb sphP.
Hypothesis R1 : mc_re mc1 = mc_re mc2.
Hypothesis R2 : mc_im mc1 = mc_im mc2.
Hypothesis R3 : mc_Eb mc1 = mc_Eb mc2.
Hypothesis Hcfg : set_run_parameters R stod fs (mc_omp mc1) 1%R 100%R args = Ok cfg.
Hypothesis Hcfg2 : set_run_parameters R stod fs (mc_omp mc2) 1%R 100%R args = Ok cfg2.
Hypothesis Hset : settings_ok true false cfg.
Hypothesis Hm : fetch_potential_ptr (cstr cfg F_potential_model) = Some m.
Hypothesis Bp : boundaries_of fs (cstr cfg F_p_grid_type) (cstr cfg F_p_grid_filename) Np (vdbl (cfg F_chebyshev_s)) (vdbl (cfg F_chebyshev_t)) p.
Hypothesis Bq : boundaries_of fs (cstr cfg F_q_grid_type) (cstr cfg F_q_grid_filename) Nq (vdbl (cfg F_chebyshev_s)) (vdbl (cfg F_chebyshev_t)) q.
Hypothesis Hpq : cstr cfg F_q_grid_type = "custom"%string -> cstr cfg F_p_grid_type = "custom"%string.
Hypothesis Htab : parameter_table fs cfg m rows.
Hypothesis Hen : energy_file fs cfg energies.
Hypothesis Hss : construct_symmetric_pw_states_g (mc_g mc1) J (cint cfg F_two_J_3N_max) iso = Ok ss.
Hypothesis Hherm : forall c psi, In (c, psi) todo -> hermitian_model (pot psi) (ss_states ss).
Hypothesis Sup1 : supported lb cfg vg ss pot mc1.
Hypothesis Sup2 : supported lb cfg2 vg ss pot mc2.

(* the second run has the settings of the first, up to the number of threads; written as an update, all of its members reduce *)
Let th := cfg2 F_P123_omp_num_threads.
Let cfg' := upd R cfg F_P123_omp_num_threads th.
Lemma second_settings : cfg2 = cfg'.
Proof.
  destruct (proj1 (settings_same R stod fs (mc_omp mc2) (mc_omp mc1) 1%R 100%R args) cfg2 Hcfg2) as (c & E & L).
  assert (c = cfg) as -> by congruence. exact (like_eq cfg2 cfg L).
Qed.

Theorem reproducible : let run1 := main_program lb mc1 fs args in let run2 := main_program lb mc2 fs args in
  snd run1 = snd run2 /\ map fst (fst run1) = map fst (fst run2) /\
  forall n c psi, nth_error todo n = Some (c, psi) -> uniquely_solvable lb sphP cfg vg q ss (pot psi) energies c ->
      nth_error (fst run1) n = nth_error (fst run2) n.
Proof.
  intros run1 run2. destruct (ParamsProofs2.run_legal R stod fs (mc_omp mc1) 1%R 100%R args cfg Hcfg) as (tJ & nthr & nq & ch & par & EtJ & Hodd & Hpos & _).
  assert (Emx : cint cfg F_two_J_3N_max = tJ) by (unfold cint; rewrite EtJ; reflexivity).
  assert (Hmx : (1 <= cint cfg F_two_J_3N_max)%Z) by lia. assert (Hodd' : Z.Odd (cint cfg F_two_J_3N_max)) by (rewrite Emx; exact Hodd).
  destruct Sup1 as (G1 & B1 & S1). destruct Sup2 as (G2 & B2 & S2). rewrite second_settings in B2, S2. assert (Hcfg' := Hcfg2). rewrite second_settings in Hcfg'.
  destruct (ProgramProofs.grids_ok fs (lb_gx lb) (lb_gw lb) (mc_grid mc1) (grid_settings cfg) p q G1) as (f & Ef & Efq & Evg & Hvg);
    [ intros n; apply Hlib | intros n; apply Hlib | exact Bp | exact Bq | exact Hpq | ].
  rewrite Evg in Hvg. change (vgrid_ok mid vg) in Hvg.
  assert (HNp : 3 <= vg_Np vg). { destruct Hset. replace (vg_Np vg) with Np by (unfold vg, packet_points; destruct mid; reflexivity). unfold Np, cnat. unfold cint in so_Np. lia. }
  assert (Hchan : forall c psi, In (c, psi) todo -> (0 <= Z.of_nat c < ss_N_chn ss)%Z).
  { intros c psi Ht. unfold todo, tasks in Ht. apply in_flat_map in Ht. destruct Ht as (c' & Hc & Hi). apply in_map_iff in Hi. destruct Hi as (psi' & Hi & _). injection Hi as -> _.
    unfold channels_of in Hc. assert (In c (seq 0 (Z.to_nat (ss_N_chn ss)))) as Hs by (destruct (cflag cfg F_parallel_run); [ apply filter_In in Hc; apply Hc | exact Hc ]).
    apply in_seq in Hs. lia. }
  assert (X1 := ProgramFinal.program_correct lb sphP mc1 fs args cfg m ss p q rows energies Hlib Hcfg Hm Hss Bp Bq Hpq Htab Hen G1 Hset B1
    (fun c psi Ht => conj (Hherm c psi Ht) (S1 c psi Ht))).
  assert (Hset' : settings_ok true false cfg') by (destruct Hset; constructor; assumption).
  assert (Hss' : construct_symmetric_pw_states_g (mc_g mc2) (cint cfg' F_J_2N_max) (cint cfg' F_two_J_3N_max) (cflag cfg' F_isospin_breaking_1S0) = Ok ss).
  { destruct Hset. exact (states_machine (mc_g mc1) (mc_g mc2) J (cint cfg F_two_J_3N_max) iso ss so_J Hss). }
  assert (X2 := ProgramFinal.program_correct lb sphP mc2 fs args cfg' m ss p q rows energies Hlib Hcfg' Hm Hss' Bp Bq Hpq Htab Hen G2 Hset' B2
    (fun c psi Ht => conj (Hherm c psi Ht) (S2 c psi Ht))).
  change (one_file_each (fun t file => result_file lb sphP mc2 cfg vg q ss (pot (snd t)) energies (fst t) (snd t) file)
    (fun t => set_stops cfg vg q ss (pot (snd t)) (mc_env mc2 (fst t) (snd t)) energies) todo run2) in X2.
  fold pot in X1. fold todo in X1. fold run1 in X1.
  assert (S3 : forall c psi, In (c, psi) todo -> solving_ok cfg vg ss (pot psi) (mc_env mc2 c psi)) by (intros c psi Ht; destruct (S2 c psi Ht); constructor; assumption).
  destruct (same_trace _ _ _ _ (fun t => uniquely_solvable lb sphP cfg vg q ss (pot (snd t)) energies (fst t)) todo run1 run2 X1 X2) as (Y1 & Y2 & Y3).
  - intros [c psi] file Ht HS (states & Eb & os & ds & P & U & HF & _). cbn [fst snd] in *.
    exact (no_stop lb sphP cfg vg q ss (mc_g mc1) (pot psi) energies c true Hset Hmx Hss Hvg HNp (Hherm c psi Ht) _ _ _ _ _ _ _
      (vo_mem _ _ _ _ _ (S1 c psi Ht)) (vo_mem _ _ _ _ _ (S3 c psi Ht)) (vo_diag _ _ _ _ _ (S1 c psi Ht)) (vo_diag _ _ _ _ _ (S3 c psi Ht)) HS HF).
  - intros [c psi] file Ht HS (states & Eb & os & ds & P & U & HF & _). cbn [fst snd] in *.
    exact (no_stop lb sphP cfg vg q ss (mc_g mc1) (pot psi) energies c true Hset Hmx Hss Hvg HNp (Hherm c psi Ht) _ _ _ _ _ _ _
      (vo_mem _ _ _ _ _ (S3 c psi Ht)) (vo_mem _ _ _ _ _ (S1 c psi Ht)) (vo_diag _ _ _ _ _ (S3 c psi Ht)) (vo_diag _ _ _ _ _ (S1 c psi Ht)) HS HF).
  - intros [c psi] f1 f2 Ht HR1 HR2. cbn [fst snd] in *.
    exact (result_unique lb sphP cfg vg q ss (mc_g mc1) (pot psi) energies c psi true Hset Hmx Hodd' Hss (Hchan c psi Ht) Hvg HNp (Hherm c psi Ht) mc1 mc2 f1 f2 R1 R2 R3 (S1 c psi Ht) (S3 c psi Ht) HR1 HR2).
  - split; [ exact Y1 | ]. split; [ exact Y2 | ]. intros n c psi Hn HQ. exact (Y3 n (c, psi) Hn HQ).
Qed.
End Rerun.
