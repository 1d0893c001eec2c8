(* A run with breakup for C97: the run of C96_example with the breakup channels switched on. *)
From Coq Require Import Reals Lra Lia String Permutation Sorted.
From Verif Require Import Common ArrayLib NameModel ParamsModel ParamsSpec DriverModel DriverSpec InputModel InputSpec PWModel PWSpec SwpModel SwpSpec SparseModel GridModel GridSpec
  PermModel PermSpec GeoModel GeoSpec PioModel PioSpec PotentialModel PotentialSpec KernelSpec ResolventModel SwpWholeModel SwpWholeSpec SpectralSpec OnShellModel OnShellSpec
  FaddeevModel FaddeevSpec DetModel DenseModel PadeSpec AgsSpec IterSpec ChainModel ChainSpec ChainProofs ChainExample ReproModel ReproSpec ReproExample OutputModel TextModel TextSpec ProgramModel ProgramSpec ProgramProps ProgramExample
  ProgramBreakupProps.
From Verif Require SpectralProps SwpWholeProps GeoProps DetExists OnShellProofs OnShellPropsLemmas.
Open Scope nat_scope.

(* its on-shell energies are a few MeV, the threshold is at almost 100 MeV *)
Lemma ex13_low os : elastic_bins 2 ex11_q (t - 100) [1%R] = Ok os -> forall En, In En (os_E os) -> (En + (t - 100) < 0)%R.
Proof.
  intros Eos En HE. destruct SwpWholeProps.ex_t_bounds as (B & _ & _). assert (HEb : (- (Mn + Mp) < t - 100)%R) by (unfold Mn, Mp; lra).
  destruct (OnShellPropsLemmas.bins_bracket 2 ex11_q (t - 100) [1%R] ltac:(lia) ex11_q_part HEb) as (mid & _ & _ & _ & A). destruct (A os Eos) as (_ & _ & _ & _ & Eq & EE).
  assert (H := proj1 (OnShellPropsLemmas.bin_home 2 ex11_q (t - 100) [1%R] ltac:(lia) ex11_q_part HEb) os Eos).
  rewrite EE, Eq, map_map in HE. apply in_map_iff in HE. destruct HE as (i & <- & Hi).
  assert (K : (0 <= mid_momentum (t - 100) (GridSpec.lower ex11_q i) (GridSpec.upper ex11_q i) < 60)%R).
  { clear -H Hi. induction H as [|i' j l l' [Hj Hk] F IH]; [ destruct Hi | ]. destruct Hi as [->|Hi]; [ | exact (IH Hi) ].
    unfold GridSpec.lower, GridSpec.upper in Hk. assert (0 <= nth j ex11_q 0 /\ nth (j + 1) ex11_q 0 <= 60)%R by (unfold ex11_q; destruct j as [|[|j]]; try lia; cbn [nth Nat.add]; lra).
    unfold GridSpec.lower, GridSpec.upper. lra. }
  set (k := mid_momentum _ _ _) in *.
  assert (HM : (900 < MN < 1000)%R) by (unfold MN, Mn, Mp; lra).
  assert ((3 * k * k) / (4 * MN) < 50)%R. { apply Rmult_lt_reg_r with (4 * MN)%R; [ lra | ]. unfold Rdiv. rewrite Rmult_assoc, Rinv_l by lra. nra. }
  unfold Rdiv in *. lra.
Qed.
Lemma four_files {T} (good : T -> list (string * string) -> Prop) stops todo run : length todo = 2 -> (forall t, In t todo -> ~ stops t) -> (forall t out, good t out -> length out = 2) ->
  files_until good stops (fun _ => False) todo run -> snd run = Ok tt /\ length (fst run) = 4.
Proof.
  intros L H H2 [[E (outs & F & ->)]|(n & t0 & outs & rest & Hn & _ & _ & [(_ & _ & Hs)|[]])]; [ | destruct (H t0 (nth_error_In _ _ Hn) Hs) ].
  split; [ exact E | ]. destruct todo as [|a [|b [|c l]]]; try discriminate L. inversion F as [|? o1 ? ? G1 F1]. subst. inversion F1 as [|? o2 ? ? G2 F2]. subst. inversion F2. subst.
  cbn [concat]. rewrite !app_length, (H2 _ _ G1), (H2 _ _ G2). reflexivity.
Qed.

(* Non-vacuity of C97: every hypothesis holds, whatever the solver finds before its arrays; the run succeeds and writes two files
   for each of the two parameter sets; and where reading that cell is undefined, the run is undefined. *)
Example C97_example round_re round_im print : exists solve getrf ss os, let lb := ex11_lib 2 in let fs := ex11_fs Breakup in
  let mc memory := ex11_machine solve getrf memory round_re round_im print in
  (forall f fb, ex11_hypotheses Breakup lb (mc (Some f, Some fb)) ss /\
    (forall c psi, iterating_ok (ex11_cfg Breakup) ex11_vg ss (lb_interaction lb IS_LO (parameters_of lb (ex11_cfg Breakup) IS_LO ex11_rows psi)) (mc_env (mc (Some f, Some fb)) c psi)
       (mc_getrf (mc (Some f, Some fb)) c psi) (mc_strays (mc (Some f, Some fb)) c psi)) /\
    (forall c psi, ~ reaches_breakup (ex11_cfg Breakup) ex11_vg ex11_q ss (lb_interaction lb IS_LO (parameters_of lb (ex11_cfg Breakup) IS_LO ex11_rows psi)) (mc_env (mc (Some f, Some fb)) c psi) [1%R]) /\
    snd (main_program lb (mc (Some f, Some fb)) fs ex11_args) = Ok tt /\ length (fst (main_program lb (mc (Some f, Some fb)) fs ex11_args)) = 4) /\
  elastic_bins 2 ex11_q (t - 100) [1%R] = Ok os /\ length (os_T os) = 2 /\
  forall sb, ex11_hypotheses Breakup lb (mc (None, sb)) ss /\ snd (main_program lb (mc (None, sb)) fs ex11_args) <> Ok tt.
Proof.
  destruct DetExists.solve_exists as (solve & Hsolve). destruct DetExists.getrf_exists as (getrf & Hgetrf). destruct ex11_bins as (os & Eos & Los).
  destruct (ex11_all Breakup 2 solve getrf (None, None) round_re round_im print) as (ss & Ess & _). exists solve, getrf, ss, os. cbv zeta.
  assert (S : forall memory f fb c psi, iterating_ok (ex11_cfg Breakup) ex11_vg ss (lb_interaction (ex11_lib 2) IS_LO (parameters_of (ex11_lib 2) (ex11_cfg Breakup) IS_LO ex11_rows psi))
     (mc_env (ex11_machine solve getrf memory round_re round_im print) c psi) getrf (Some f, Some fb)) by (intros memory f fb c psi; exact (ex11_iterating Breakup solve getrf f fb ss Hgetrf Ess)).
  destruct ex9_tables as (ss' & states & Ess' & Esl & Ls & Lc & Hd & H4). assert (ss' = ss) as -> by congruence. clear Ess'.
  destruct (ex11_numbers Breakup) as (N1 & N2 & N3 & N4 & N5 & N6 & _).
  split; [ | split; [ exact Eos | split; [ exact Los | ] ] ].
  - intros f fb. destruct (ex11_all Breakup 2 solve getrf (Some f, Some fb) round_re round_im print) as (ss' & Ess' & H & Hns & _). assert (ss' = ss) as -> by congruence.
    assert (Low : ~ reaches_breakup (ex11_cfg Breakup) ex11_vg ex11_q ss ex11_pot (ex10_env1 solve []) [1%R]).
    { unfold reaches_breakup. rewrite N1, N2, N3, N6. cbn [ex10_env1 en_mem en_junk en_diag]. intros (V & Eb & os' & En & EV & HB & HO & HE & HL).
      assert (V = SpectralProps.ex6_V) as -> by exact (ex11_V ss V Ess EV). assert (Eb = (t - 100)%R) as -> by exact (ex9_Eb ss Eb Hd HB).
      assert (X := ex13_low os' HO En HE). lra. }
    split; [ exact H | ]. split; [ exact (S _ f fb) | ]. split; [ intros c psi; exact Low | ].
    destruct H as (A1 & A2 & A3 & A4 & A5 & A6 & A7 & A8 & A9 & A10 & A11 & A12 & A13 & Vg & C1 & _).
    assert (T := C97_below_threshold (ex11_lib 2) GeoProps.ex_sphP _ (ex11_fs Breakup) ex11_args (ex11_cfg Breakup) IS_LO ss ex11_p ex11_q ex11_rows [1%R] A1 A2 A3 A4 A5 A6 A7 A8 A9 A10 A11 A12).
    cbv zeta in T. rewrite Vg in T. specialize (T (fun c psi _ => conj (A13 psi) (S _ f fb c psi)) (fun c psi _ => Low)).
    refine (four_files _ _ _ _ (f_equal (@length (nat * Z)) C1) _ _ T).
    + intros [c psi] _ (st & Est & HS). cbn [fst snd] in *. unfold stops_because in HS. cbv zeta in HS. rewrite N1, N2, N3, N6 in HS.
      destruct HS as [(V & cm & i & EV & Hch & Hbad)|(V & Eb & EV & HB & [Hel|(_ & os' & C & lam & edge & En & HO & _ & HE & HL & _)])].
      * assert (V = SpectralProps.ex6_V) as -> by exact (ex11_V ss V Ess EV). exact (Hbad (ex9_bound ss cm i Ess Hd Hch)).
      * assert (V = SpectralProps.ex6_V) as -> by exact (ex11_V ss V Ess EV). rewrite (ex9_Eb ss Eb Hd HB) in Hel. congruence.
      * assert (V = SpectralProps.ex6_V) as -> by exact (ex11_V ss V Ess EV). rewrite (ex9_Eb ss Eb Hd HB) in HO, HL. assert (X := ex13_low os' HO En HE). lra.
    + intros t0 out (file & file' & st & Eb & os' & ds & P & U & cells & ends & UBU & C & lam & edge & -> & _). reflexivity.
  - intros sb. destruct (ex11_all Breakup 2 solve getrf (None, sb) round_re round_im print) as (ss' & Ess' & H & Hns & states' & Esl' & Ls' & H4'). assert (states' = states) as -> by congruence. assert (ss' = ss) as -> by congruence.
    split; [ exact H | ]. intros X.
    destruct H as (A1 & A2 & A3 & A4 & A5 & A6 & A7 & A8 & A9 & A10 & A11 & A12 & A13 & Vg & C1 & _).
    assert (T := C97_refuted (ex11_lib 2) GeoProps.ex_sphP _ (ex11_fs Breakup) ex11_args (ex11_cfg Breakup) IS_LO ss ex11_p ex11_q ex11_rows [1%R] A1 A2 A3 A4 A5 A6 A7 A8 A9 A10 A11 A12).
    cbv zeta in T. rewrite Vg, C1 in T.
    destruct (T (fun c psi _ => conj (A13 psi) (conj (ex_intro _ _ (S _ (fun _ => c0) (fun _ => c0) c psi)) eq_refl)) X 0 0%Z (or_introl eq_refl)) as (st & Eb & os' & ds & P & HF & HN).
    unfold channel_facts in HF. cbv zeta in HF. rewrite N1, N2, N3, N6 in HF.
    destruct HF as (F1 & _ & _ & (V & EV & _ & HB) & F5 & _ & _ & _ & _ & _ & F11 & _). change (Z.of_nat 0) with 0%Z in F1. assert (st = states) as -> by congruence.
    destruct HN as [->|HN].
    + destruct (proj2 (F11 4)). split; [ lia | exact H4' ].
    + assert (V = SpectralProps.ex6_V) as -> by exact (ex11_V ss V Ess EV).
      assert (Eb = (t - 100)%R) as -> by exact (ex9_Eb ss Eb Hd HB). assert (os' = os) as -> by congruence. rewrite HN in Los. discriminate Los.
Qed.
