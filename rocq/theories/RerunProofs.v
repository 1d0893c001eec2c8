(* Proofs for C95: the specification of C94 determines the files; settings do not depend on the machine. *)
From Coq Require Import Reals Lra Lia String Permutation Sorted FunctionalExtensionality.
From Verif Require Import Common ArrayLib NameModel ParamsModel ParamsSpec DriverModel DriverSpec InputModel InputSpec PWModel PWSpec SwpModel SwpSpec SparseModel GridModel GridSpec
  PermModel PermSpec PermWholeModel PermWholeSpec GeoModel GeoSpec
  PioModel PioSpec PotentialModel PotentialSpec KernelModel KernelSpec ResolventModel SwpWholeModel SwpWholeSpec SpectralSpec OnShellModel OnShellSpec
  FaddeevModel FaddeevSpec DetModel DenseModel PadeSpec AgsSpec IterSpec ChainModel ChainSpec ReproModel ReproSpec OutputModel OutputSpec TextModel TextSpec ProgramModel ProgramSpec RerunSpec.
From Verif Require ParamsProofs ParamsProofs2 ChainFinal ChainProofs ReproProofs ReproFinal ProgramProofs ProgramFinal.
Open Scope nat_scope.

(* ---------- settings ---------- *)
Section Settings.
Variables (dbl : Type) (sd : string -> option dbl) (fs : file_system).
Notation T := F_P123_omp_num_threads.
Definition like (c c' : config dbl) : Prop := forall f, f <> T -> c f = c' f.
Definition both (r r' : outcome (config dbl)) : Prop :=
  match r, r' with Ok c, Ok c' => like c c' | Err, Err => True | Exc, Exc => True | UB, UB => True | _, _ => False end.
Lemma like_upd c c' f v : like c c' -> like (upd dbl c f v) (upd dbl c' f v).
Proof. intros H g Hg. unfold upd. destruct (field_beq f g); [ reflexivity | apply H; exact Hg ]. Qed.
Lemma both_set c c' o v : like c c' ->
  both (do p <- read_and_set_parameter dbl sd c o v; Ok (fst p)) (do p <- read_and_set_parameter dbl sd c' o v; Ok (fst p)).
Proof.
  intros H. unfold read_and_set_parameter. destruct (find_chain chain o) as [[k f]|]; [ | exact H ].
  destruct (convert dbl sd k v); cbn [obind fst both]; try exact I. apply like_upd. exact H.
Qed.
Lemma both_line r r' line : both r r' -> both (do_line dbl sd r line) (do_line dbl sd r' line).
Proof.
  unfold do_line. destruct r as [c| | |], r' as [c'| | |]; cbn [both obind]; try contradiction; try (intros; exact I).
  intros H. destruct (split_eq line) as [[o v]|]; [ | exact H ]. destruct (all_blank v); [ exact H | ]. apply both_set. exact H.
Qed.
Lemma both_lines ls : forall r r', both r r' -> both (fold_left (do_line dbl sd) ls r) (fold_left (do_line dbl sd) ls r').
Proof. induction ls as [|l ls IH]; intros r r' H; [ exact H | ]. cbn [fold_left]. apply IH, both_line, H. Qed.
Lemma both_arg n r r' a : both r r' -> both (do_arg dbl sd fs n r a) (do_arg dbl sd fs n r' a).
Proof.
  unfold do_arg. destruct r as [c| | |], r' as [c'| | |]; cbn [both obind]; try contradiction; try (intros; exact I).
  intros H. destruct (String.eqb a "-h" || String.eqb a "--help")%bool.
  - destruct (n =? 2)%Z; [ exact I | exact H ].
  - destruct (last4 a) as [e| | |]; cbn [obind both]; try exact I. destruct (String.eqb e ".txt").
    + unfold use_input_list. destruct (fs a); [ apply both_lines; exact H | exact H ].
    + destruct (split_eq a) as [[o v]|]; [ | exact H ]. destruct (String.eqb v ""); [ exact H | ]. apply both_set. exact H.
Qed.
Lemma both_args n l : forall r r', both r r' -> both (fold_left (do_arg dbl sd fs n) l r) (fold_left (do_arg dbl sd fs n) l r').
Proof. induction l as [|a l IH]; intros r r' H; [ exact H | ]. cbn [fold_left]. apply IH, both_arg, H. Qed.
Lemma both_checks c c' : like c c' -> both (final_checks dbl c) (final_checks dbl c').
Proof.
  intros H. unfold final_checks. rewrite (H F_parallel_run), (H F_channel_idx) by discriminate.
  destruct (vbool dbl (c' F_parallel_run) && (vint dbl (c' F_channel_idx) =? -1)%Z)%bool; [ exact I | ].
  cbv zeta. set (d := if (vint dbl (c T) >? vint dbl (c F_Nq_WP))%Z then upd dbl c T (c F_Nq_WP) else c).
  set (d' := if (vint dbl (c' T) >? vint dbl (c' F_Nq_WP))%Z then upd dbl c' T (c' F_Nq_WP) else c').
  assert (L : like d d').
  { intros f Hf. subst d d'.
    assert (A : forall (e : config dbl) v, upd dbl e T v f = e f) by (intros e v; unfold upd; destruct f; try reflexivity; congruence).
    destruct (_ >? _)%Z, (_ >? _)%Z; rewrite ?A; apply H; exact Hf. }
  rewrite (L F_two_J_3N_max) by discriminate.
  destruct ((Z.rem (vint dbl (d' F_two_J_3N_max)) 2 =? 0)%Z || (vint dbl (d' F_two_J_3N_max) <=? 0)%Z)%bool; [ exact I | exact L ].
Qed.
Lemma settings_both omp omp' d1 d100 args : both (set_run_parameters dbl sd fs omp d1 d100 args) (set_run_parameters dbl sd fs omp' d1 d100 args).
Proof.
  unfold set_run_parameters, do_args. set (n := (1 + Z.of_nat (List.length args))%Z).
  assert (B : both (fold_left (do_arg dbl sd fs n) args (Ok (defaults dbl omp d1 d100))) (fold_left (do_arg dbl sd fs n) args (Ok (defaults dbl omp' d1 d100)))).
  { apply both_args. intros f Hf. destruct f; try reflexivity. congruence. }
  destruct (fold_left _ args (Ok (defaults dbl omp d1 d100))) as [c| | |], (fold_left _ args (Ok (defaults dbl omp' d1 d100))) as [c'| | |]; cbn [both obind] in *; try contradiction; try exact I.
  apply both_checks. exact B.
Qed.
End Settings.
Lemma like_eq (c c' : config R) : like R c c' -> c = upd R c' F_P123_omp_num_threads (c F_P123_omp_num_threads).
Proof. intros H. apply functional_extensionality. intros f. unfold upd. destruct f; try reflexivity; apply H; discriminate. Qed.

(* ---------- one task ---------- *)
Lemma nth_ext_all {A} (a : list A) : forall b, (forall i, nth_error a i = nth_error b i) -> a = b.
Proof.
  induction a as [|x a IH]; intros [|y b] H; [ reflexivity | discriminate (H 0) | discriminate (H 0) | ].
  assert (E := H 0). cbn in E. injection E as ->. f_equal. apply IH. intros i. exact (H (S i)).
Qed.
Lemma same_lines (t t' : list (t2_line cdouble)) nd ne T E Q U U' :
  length t = ne -> length t' = ne ->
  (forall j, j < ne -> exists line, nth_error t j = Some line /\ t2_T cdouble line = T j /\ t2_E cdouble line = E j /\ t2_q cdouble line = Q j /\
       length (t2_U cdouble line) = nd * nd /\ forall i k, i < nd -> k < nd -> nth_error (t2_U cdouble line) (i * nd + k) = Some (U i k j)) ->
  (forall j, j < ne -> exists line, nth_error t' j = Some line /\ t2_T cdouble line = T j /\ t2_E cdouble line = E j /\ t2_q cdouble line = Q j /\
       length (t2_U cdouble line) = nd * nd /\ forall i k, i < nd -> k < nd -> nth_error (t2_U cdouble line) (i * nd + k) = Some (U' i k j)) ->
  (forall i k j, i < nd -> k < nd -> j < ne -> U i k j = U' i k j) -> t = t'.
Proof.
  intros L L' H H' HU. apply nth_ext_all. intros j. destruct (Nat.lt_ge_cases j ne) as [Hj|Hj].
  - destruct (H j Hj) as (l & -> & A1 & A2 & A3 & A4 & A5). destruct (H' j Hj) as (l' & -> & B1 & B2 & B3 & B4 & B5).
    f_equal. destruct l as [a b c0 d], l' as [a' b' c0' d']. cbn [t2_T t2_E t2_q t2_U] in *.
    assert (d = d').
    { apply nth_ext_all. intros x. destruct (Nat.lt_ge_cases x (nd * nd)) as [Hx|Hx].
      - destruct (rm_surj nd nd x Hx) as (i & k & Hi & Hk & ->). rewrite (A5 i k Hi Hk), (B5 i k Hi Hk), (HU i k j Hi Hk Hj). reflexivity.
      - rewrite (proj2 (nth_error_None d x)), (proj2 (nth_error_None d' x)) by lia. reflexivity. }
    congruence.
  - rewrite (proj2 (nth_error_None t j)), (proj2 (nth_error_None t' j)) by lia. reflexivity.
Qed.

Section Task.
Variables (lb : library) (sphP : Z -> Z -> R -> R) (cfg : config R) (vg : vgrid) (q : list R) (ss : statespace) (g : Z) (pot : potmodel) (energies : list R) (c : nat) (psi : Z).
Notation iso := (cflag cfg F_isospin_breaking_1S0).
Notation mid := (cflag cfg F_midpoint_approx).
Notation J := (cint cfg F_J_2N_max).
Notation mx := (cint cfg F_two_J_3N_max).
Notation Nq := (cnat cfg F_Nq_WP).
Variable dn : bool.
Hypothesis Hset : settings_ok dn false cfg.
Hypothesis Hmx : (1 <= mx)%Z.
Hypothesis Hodd : Z.Odd mx.
Hypothesis Hss : construct_symmetric_pw_states_g g J mx iso = Ok ss.
Hypothesis Hc : (0 <= Z.of_nat c < ss_N_chn ss)%Z.
Hypothesis Hvg : vgrid_ok mid vg.
Hypothesis HNp : 3 <= vg_Np vg.
Hypothesis Hpot : hermitian_model pot (ss_states ss).

Lemma Nq_pos : 1 <= Nq.
Proof. destruct Hset. unfold cnat. unfold cint in so_Nq. lia. Qed.
Lemma same_potential E1 E2 V1 V2 : allocates (en_mem E1) -> allocates (en_mem E2) ->
  fresh_potential (en_mem E1) iso mid J pot (en_junk E1) vg (ss_states ss) = Ok V1 ->
  fresh_potential (en_mem E2) iso mid J pot (en_junk E2) vg (ss_states ss) = Ok V2 -> V1 = V2.
Proof.
  intros M1 M2 H1 H2. destruct Hset.
  eapply (ReproProofs.potential_unique g J mx iso mid ss Nq pot vg Hmx Hss so_mid Hpot Hvg HNp Nq_pos (en_junk E1) (en_junk E2)); [ apply M1 | apply M1 | apply M2 | apply M2 | exact H1 | exact H2 ].
Qed.
Section Pair.
Variables (E1 E2 : environment) (V : list R * list R).
Hypothesis S1 : spectra_ok cfg vg ss pot E1.
Hypothesis S2 : spectra_ok cfg vg ss pot E2.
Hypothesis FV1 : fresh_potential (en_mem E1) iso mid J pot (en_junk E1) vg (ss_states ss) = Ok V.
Hypothesis FV2 : fresh_potential (en_mem E2) iso mid J pot (en_junk E2) vg (ss_states ss) = Ok V.
Notation w E cm i := (fst (spectrum (en_diag E) (vg_Np vg) (vg_pWP vg) V cm i)).
Lemma same_spectra cm i : is_channel iso (ss_states ss) cm i -> w E1 cm i = w E2 cm i.
Proof.
  intros Hch. destruct (S1 V FV1) as [A1 B1]. destruct (S2 V FV2) as [A2 B2].
  assert (Hi := ReproProofs.channel_no g J mx iso mid ss Nq vg Hss HNp Nq_pos cm i Hch).
  exact (ReproProofs.spectrum_unique _ _ _ _ _ _ (A1 cm i Hi) (A2 cm i Hi) (proj1 (B1 cm i Hch)) (proj1 (B2 cm i Hch))).
Qed.
Lemma same_bound Eb1 Eb2 : (forall cm i, is_channel iso (ss_states ss) cm i -> bound_states_ok (is_deuteron_channel iso (ss_states ss) cm i) (w E1 cm i)) ->
  bound_energy iso (ss_states ss) (fun cm i => w E1 cm i) Eb1 -> bound_energy iso (ss_states ss) (fun cm i => w E2 cm i) Eb2 -> Eb1 = Eb2.
Proof.
  intros HB H1 H2. apply (ReproProofs.bound_unique iso ss (fun cm i => w E1 cm i)); [ exact HB | exact H1 | ].
  exact (ReproProofs.bound_energy_ext iso ss (fun cm i => w E2 cm i) (fun cm i => w E1 cm i) Eb2 (fun cm i Hch => eq_sym (same_spectra cm i Hch)) H2).
Qed.
End Pair.

Lemma no_stop E1 E2 states Eb os ds P : allocates (en_mem E1) -> allocates (en_mem E2) -> spectra_ok cfg vg ss pot E1 -> spectra_ok cfg vg ss pot E2 ->
  set_stops cfg vg q ss pot E1 energies -> channel_facts lb sphP E2 cfg vg q ss pot energies c states Eb os ds P -> False.
Proof.
  intros M1 M2 S1 S2 (V & FV & HS) HR.
  destruct HR as (_ & _ & _ & (V2 & FV2 & HB & HE) & Hos & _).
  assert (V = V2) by (eapply same_potential; [ exact M1 | exact M2 | exact FV | exact FV2 ]). subst V2.
  destruct HS as [(cm & i & Hch & Hbad)|(Eb' & HE' & Hel)].
  - apply Hbad. rewrite (same_spectra _ _ V S1 S2 FV FV2 cm i Hch). exact (HB cm i Hch).
  - rewrite <- (same_bound _ _ V S2 S1 FV2 FV Eb Eb' HB HE HE') in Hel. congruence.
Qed.
(* states, bound state, energies, bins and deuteron waves of a task are the same on all machines *)
Lemma facts_unique E1 E2 states Eb os ds P states' Eb' os' ds' P' : allocates (en_mem E1) -> allocates (en_mem E2) -> spectra_ok cfg vg ss pot E1 -> spectra_ok cfg vg ss pot E2 ->
  channel_facts lb sphP E1 cfg vg q ss pot energies c states Eb os ds P -> channel_facts lb sphP E2 cfg vg q ss pot energies c states' Eb' os' ds' P' ->
  states' = states /\ Eb' = Eb /\ os' = os /\ ds' = ds.
Proof.
  intros M1 M2 S1 S2 HR HR2.
  destruct HR as (Hsl & _ & _ & (V & FV & HB & HE) & Hos & _ & _ & _ & _ & Hsd & Hds & _).
  destruct HR2 as (Hsl' & _ & _ & (V' & FV' & HB' & HE') & Hos' & _ & _ & _ & _ & Hsd' & Hds' & _).
  assert (states' = states) by congruence. subst states'.
  assert (V = V') by (eapply same_potential; [ exact M1 | exact M2 | exact FV | exact FV' ]). subst V'.
  assert (Eb = Eb') by (eapply (same_bound _ _ V S1 S2 FV FV'); eassumption). subst Eb'.
  assert (os' = os) by congruence. subst os'.
  assert (ds = ds') by (apply ReproProofs.sorted_same; [ exact Hsd | exact Hsd' | intros x; rewrite Hds, Hds'; reflexivity ]). subst ds'. auto.
Qed.
Lemma text_name mc1 mc2 states Eb os ds U states' Eb' os' ds' U' file1 file2 :
  elastic_text mc1 cfg c psi states Eb os ds U file1 -> elastic_text mc2 cfg c psi states' Eb' os' ds' U' file2 -> fst file1 = fst file2.
Proof. unfold elastic_text. destruct (nth_chn (Z.of_nat c)) as [twoJ parity]. intros (t1 & t2 & -> & _) (t1' & t2' & -> & _). reflexivity. Qed.
Lemma text_unique mc1 mc2 states Eb os ds U U' file1 file2 : mc_re mc1 = mc_re mc2 -> mc_im mc1 = mc_im mc2 -> mc_Eb mc1 = mc_Eb mc2 ->
  let ne := length (os_T os) in let nd := length ds in
  (forall i k j, i < nd -> k < nd -> j < ne -> nth (i * nd * ne + k * ne + j) U c0 = nth (i * nd * ne + k * ne + j) U' c0) ->
  elastic_text mc1 cfg c psi states Eb os ds U file1 -> elastic_text mc2 cfg c psi states Eb os ds U' file2 -> file1 = file2.
Proof.
  intros R1 R2 R3 ne nd HU. unfold elastic_text. destruct (nth_chn (Z.of_nat c)) as [twoJ parity].
  intros (t1 & t2 & F1 & F2 & Lt1 & Lt2 & T1 & T2) (t1' & t2' & F1' & F2' & Lt1' & Lt2' & T1' & T2').
  destruct file1 as [n1 x1], file2 as [n2 x2]. cbn [fst snd] in *. f_equal; [ congruence | ]. subst x1 x2. rewrite R1, R2, R3.
  assert (t1 = t1').
  { apply nth_ext_all. intros x. destruct (Nat.lt_ge_cases x (length ds * length ds)) as [Hx|Hx].
    - destruct (rm_surj _ _ x Hx) as (i & k & Hi & Hk & ->). rewrite (T1 i k Hi Hk), (T1' i k Hi Hk). reflexivity.
    - rewrite (proj2 (nth_error_None t1 x)), (proj2 (nth_error_None t1' x)) by lia. reflexivity. }
  subst t1'. f_equal.
  refine (same_lines t2 t2' (length ds) (length (os_T os)) _ _ _ _ _ Lt2 Lt2' T2 T2' _). exact HU.
Qed.

Lemma result_unique mc1 mc2 file1 file2 : mc_re mc1 = mc_re mc2 -> mc_im mc1 = mc_im mc2 -> mc_Eb mc1 = mc_Eb mc2 ->
  solving_ok cfg vg ss pot (mc_env mc1 c psi) -> solving_ok cfg vg ss pot (mc_env mc2 c psi) ->
  result_file lb sphP mc1 cfg vg q ss pot energies c psi file1 -> result_file lb sphP mc2 cfg vg q ss pot energies c psi file2 ->
  fst file1 = fst file2 /\ (uniquely_solvable lb sphP cfg vg q ss pot energies c -> file1 = file2).
Proof.
  intros R1 R2 R3 S1 S2 (states & Eb & os & ds & P & U & HF & _ & HU & HT) (states' & Eb' & os' & ds' & P' & U' & HF' & _ & HU' & HT').
  split; [ exact (text_name _ _ _ _ _ _ _ _ _ _ _ _ _ _ HT HT') | ]. intros HQ.
  destruct (facts_unique _ _ _ _ _ _ _ _ _ _ _ _ (vo_mem _ _ _ _ _ S1) (vo_mem _ _ _ _ _ S2) (vo_diag _ _ _ _ _ S1) (vo_diag _ _ _ _ _ S2) HF HF') as (-> & -> & -> & ->).
  refine (text_unique _ _ _ _ _ _ U U' _ _ R1 R2 R3 _ HT HT'). cbv zeta.
  destruct HF as (Hsl & _ & _ & _ & Hos & _ & LE & LI & Hen & Hsd & Hds & HP). destruct HF' as (_ & _ & _ & _ & _ & _ & _ & _ & _ & _ & _ & HP').
  intros i k j Hi Hk Hj. assert (W := HU). destruct W as (C & lam & edge & HW & _).
  assert (OU := ReproFinal.operator_unique _ _ _ _ _ _ _ _ _ _ _ _ _ P P' Nq_pos (Nat.le_trans 1 3 _ ltac:(lia) HNp) HP HP').
  rewrite <- LE. refine (ReproProofs.amplitudes_unique g J mx iso mid ss (Z.of_nat c) states Nq q vg Hmx Hodd Hss Hc Hsl HNp Nq_pos _ P P' Eb (os_E os) (os_idx os) ds U U' C lam edge HU HU' OU _ _ HW i k j Hi Hk _ _).
  - intros j' Hj'. rewrite LE in Hj'. apply (Hen j' Hj').
  - intros x Hx. apply Hds. exact Hx.
  - rewrite LE. exact Hj.
  - exact (HQ states Eb os P C lam edge Hsl Hos HP HW j Hj).
Qed.
End Task.
