(* Proof of C94: the loops of main over channels and parameter sets, and the whole. *)
From Coq Require Import Reals Lra Lia String Permutation Sorted ZifyBool.
From Verif Require Import Common ArrayLib NameModel ParamsModel ParamsSpec DriverModel DriverSpec DriverProofs InputModel InputSpec PWModel PWSpec SwpModel SwpSpec SparseModel GridModel GridSpec
  PermModel PermSpec PermWholeModel PermWholeSpec GeoModel GeoSpec
  PioModel PioSpec PotentialModel PotentialSpec KernelModel KernelSpec ResolventModel SwpWholeModel SwpWholeSpec SpectralSpec OnShellModel OnShellSpec
  FaddeevModel FaddeevSpec DetModel DenseModel PadeSpec AgsSpec ChainModel ChainSpec ReproModel ReproSpec OutputModel OutputSpec TextModel TextSpec ProgramModel ProgramSpec ProgramProofs.
From Verif Require ParamsProofs2 PWPropsLemmas InputFinal.
Open Scope nat_scope.
Open Scope list_scope.

(* ---------- loops ---------- *)
Definition failed {A} (o : outcome unit) : outcome A := match o with Ok _ => UB | Err => Err | Exc => Exc | UB => UB end.
Lemma rbind_failed {A B} out o (k : A -> ran B) : rbind (out, failed o) k = (out, failed o).
Proof. destruct o; reflexivity. Qed.
Lemma rbind_not_ok {B} out o (k : unit -> ran B) : o <> Ok tt -> rbind (out, o) k = (out, failed o).
Proof. destruct o as [[]| | |]; intros H; [ contradiction | reflexivity | reflexivity | reflexivity ]. Qed.
Lemma failed_unit o : o <> Ok tt -> failed o = o.
Proof. destruct o as [[]| | |]; intros H; [ contradiction | reflexivity | reflexivity | reflexivity ]. Qed.
Lemma rbind_quiet {A B} (a : A) (k : A -> ran B) : rbind (quiet (Ok a)) k = k a.
Proof. cbn. destruct (k a). reflexivity. Qed.
Lemma rbind_ok {A B} out (a : A) (k : A -> ran B) : rbind (out, Ok a) k = (out ++ fst (k a), snd (k a)).
Proof. cbn. destruct (k a). reflexivity. Qed.
Lemma rfold_ext {A B} (f g : A -> B -> ran A) l : (forall a b, f a b = g a b) -> forall a, rfold f l a = rfold g l a.
Proof. intros H. induction l as [|b l IH]; intros a; [ reflexivity | ]. cbn [rfold]. rewrite H. destruct (g a b) as [out [x| | |]]; try reflexivity. rewrite !rbind_ok, IH. reflexivity. Qed.

Section Loop.
Context {S : Type}.
Notation F := (string * string)%type.
Variables (sets : list Z) (par : Z -> S) (inv : S -> Prop) (upd : Z -> S -> outcome S).
Hypothesis Hupd : forall psi cur, In psi sets -> inv cur -> upd psi cur = Ok (par psi) /\ inv (par psi).
Variables (stage : nat -> Z -> S -> ran unit) (stops : nat -> Z -> list F -> outcome unit -> Prop) (good : nat -> Z -> list F -> Prop).
Definition task_ok (c : nat) (psi : Z) : Prop :=
  (exists out o, stage c psi (par psi) = (out, o) /\ o <> Ok tt /\ stops c psi out o) \/ exists out, stage c psi (par psi) = (out, Ok tt) /\ good c psi out.
Definition set_step (c : nat) (cur : S) (psi : Z) : ran S :=
  rbind (quiet (upd psi cur)) (fun cur => rbind (stage c psi cur) (fun _ => quiet (Ok cur))).
(* all done, or stopped at number n *)
Definition went_on {T} (ok : T -> list F -> Prop) (bad : T -> list F -> outcome unit -> Prop) (l : list T) (r : ran S) : Prop :=
  (exists outs cur, Forall2 ok l outs /\ r = (concat outs, Ok cur) /\ inv cur) \/
  (exists n t outs last o, nth_error l n = Some t /\ Forall2 ok (firstn n l) outs /\ r = (concat outs ++ last, failed o) /\ o <> Ok tt /\ bad t last o).

Lemma sets_loop c l : forall cur, (forall psi, In psi l -> In psi sets) -> inv cur -> (forall psi, In psi l -> task_ok c psi) ->
  went_on (good c) (stops c) l (rfold (set_step c) l cur).
Proof.
  induction l as [|psi l IH]; intros cur Hin Hi Ht.
  - left. exists [], cur. split; [ constructor | ]. split; [ reflexivity | exact Hi ].
  - cbn [rfold]. unfold set_step at 1. destruct (Hupd psi cur (Hin psi (or_introl eq_refl)) Hi) as [-> Hi']. rewrite rbind_quiet.
    destruct (Ht psi (or_introl eq_refl)) as [(out & o & -> & Ho & Hs)|(out & -> & Hg)].
    + right. exists 0, psi, [], out, o. rewrite (rbind_not_ok _ _ _ Ho), rbind_failed. repeat split; [ constructor | exact Ho | exact Hs ].
    + rewrite rbind_ok. cbn [quiet fst snd]. rewrite app_nil_r, rbind_ok.
      destruct (IH (par psi)) as [(outs & cur' & A & E & B)|(n & t & outs & last & o & A & B & E & Ho & Hs)]; try assumption;
        try (intros; (apply Hin || apply Ht); right; assumption); rewrite E; cbn [fst snd].
      * left. exists (out :: outs), cur'. split; [ constructor; assumption | ]. split; [ reflexivity | exact B ].
      * right. exists (Datatypes.S n), t, (out :: outs), last, o. split; [ exact A | ]. split; [ cbn [firstn]; constructor; assumption | ]. split; [ | split; assumption ].
        cbn [concat]. rewrite app_assoc. reflexivity.
Qed.

Variables (active : nat -> bool) (prepare : nat -> outcome unit).
Definition chan_step (cur : S) (c : nat) : ran S :=
  if active c then rbind (quiet (prepare c)) (fun _ => rfold (set_step c) sets cur) else quiet (Ok cur).
Definition pairs (l : list nat) : list (nat * Z) := flat_map (fun c => map (fun psi => (c, psi)) sets) (filter active l).
Lemma F2_map_pair c l outs : Forall2 (good c) l outs -> Forall2 (fun t : nat * Z => good (fst t) (snd t)) (map (fun psi => (c, psi)) l) outs.
Proof. intros A. induction A as [|psi file ps fl H A IHA]; constructor; [ exact H | exact IHA ]. Qed.
Lemma chans_loop l : forall cur, inv cur -> (forall c, In c (filter active l) -> prepare c = Ok tt) ->
  (forall c psi, In (c, psi) (pairs l) -> task_ok c psi) ->
  went_on (fun t => good (fst t) (snd t)) (fun t => stops (fst t) (snd t)) (pairs l) (rfold chan_step l cur).
Proof.
  induction l as [|c l IH]; intros cur Hi Hp Ht.
  - left. exists [], cur. split; [ constructor | ]. split; [ reflexivity | exact Hi ].
  - unfold pairs in *. cbn [rfold filter] in *. unfold chan_step at 1. destruct (active c) eqn:Ea.
    + rewrite (Hp c (or_introl eq_refl)), rbind_quiet. cbn [flat_map] in *.
      destruct (sets_loop c sets cur) as [(outs & cur1 & A & E & B)|(n & psi & outs & last & o & A & B & E & Ho & Hs)]; try assumption; [ auto | | | ].
      * intros psi Hs. apply Ht. apply in_or_app. left. apply in_map_iff. exists psi. split; [ reflexivity | exact Hs ].
      * rewrite E, rbind_ok.
        destruct (IH cur1 B) as [(outs2 & cur2 & A2 & E2 & B2)|(n & t & outs2 & last & o & A2 & B2 & E2 & Ho & Hs)].
        { intros c' Hc'. apply Hp. right. exact Hc'. }
        { intros c' psi Hc'. apply Ht. apply in_or_app. right. exact Hc'. }
        { left. exists (outs ++ outs2), cur2. rewrite E2, concat_app. split; [ apply Forall2_app; [ apply F2_map_pair; exact A | exact A2 ] | ]. split; [ reflexivity | exact B2 ]. }
        { right. exists (length sets + n), t, (outs ++ outs2), last, o. rewrite E2, concat_app. cbn [fst snd].
          assert (L : length (map (fun psi : Z => (c, psi)) sets) = length sets) by apply map_length.
          split; [ rewrite nth_error_app2 by lia; rewrite L; replace (length sets + n - length sets) with n by lia; exact A2 | ].
          split; [ rewrite <- L, firstn_app_2; apply Forall2_app; [ apply F2_map_pair; exact A | exact B2 ] | ]. rewrite app_assoc. split; [ reflexivity | split; assumption ]. }
      * rewrite E, rbind_failed. right. exists n, (c, psi), outs, last, o.
        assert (Hn : n < length sets) by (apply nth_error_Some; congruence).
        split; [ rewrite nth_error_app1 by (rewrite map_length; exact Hn); rewrite nth_error_map, A; reflexivity | ].
        split; [ rewrite firstn_app, map_length; replace (n - length sets) with 0 by lia; cbn [firstn]; rewrite app_nil_r, firstn_map; apply F2_map_pair; exact B | ].
        split; [ reflexivity | split; assumption ].
    + rewrite rbind_quiet. apply IH; assumption.
Qed.
End Loop.

(* ---------- parameters ---------- *)
Lemma table_entries content lines rows n : has_lines content lines -> rows <> [] -> 1 <= n ->
  Forall2 (fun line row => exists words, line = String.concat " " words /\ Forall2 entry_of words row /\ length row = n) lines rows ->
  table_file stod content rows n.
Proof.
  intros HL Hne Hn F. split; [ exact Hne | ]. split; [ exact Hn | ].
  exists lines. split; [ exact HL | ]. clear HL Hne. induction F as [|line row lines rows (words & -> & Fw & L) F IH]; constructor; [ | exact IH ].
  exists words. split; [ reflexivity | ]. split; [ | split; [ | exact L ] ].
  - intros w Hw. clear L F IH. induction Fw as [|w' y ws ys (x & D & _) Fw IH]; [ destruct Hw | ]. destruct Hw as [<-|Hw]; [ | exact (IH Hw) ].
    apply InputFinal.clean_noblank. exact (proj1 (InputFinal.decimal_clean w' x D)).
  - clear L F IH. induction Fw as [|w' y ws ys Hy Fw IH]; [ reflexivity | ]. cbn [map]. rewrite IH, (InputFinal.stod_word w' y Hy). reflexivity.
Qed.
Lemma parameters_read lb fs cfg m rows : parameter_table fs cfg m rows ->
  let w := walk_of cfg in
  let inv cur := cflag cfg F_parameter_walk = false \/ num_read m = 0 -> cur = lb_preset lb m in
  exists v nmp,
    (if w_on w then do '(v, nmp, num) <- read_parameters (fs (cstr cfg F_parameter_file)); do _ <- walk_check (w_start w) (w_stop w) num; Ok (v, nmp) else Ok ([], 0%Z)) = Ok (v, nmp) /\
    forall psi cur, In psi (param_sets w) -> inv cur ->
      (if w_on w then update_parameters R m v (psi * nmp)%Z cur else Ok cur) = Ok (parameters_of lb cfg m rows psi) /\ inv (parameters_of lb cfg m rows psi).
Proof.
  intros Ht w inv. subst w. unfold walk_of, parameters_of, param_sets. cbn [w_on w_start w_stop]. unfold parameter_table in Ht.
  destruct (cflag cfg F_parameter_walk) eqn:Ew.
  - destruct (Ht eq_refl) as (content & lines & n & Hf & HL & Hne & H1 & Hn & HF & Hl & Hs & Hd & Hb).
    assert (T := table_parsed stod content rows n (table_entries content lines rows n HL Hne H1 HF)).
    exists (concat rows), (Z.of_nat n). unfold read_parameters. rewrite Hf, (read_ok stod content rows n T). cbn [obind]. split.
    + unfold walk_check.
      replace ((cint cfg F_PSI_end - cint cfg F_PSI_start <? INT_MIN) || (INT_MAX <? cint cfg F_PSI_end - cint cfg F_PSI_start))%Z with false
        by (symmetry; apply orb_false_intro; apply Z.ltb_ge; lia).
      replace (Z.of_nat (length rows) <? cint cfg F_PSI_end - cint cfg F_PSI_start)%Z with false by (symmetry; apply Z.ltb_ge; lia). reflexivity.
    + intros psi cur Hin Hi. apply in_for_range1 in Hin. rewrite (update_ok stod m content rows n psi cur T Hn) by lia.
      destruct (num_read m) eqn:En.
      * rewrite Hi by (right; reflexivity). split; [ reflexivity | intros _; reflexivity ].
      * split; [ reflexivity | intros [?|?]; discriminate || congruence ].
  - exists [], 0%Z. split; [ reflexivity | ]. intros psi cur _ Hi. rewrite (Hi (or_introl eq_refl)). split; [ reflexivity | intros _; reflexivity ].
Qed.

(* ---------- the whole ---------- *)
Section Whole.
Variables (lb : library) (sphP : Z -> Z -> R -> R) (mc : machine) (fs : file_system) (args : list string) (cfg : config R) (m : potential) (ss : statespace)
  (p q : list R) (rows : list (list R)) (energies : list R).
Let iso := cflag cfg F_isospin_breaking_1S0. Let J := cint cfg F_J_2N_max. Let mid := cflag cfg F_midpoint_approx.
Let Np := cnat cfg F_Np_WP. Let Nq := cnat cfg F_Nq_WP.
Let vg := packet_points mid (lb_gx lb) (lb_gw lb) Np (cnat cfg F_Np_per_WP) p.
Let pot psi := lb_interaction lb m (parameters_of lb cfg m rows psi).
Let todo := tasks (walk_of cfg) (channels_of cfg ss).
Hypothesis Hlib : library_ok lb sphP.
Hypothesis Hcfg : set_run_parameters R stod fs (mc_omp mc) 1%R 100%R args = Ok cfg.
Variables (dense bu : bool).
Hypothesis Hset : settings_ok dense bu cfg.
Hypothesis Hm : fetch_potential_ptr (cstr cfg F_potential_model) = Some m.
Hypothesis Hss : construct_symmetric_pw_states_g (mc_g mc) J (cint cfg F_two_J_3N_max) iso = Ok ss.
Hypothesis Bp : boundaries_of fs (cstr cfg F_p_grid_type) (cstr cfg F_p_grid_filename) Np (vdbl (cfg F_chebyshev_s)) (vdbl (cfg F_chebyshev_t)) p.
Hypothesis Bq : boundaries_of fs (cstr cfg F_q_grid_type) (cstr cfg F_q_grid_filename) Nq (vdbl (cfg F_chebyshev_s)) (vdbl (cfg F_chebyshev_t)) q.
Hypothesis Hpq : cstr cfg F_q_grid_type = "custom"%string -> cstr cfg F_p_grid_type = "custom"%string.
Hypothesis Htab : parameter_table fs cfg m rows.
Hypothesis Hen : energy_file fs cfg energies.
Hypothesis Hgrid : forall n, length (mc_grid mc n) = n.
Hypothesis Hbuild : forall c states, In c (channels_of cfg ss) -> channel_slice ss (Z.of_nat c) = Ok states ->
  (Z.of_nat (length states * Nq * Np) < 2 ^ 31)%Z /\ building_ok lb cfg (Z.of_nat c) states (mc_penv mc c) (mc_sched mc c).
(* one task: what is known when set_stage is called for it *)
Variables (stops : nat -> Z -> list (string * string) -> outcome unit -> Prop) (good : nat -> Z -> list (string * string) -> Prop).
Let oper states res := permutation_operator (lb_sixj lb) (lb_ninej lb) (lb_threej lb) sphP (lb_roots lb (cnat cfg F_Nphi)) (lb_dleg lb (cnat cfg F_Nphi)) (lb_gx lb (cnat cfg F_Nx)) (lb_gw lb (cnat cfg F_Nx)) p q states Nq Np
      (fun i j => PermWholeSpec.entry res (Z.of_nat i) (Z.of_nat j)).
Hypothesis Htask : forall c psi f res states, In (c, psi) todo -> In c (channels_of cfg ss) -> f_pWP f = p -> f_qWP f = q -> vgrid_of (grid_settings cfg) f = vg -> vgrid_ok mid vg ->
  (1 <= cint cfg F_two_J_3N_max)%Z -> Z.Odd (cint cfg F_two_J_3N_max) ->
  (0 <= Z.of_nat c < ss_N_chn ss)%Z -> channel_slice ss (Z.of_nat c) = Ok states -> (Z.of_nat (length states * Nq * Np) < 2 ^ 31)%Z ->
  (forall row col v, In (row, col, v) res -> (0 <= row < Z.of_nat (length states * Nq * Np))%Z /\ (0 <= col < Z.of_nat (length states * Nq * Np))%Z) ->
  oper states res ->
  let stage := set_stage lb mc fs cfg f ss m c psi (parameters_of lb cfg m rows psi) res in
  (exists out o, stage = (out, o) /\ o <> Ok tt /\ stops c psi out o) \/ (exists out, stage = (out, Ok tt) /\ good c psi out).

Theorem program_went : let run := main_program lb mc fs args in
  (exists outs, Forall2 (fun t => good (fst t) (snd t)) todo outs /\ run = (concat outs, Ok tt)) \/
  (exists n t outs last o, nth_error todo n = Some t /\ Forall2 (fun t => good (fst t) (snd t)) (firstn n todo) outs /\
     run = (concat outs ++ last, o) /\ o <> Ok tt /\ stops (fst t) (snd t) last o).
Proof.
  intros run. destruct (ParamsProofs2.run_legal R stod fs (mc_omp mc) 1%R 100%R args cfg Hcfg) as (tJ & nthr & nq & ch & par & EtJ & Hodd & Hpos & _).
  assert (Emx : cint cfg F_two_J_3N_max = tJ) by (unfold cint; rewrite EtJ; reflexivity).
  assert (Hmx : (1 <= cint cfg F_two_J_3N_max)%Z) by lia. assert (Hodd' : Z.Odd (cint cfg F_two_J_3N_max)) by (rewrite Emx; exact Hodd).
  assert (Pp := boundaries_partition _ _ _ _ _ _ _ Bp). assert (Pq := boundaries_partition _ _ _ _ _ _ _ Bq).
  destruct (grids_ok fs (lb_gx lb) (lb_gw lb) (mc_grid mc) (grid_settings cfg) p q Hgrid) as (f & Ef & Efq & Evg & Hvg);
    [ intros n; apply Hlib | intros n; apply Hlib | exact Bp | exact Bq | exact Hpq | ].
  change (gp_midpoint (grid_settings cfg)) with mid in *.
  change (packet_points mid (lb_gx lb) (lb_gw lb) (gp_Np (grid_settings cfg)) (gp_Np_per (grid_settings cfg)) p) with vg in Evg.
  assert (Efp : f_pWP f = p).
  { change (f_pWP f) with (vg_pWP (vgrid_of (grid_settings cfg) f)). rewrite Evg. unfold vg, packet_points. destruct mid; reflexivity. }
  destruct (parameters_read lb fs cfg m rows Htab) as (v & nmp & Ev & Hupd).
  assert (Hchan : forall c, In c (channels_of cfg ss) -> (0 <= Z.of_nat c < ss_N_chn ss)%Z).
  { intros c Hc. unfold channels_of in Hc. assert (In c (seq 0 (Z.to_nat (ss_N_chn ss)))) as Hs by (destruct (cflag cfg F_parallel_run); [ apply filter_In in Hc; apply Hc | exact Hc ]).
    apply in_seq in Hs. lia. }
  assert (Hslice : forall c, In c (channels_of cfg ss) -> exists states, channel_slice ss (Z.of_nat c) = Ok states).
  { intros c Hc. destruct (PWPropsLemmas.chn_table (mc_g mc) J (cint cfg F_two_J_3N_max) iso ss Hmx Hodd' Hss) as (_ & _ & _ & _ & _ & H & _).
    destruct (H (Z.of_nat c) (Hchan c Hc)) as (l & Hl & _). exists l. exact Hl. }
  set (active c := negb (cflag cfg F_parallel_run && negb (Z.of_nat c =? cint cfg F_channel_idx)%Z)).
  assert (Eact : filter active (seq 0 (Z.to_nat (ss_N_chn ss))) = channels_of cfg ss).
  { unfold channels_of, active. destruct (cflag cfg F_parallel_run); cbn [andb negb].
    - apply filter_ext. intros c. apply negb_involutive.
    - induction (seq 0 (Z.to_nat (ss_N_chn ss))) as [|c l IH]; [ reflexivity | ]. cbn [filter]. rewrite IH. reflexivity. }
  assert (Hperm : forall c, In c (channels_of cfg ss) -> exists res states, permutation_stage lb cfg f ss (mc_penv mc c) (mc_sched mc c) (Z.of_nat c) = Ok res /\
     channel_slice ss (Z.of_nat c) = Ok states /\ (Z.of_nat (length states * Nq * Np) < 2 ^ 31)%Z /\
     (forall row col v, In (row, col, v) res -> (0 <= row < Z.of_nat (length states * Nq * Np))%Z /\ (0 <= col < Z.of_nat (length states * Nq * Np))%Z) /\
     permutation_operator (lb_sixj lb) (lb_ninej lb) (lb_threej lb) sphP (lb_roots lb (cnat cfg F_Nphi)) (lb_dleg lb (cnat cfg F_Nphi)) (lb_gx lb (cnat cfg F_Nx)) (lb_gw lb (cnat cfg F_Nx)) p q states Nq Np
      (fun i j => PermWholeSpec.entry res (Z.of_nat i) (Z.of_nat j))).
  { intros c Hc. destruct (Hslice c Hc) as (states & Hsl). destruct (Hbuild c states Hc Hsl) as [HD HB].
    destruct (permutation_ok lb sphP cfg f ss (mc_g mc) J (cint cfg F_two_J_3N_max) iso (Z.of_nat c) states (mc_penv mc c) (mc_sched mc c)) as (res & Er & Hr & Ho); try assumption.
    { exact (Hchan c Hc). } { rewrite Efp. exact Pp. } { rewrite Efq. exact Pq. }
    rewrite Efp, Efq in Ho. exists res, states. split; [ exact Er | ]. split; [ exact Hsl | ]. split; [ exact HD | ]. split; [ exact Hr | exact Ho ]. }
  set (perm c := match permutation_stage lb cfg f ss (mc_penv mc c) (mc_sched mc c) (Z.of_nat c) with Ok P => P | _ => [] end).
  set (prepare c := do _ <- permutation_stage lb cfg f ss (mc_penv mc c) (mc_sched mc c) (Z.of_nat c); Ok tt).
  set (stage c psi params := set_stage lb mc fs cfg f ss m c psi params (perm c)).
  set (upd psi cur := if w_on (walk_of cfg) then update_parameters R m v (psi * nmp)%Z cur else Ok cur).
  assert (Estep : forall st c, channel_work lb mc fs cfg f ss m (walk_of cfg) v nmp st c = chan_step (param_sets (walk_of cfg)) upd stage active prepare st c).
  { intros st c. unfold channel_work, chan_step, active, prepare. destruct (cflag cfg F_parallel_run && negb (Z.of_nat c =? cint cfg F_channel_idx)%Z); cbn [negb]; [ reflexivity | ].
    unfold set_step, stage, upd, perm. destruct (permutation_stage lb cfg f ss (mc_penv mc c) (mc_sched mc c) (Z.of_nat c)); cbn [obind quiet rbind]; reflexivity. }
  assert (Etask : pairs (param_sets (walk_of cfg)) active (seq 0 (Z.to_nat (ss_N_chn ss))) = todo).
  { unfold pairs, todo, tasks. rewrite Eact, sets_eq. reflexivity. }
  assert (Erun : run = rbind (rfold (chan_step (param_sets (walk_of cfg)) upd stage active prepare) (seq 0 (Z.to_nat (ss_N_chn ss))) (lb_preset lb m)) (fun _ => quiet (Ok tt))).
  { unfold run, main_program. replace (setup lb mc fs args) with (Ok (cfg, m, (v, nmp), ss, f)).
    - rewrite rbind_quiet. fold (walk_of cfg). rewrite (rfold_ext _ _ _ Estep). reflexivity.
    - unfold setup. rewrite Hcfg. cbn [obind]. rewrite Hm. fold J iso. unfold walk_of in Ev. cbn [w_on w_start w_stop] in Ev. rewrite Ev. cbn [obind]. rewrite Hss. cbn [obind]. rewrite Ef. reflexivity. }
  destruct (chans_loop (param_sets (walk_of cfg)) (parameters_of lb cfg m rows) (fun cur => cflag cfg F_parameter_walk = false \/ num_read m = 0 -> cur = lb_preset lb m) upd Hupd stage
    stops good active prepare (seq 0 (Z.to_nat (ss_N_chn ss))) (lb_preset lb m)) as [(outs & cur & A & E & _)|(n & t & outs & last & o & A & B & E & Ho & Hs)].
  { intros _. reflexivity. }
  { rewrite Eact. intros c Hc. destruct (Hperm c Hc) as (res & states & Er & _). unfold prepare. rewrite Er. reflexivity. }
  { rewrite Etask. intros c psi Ht.
    assert (Hc : In c (channels_of cfg ss)).
    { unfold todo, tasks in Ht. apply in_flat_map in Ht. destruct Ht as (c' & Hc' & Hi). apply in_map_iff in Hi. destruct Hi as (psi' & Hi & _). injection Hi as -> _. exact Hc'. }
    destruct (Hperm c Hc) as (res & states & Er & Hsl & HD & Hr & Ho).
    unfold task_ok, stage, perm. rewrite Er.
    apply (Htask c psi f res states); auto. rewrite <- Evg. exact Hvg. }
  - left. exists outs. rewrite Etask in A. split; [ exact A | ]. rewrite Erun, E, rbind_ok. cbn [quiet fst snd]. rewrite app_nil_r. reflexivity.
  - right. exists n, t, outs, last, o. rewrite Etask in A, B. split; [ exact A | ]. split; [ exact B | ]. split; [ | split; assumption ].
    rewrite Erun, E, rbind_failed, (failed_unit o Ho). reflexivity.
Qed.
End Whole.

Lemma singles {T A} (P : T -> A -> Prop) l outs : Forall2 (fun t out => exists a, out = [a] /\ P t a) l outs -> Forall2 P l (concat outs).
Proof. intros H. induction H as [|t out l outs (a & -> & Ha) H IH]; [ constructor | ]. cbn [concat app]. constructor; assumption. Qed.

Section Solvers.
Variables (lb : library) (sphP : Z -> Z -> R -> R) (mc : machine) (fs : file_system) (args : list string) (cfg : config R) (m : potential) (ss : statespace)
  (p q : list R) (rows : list (list R)) (energies : list R).
Let iso := cflag cfg F_isospin_breaking_1S0. Let J := cint cfg F_J_2N_max. Let mid := cflag cfg F_midpoint_approx.
Let Np := cnat cfg F_Np_WP. Let Nq := cnat cfg F_Nq_WP.
Let vg := packet_points mid (lb_gx lb) (lb_gw lb) Np (cnat cfg F_Np_per_WP) p.
Let pot psi := lb_interaction lb m (parameters_of lb cfg m rows psi).
Let todo := tasks (walk_of cfg) (channels_of cfg ss).
Hypothesis Hlib : library_ok lb sphP.
Hypothesis Hcfg : set_run_parameters R stod fs (mc_omp mc) 1%R 100%R args = Ok cfg.
Hypothesis Hm : fetch_potential_ptr (cstr cfg F_potential_model) = Some m.
Hypothesis Hss : construct_symmetric_pw_states_g (mc_g mc) J (cint cfg F_two_J_3N_max) iso = Ok ss.
Hypothesis Bp : boundaries_of fs (cstr cfg F_p_grid_type) (cstr cfg F_p_grid_filename) Np (vdbl (cfg F_chebyshev_s)) (vdbl (cfg F_chebyshev_t)) p.
Hypothesis Bq : boundaries_of fs (cstr cfg F_q_grid_type) (cstr cfg F_q_grid_filename) Nq (vdbl (cfg F_chebyshev_s)) (vdbl (cfg F_chebyshev_t)) q.
Hypothesis Hpq : cstr cfg F_q_grid_type = "custom"%string -> cstr cfg F_p_grid_type = "custom"%string.
Hypothesis Htab : parameter_table fs cfg m rows.
Hypothesis Hen : energy_file fs cfg energies.
Hypothesis Hgrid : forall n, length (mc_grid mc n) = n.

Theorem program_correct : settings_ok true false cfg ->
  (forall c states, In c (channels_of cfg ss) -> channel_slice ss (Z.of_nat c) = Ok states ->
    (Z.of_nat (length states * Nq * Np) < 2 ^ 31)%Z /\ building_ok lb cfg (Z.of_nat c) states (mc_penv mc c) (mc_sched mc c)) ->
  (forall c psi, In (c, psi) todo -> hermitian_model (pot psi) (ss_states ss) /\ solving_ok cfg vg ss (pot psi) (mc_env mc c psi)) ->
  one_file_each (fun t file => result_file lb sphP mc cfg vg q ss (pot (snd t)) energies (fst t) (snd t) file)
    (fun t => set_stops cfg vg q ss (pot (snd t)) (mc_env mc (fst t) (snd t)) energies) todo (main_program lb mc fs args).
Proof.
  intros Hset Hbuild Hsolve.
  destruct (program_went lb sphP mc fs args cfg m ss p q rows Hlib Hcfg Hm Hss Bp Bq Hpq Htab Hgrid Hbuild
    (fun c psi last o => last = [] /\ o = Err /\ set_stops cfg vg q ss (pot psi) (mc_env mc c psi) energies)
    (fun c psi out => exists file, out = [file] /\ result_file lb sphP mc cfg vg q ss (pot psi) energies c psi file)) as [(outs & A & E)|(n & t & outs & last & o & A & B & E & _ & -> & -> & Hs)].
  { intros c psi f res states Ht Hc Efp Efq Evg Hvg Hmx Hodd Hc' Hsl HD Hr Ho. destruct (Hsolve c psi Ht) as [Hh Hs]. cbv zeta.
    pose proof (set_ok lb sphP mc fs cfg f ss (mc_g mc) J (cint cfg F_two_J_3N_max) iso m c psi (parameters_of lb cfg m rows psi) res states energies) as S.
    cbv zeta in S. rewrite Efp, Efq, Evg in S.
    destruct S as [[E1 E2]|(file & E1 & E2)]; auto; try (unfold mid in Hvg; exact Hvg).
    { apply boundaries_partition in Bq. exact Bq. }
    { left. exists [], Err. split; [ exact E1 | ]. split; [ discriminate | ]. auto. }
    { right. exists [file]. split; [ exact E1 | ]. exists file. auto. } }
  - left. rewrite E. split; [ reflexivity | ]. exact (singles _ _ _ A).
  - right. rewrite E. split; [ reflexivity | ]. exists n, t. split; [ exact A | ]. split; [ exact Hs | ]. cbn [fst]. rewrite app_nil_r. exact (singles _ _ _ B).
Qed.

Theorem program_iterated : settings_ok false false cfg ->
  (forall c states, In c (channels_of cfg ss) -> channel_slice ss (Z.of_nat c) = Ok states ->
    (Z.of_nat (length states * Nq * Np) <= 2 ^ 28)%Z /\ building_ok lb cfg (Z.of_nat c) states (mc_penv mc c) (mc_sched mc c)) ->
  (forall c psi, In (c, psi) todo -> hermitian_model (pot psi) (ss_states ss) /\ iterating_ok cfg vg ss (pot psi) (mc_env mc c psi) (mc_getrf mc c psi) (mc_strays mc c psi)) ->
  one_file_each (fun t file => iterated_file lb sphP mc cfg vg q ss (pot (snd t)) energies (fst t) (snd t) file)
    (fun t => set_stops cfg vg q ss (pot (snd t)) (mc_env mc (fst t) (snd t)) energies) todo (main_program lb mc fs args).
Proof.
  intros Hset Hbuild Hsolve.
  assert (Hbuild' : forall c states, In c (channels_of cfg ss) -> channel_slice ss (Z.of_nat c) = Ok states ->
    (Z.of_nat (length states * Nq * Np) < 2 ^ 31)%Z /\ building_ok lb cfg (Z.of_nat c) states (mc_penv mc c) (mc_sched mc c)).
  { intros c states Hc Hsl. destruct (Hbuild c states Hc Hsl) as [A B]. split; [ lia | exact B ]. }
  destruct (program_went lb sphP mc fs args cfg m ss p q rows Hlib Hcfg Hm Hss Bp Bq Hpq Htab Hgrid Hbuild'
    (fun c psi last o => last = [] /\ o = Err /\ set_stops cfg vg q ss (pot psi) (mc_env mc c psi) energies)
    (fun c psi out => exists file, out = [file] /\ iterated_file lb sphP mc cfg vg q ss (pot psi) energies c psi file)) as [(outs & A & E)|(n & t & outs & last & o & A & B & E & _ & -> & -> & Hs)].
  { intros c psi f res states Ht Hc Efp Efq Evg Hvg Hmx Hodd Hc' Hsl HD Hr Ho. destruct (Hsolve c psi Ht) as [Hh Hs]. cbv zeta.
    pose proof (set_iterated lb sphP mc fs cfg f ss (mc_g mc) J (cint cfg F_two_J_3N_max) iso m c psi (parameters_of lb cfg m rows psi) res states energies) as S.
    cbv zeta in S. rewrite Efp, Efq, Evg in S.
    destruct S as [[E1 E2]|(file & E1 & E2)]; auto; try (unfold mid in Hvg; exact Hvg).
    { apply boundaries_partition in Bq. exact Bq. }
    { apply (Hbuild c states Hc Hsl). }
    { left. exists [], Err. split; [ exact E1 | ]. split; [ discriminate | ]. auto. }
    { right. exists [file]. split; [ exact E1 | ]. exists file. auto. } }
  - left. rewrite E. split; [ reflexivity | ]. exact (singles _ _ _ A).
  - right. rewrite E. split; [ reflexivity | ]. exists n, t. split; [ exact A | ]. split; [ exact Hs | ]. cbn [fst]. rewrite app_nil_r. exact (singles _ _ _ B).
Qed.

Lemma F2_ex {A B} (P : A -> B -> Prop) (Q : A -> Prop) l l' : (forall a b, P a b -> Q a) -> Forall2 P l l' -> Forall Q l.
Proof. intros H F. induction F; constructor; eauto. Qed.
Theorem program_strict : settings_ok false false cfg ->
  (forall c states, In c (channels_of cfg ss) -> channel_slice ss (Z.of_nat c) = Ok states ->
    (Z.of_nat (length states * Nq * Np) <= 2 ^ 28)%Z /\ building_ok lb cfg (Z.of_nat c) states (mc_penv mc c) (mc_sched mc c)) ->
  (forall c psi, In (c, psi) todo -> hermitian_model (pot psi) (ss_states ss) /\
     (exists memory, iterating_ok cfg vg ss (pot psi) (mc_env mc c psi) (mc_getrf mc c psi) memory) /\ fst (mc_strays mc c psi) = None) ->
  snd (main_program lb mc fs args) = Ok tt -> forall c psi, In (c, psi) todo ->
  exists states Eb os ds P, channel_facts lb sphP (mc_env mc c psi) cfg vg q ss (pot psi) energies c states Eb os ds P /\ (ds = [] \/ os_T os = []).
Proof.
  intros Hset Hbuild Hsolve Hrun.
  assert (Hbuild' : forall c states, In c (channels_of cfg ss) -> channel_slice ss (Z.of_nat c) = Ok states ->
    (Z.of_nat (length states * Nq * Np) < 2 ^ 31)%Z /\ building_ok lb cfg (Z.of_nat c) states (mc_penv mc c) (mc_sched mc c)).
  { intros c states Hc Hsl. destruct (Hbuild c states Hc Hsl) as [A B]. split; [ lia | exact B ]. }
  destruct (program_went lb sphP mc fs args cfg m ss p q rows Hlib Hcfg Hm Hss Bp Bq Hpq Htab Hgrid Hbuild' (fun c psi last o => True)
    (fun c psi out => exists states Eb os ds P, channel_facts lb sphP (mc_env mc c psi) cfg vg q ss (pot psi) energies c states Eb os ds P /\ (ds = [] \/ os_T os = [])))
    as [(outs & A & E)|(n & t & outs & last & o & A & B & E & Ho & _)].
  { intros c psi f res states Ht Hc Efp Efq Evg Hvg Hmx Hodd Hc' Hsl HD Hr Ho. destruct (Hsolve c psi Ht) as (Hh & ([me mb] & Hs) & Estr). cbv zeta.
    destruct (io_strays _ _ _ _ _ _ _ Hs) as (fe & fb & [= -> ->]). destruct (mc_strays mc c psi) as [se sb] eqn:Es. cbn [fst] in Estr. subst se.
    pose proof (set_strict lb sphP mc fs cfg f ss (mc_g mc) J (cint cfg F_two_J_3N_max) iso m c psi (parameters_of lb cfg m rows psi) res states energies) as S.
    cbv zeta in S. rewrite Efp, Efq, Evg in S.
    destruct (set_stage lb mc fs cfg f ss m c psi (parameters_of lb cfg m rows psi) res) as [out o] eqn:Estage.
    assert (X : (exists o', (out, o) = ([], o') /\ o' <> Ok tt) \/ exists states Eb os ds P, channel_facts lb sphP (mc_env mc c psi) cfg vg q ss (pot psi) energies c states Eb os ds P /\ (ds = [] \/ os_T os = [])).
    { eapply S; eauto; try (unfold mid in Hvg; exact Hvg).
      { apply boundaries_partition in Bq. exact Bq. } { apply (Hbuild c states Hc Hsl). } }
    destruct X as [(o' & [= -> ->] & Ho')|HX]; [ left; eauto | ].
    destruct o as [[]| | |]; [ right; eauto | left.. ]; do 2 eexists; (split; [ reflexivity | ]); (split; [ discriminate | exact I ]). }
  - intros c psi Ht. assert (F := F2_ex _ _ _ _ (fun a b (H : _) => H) A). 
    rewrite Forall_forall in F. exact (F (c, psi) Ht).
  - rewrite E in Hrun. cbn [snd] in Hrun. contradiction.
Qed.
End Solvers.
