(* The regions of the program under the conditions the program meets. *)
From Coq Require Import Reals String Permutation Sorted.
From Verif Require Import Common ArrayLib PWModel PWSpec NameModel NameProofs SwpModel KernelModel FaddeevModel FaddeevSpec FaddeevProofs FaddeevLink
  GeoModel GeoProofs GridModel GridSpec PermModel PermSpec PermPropsLemmas PioModel PioSpec PioPropsLemmas PRunSpec
  OmpModel OmpSpec OmpProofs OmpRegions OmpCols OmpTables OmpOverlap OmpMerge OmpSerial OmpElements.
Open Scope nat_scope.
Open Scope list_scope.

Lemma nth_error_is {A} (l : list A) i d v : i < length l -> nth i l d = v -> nth_error l i = Some v.
Proof. intros Hi <-. apply nth_error_nth', Hi. Qed.

Section Kernel.
Variables (s : FaddeevModel.fsys) (tensor iso : bool) (Jm mx c : Z) (states : list pw) (V C : list R * list R).
Hypothesis Hsys : channel_system s tensor iso Jm mx c states V C.
Let A := kernel_matrix s tensor iso states V C.
Lemma rows_every z assign init : length z = s_nd s * s_nq s * s_D s -> distributes assign (seq 0 (s_N s)) -> (forall t, length (init t) = s_D s) ->
  let threads := omp_for (rows_body (s_N s) (s_Nq s) (s_Np s) (s_CT s) (s_VC s) (s_P s) (s_d s) (s_q s)) init assign in
  every_execution Nat.eqb threads (nth_error z)
    (fun m => forall r k, r < s_nd s * s_nq s -> k < s_D s -> m (r * s_D s + k) = Some (A (row_state s r) k)) /\
  race_free Nat.eqb threads (nth_error z).
Proof.
  intros Lz Hp Hi. cbv zeta. destruct (link_rows s tensor iso Jm mx c states V C Hsys z Lz) as (rows & E & L & H). split.
  - intros sched. cbv zeta. destruct (rows_region _ _ _ _ _ _ _ _ z rows assign init sched E Hp Hi) as (H1 & _ & H3 & H4).
    split; [ exact H1 | ]. split; [ | exact H4 ]. intros Fin r k Hr Hk. rewrite (H3 Fin). apply (nth_error_is _ _ 0%R); [ | apply H; assumption ].
    rewrite L, Lz. apply rm_lt; assumption.
  - intros sched. destruct (rows_region _ _ _ _ _ _ _ _ z rows assign init sched E Hp Hi) as (_ & H2 & _). exact H2.
Qed.
Lemma cols_every st w nc counters assign : w <= nc -> st + w <= s_D s -> length counters = 100 -> length assign <= 100 -> distributes assign (seq st w) ->
  let threads := omp_for (cols_body s st) (fun _ => tt) assign in
  every_execution peqb threads (cols_mem (repeat 0%R (s_D s * nc)) counters)
    (fun m => forall j i, j < w -> i < s_D s -> m (0, j * s_D s + i) = Some (inl (A i (st + j)))) /\
  race_free peqb threads (cols_mem (repeat 0%R (s_D s * nc)) counters).
Proof.
  intros Hw HD HC HT Hp. cbv zeta. pose proof (cs_in _ _ _ _ _ _ _ _ _ Hsys) as (_ & _ & _ & HG & _).
  destruct (cols_ok s A HG (link_col s tensor iso Jm mx c states V C Hsys) (link_ends s tensor iso Jm mx c states V C Hsys) st w nc Hw HD) as (cols & E & L & H). split.
  - intros sched. cbv zeta. destruct (cols_region s st w _ cols counters assign sched HC E Hp HT) as (H1 & _ & H3 & H4).
    split; [ exact H1 | ]. split; [ | exact H4 ]. intros Fin j i Hj Hi. rewrite (H3 Fin).
    rewrite (nth_error_is cols _ 0%R (A i (st + j))); [ reflexivity | | apply H; assumption ]. rewrite L. apply rm_lt; lia.
  - intros sched. destruct (cols_region s st w _ cols counters assign sched HC E Hp HT) as (_ & H2 & _). exact H2.
Qed.
End Kernel.

Lemma zread_nth (t : list R) i v : zread t i = Ok v -> nth_error t (Z.to_nat i) = Some v.
Proof. unfold zread. destruct (i <? 0)%Z; [ discriminate | ]. unfold aread. destruct (nth_error t (Z.to_nat i)); congruence. Qed.
Section Tables.
Open Scope Z_scope.
Lemma sixj_every sixj jm tab assign : 0 <= jm -> Z.of_nat (length tab) = (jm + 1) * (jm + 1) * (jm + 1) * (jm + 1) * (jm + 1) * (jm + 1) ->
  distributes assign (sixj_iters jm) ->
  let threads := omp_for (sixj_body sixj jm) (fun _ => tt) assign in
  every_execution Nat.eqb threads (nth_error tab) (fun m =>
    forall a b c d e f, 0 <= a <= jm -> 0 <= b <= jm -> 0 <= c <= jm -> 0 <= d <= jm -> 0 <= e <= jm -> 0 <= f <= jm ->
      m (Z.to_nat (sixj_idx jm a b c d e f)) = Some (sixj a b c d e f)) /\
  race_free Nat.eqb threads (nth_error tab).
Proof.
  intros Hj Hl Hp. cbv zeta. destruct (sixj_table_ok sixj jm tab Hj Hl) as (t & E & H). split.
  - intros sched. cbv zeta. destruct (sixj_region sixj jm tab t assign sched E Hp) as (H1 & _ & H3 & H4).
    split; [ exact H1 | ]. split; [ | exact H4 ]. intros Fin a b c d e f Ha Hb Hc Hd He Hf. rewrite (H3 Fin). apply zread_nth, H; assumption.
  - intros sched. destruct (sixj_region sixj jm tab t assign sched E Hp) as (_ & H2 & _). exact H2.
Qed.
Lemma cg_every threej jm tab assign : 0 <= jm -> Z.of_nat (length tab) = cg_size jm -> distributes assign (cg_iters jm) ->
  let threads := omp_for (cg_body (cg_fun threej) jm) (fun _ => tt) assign in
  every_execution Nat.eqb threads (nth_error tab) (fun m =>
    forall j1 j2 j3 m1 m2, 0 <= j1 <= jm -> 0 <= j2 <= jm -> 0 <= j3 <= 2 * jm -> Z.abs m1 <= j1 -> Z.abs m2 <= j2 ->
      m (Z.to_nat (cg_idx jm j1 j2 j3 m1 m2)) = Some (cg_fun threej j1 j2 j3 m1 m2 (m1 + m2))) /\
  race_free Nat.eqb threads (nth_error tab).
Proof.
  intros Hj Hl Hp. cbv zeta. destruct (cg_table_ok threej jm tab Hj Hl) as (t & E & H). split.
  - intros sched. cbv zeta. destruct (cg_region threej jm tab t assign sched E Hp) as (H1 & _ & H3 & H4).
    split; [ exact H1 | ]. split; [ | exact H4 ]. intros Fin a b c d e Ha Hb Hc Hd He. rewrite (H3 Fin). apply zread_nth, H; assumption.
  - intros sched. destruct (cg_region threej jm tab t assign sched E Hp) as (_ & H2 & _). exact H2.
Qed.
End Tables.

Lemma overlap_every roots dleg Np Nq pb qb xs phi0 wphi0 tab0 assign :
  let n := length roots in
  partition_from_zero Np pb -> partition_from_zero Nq qb -> mesh_in (-1) 1 roots -> mesh_in (-1) 1 xs ->
  length phi0 = Nq * Np * n -> length wphi0 = Nq * Np * n -> length tab0 = Nq * Nq * Np * Np ->
  distributes assign (seq 0 Nq) ->
  exists s', calculate_WP_overlap roots dleg Np Nq pb qb xs (phi0, wphi0, tab0) = Ok s' /\
  let threads := omp_for (ov_body roots dleg Np Nq pb qb xs) (fun _ => tt) assign in
  every_execution peqb threads (ov_mem (phi0, wphi0, tab0)) (fun m => forall l, m l = ov_mem s' l) /\
  race_free peqb threads (ov_mem (phi0, wphi0, tab0)).
Proof.
  intros n A B C D L1 L2 L3 Hp. destruct (overlap_table roots dleg Np Nq pb qb xs A B C D phi0 wphi0 tab0 L1 L2 L3) as (phi & wphi & tab & E & _).
  eexists. split; [ exact E | ]. cbv zeta. split.
  - intros sched. cbv zeta. destruct (overlap_region roots dleg Np Nq pb qb xs _ _ assign sched E Hp) as (H1 & _ & H3 & H4). auto.
  - intros sched. destruct (overlap_region roots dleg Np Nq pb qb xs _ _ assign sched E Hp) as (_ & H2 & _). exact H2.
Qed.

Lemma combine_events {V} (wk : nat -> list (elem V)) (assign : list (list nat)) : forall k,
  map snd (flat_map (fun tl => map (pair (fst tl)) (flat_map wk (snd tl))) (combine (seq k (length assign)) assign)) = flat_map wk (concat assign).
Proof.
  induction assign as [|a l IH]; intros k; [ reflexivity | ]. cbn [length seq combine flat_map concat fst snd]. rewrite map_app, flat_map_app, IH. f_equal.
  rewrite map_map. cbn. apply map_id.
Qed.
Lemma elements_every V veqb vzero srt (sp : space V) folder twoJ P J2max ovl value B T buf0 fs0 assign :
  decides_eq veqb -> sorts srt -> well_formed sp -> 1 <= B ->
  let Nalpha := length (sp_pw V sp) in let Np := sp_Np V sp in let Nq := sp_Nq V sp in
  let name t k := subarray_file_name folder twoJ P (Z.of_nat Np) (Z.of_nat Nq) J2max (Z.of_nat t) (Z.of_nat k) in
  (forall t k, t < T -> k <= length (flat_map (work V vzero Nalpha Np Nq ovl value) (seq 0 Nq)) -> String.length (name t k) < 300) ->
  (forall t, length (buf0 t) = B) -> length assign = T -> distributes assign (seq 0 Nq) ->
  let threads := omp_for (elem_body V vzero Nalpha Np Nq ovl value name sp B T) (fun _ => tt) assign in
  every_execution eloc_eqb threads (elem_mem V T buf0 fs0) (fun m =>
    exists M M' res, holds T m M /\ ofold (final_flush V name sp) (seq 0 T) M = Ok M' /\
      merge_files V veqb name sp srt (Z.of_nat (Nalpha * Nq * Np)) (m_fs V M') (map (t_tfc V) (m_th V M')) = Ok res /\
      matrix_of vzero sp ovl value res) /\
  forall sched l, race_on (elog (parallel eloc_eqb threads (elem_mem V T buf0 fs0) sched)) l -> exists i, l = Cnt i.
Proof.
  intros Heq Hs W HB Nalpha Np Nq name Hfit Lb HT Hp. cbv zeta.
  set (evs := thread_events V vzero Nalpha Np Nq ovl value assign).
  assert (Pm : Permutation (map snd evs) (flat_map (work V vzero Nalpha Np Nq ovl value) (seq 0 Nq))).
  { unfold evs, thread_events. rewrite combine_events. apply Permutation_flat_map, Hp. }
  assert (Le : length evs = length (flat_map (work V vzero Nalpha Np Nq ovl value) (seq 0 Nq))).
  { rewrite <- (Permutation_length Pm). symmetry. apply map_length. }
  assert (He : forall ev, In ev evs -> fst ev < T).
  { intros ev Hev. unfold evs, thread_events in Hev. apply in_flat_map in Hev. destruct Hev as ((t & li) & Hin & He).
    apply in_combine_l, in_seq in Hin. apply in_map_iff in He. destruct He as (e & <- & _). cbn. lia. }
  destruct (merged_matrix V veqb vzero srt sp folder twoJ P J2max ovl value B T buf0 fs0 evs Heq Hs W HB) as (fs & res & E & Hm).
  { intros t k Ht Hk. rewrite Le in Hk. exact (Hfit t k Ht Hk). }
  { exact Lb. } { exact He. } { exact Pm. }
  fold Np Nq Nalpha name in E. unfold build, calculate_elements in E.
  destruct (ofold (push V name sp B) evs (mkmem V (map (fun t => mkth V (buf0 t) 0 0) (seq 0 T)) fs0)) as [M| | |] eqn:E1; try discriminate. cbn [obind] in E.
  destruct (ofold (final_flush V name sp) (seq 0 T) M) as [M'| | |] eqn:E2; try discriminate. cbn [obind] in E.
  destruct (merge_files V veqb name sp srt (Z.of_nat (Nalpha * Nq * Np)) (m_fs V M') (map (t_tfc V) (m_th V M'))) as [r| | |] eqn:E3; try discriminate. cbn [obind] in E.
  assert (r = res) by congruence. subst r.
  assert (Inj : forall t k t' k', t < T -> t' < T -> name t k = name t' k' -> t = t').
  { intros t k t' k' _ _ H. apply Nat2Z.inj. exact (proj1 (subarray_name_inj folder twoJ P (Z.of_nat Np) (Z.of_nat Nq) J2max _ _ _ _ H)). }
  assert (Reg := fun sched => elements_region V vzero Nalpha Np Nq ovl value name sp B T Inj buf0 fs0 M assign sched E1 HT). cbv zeta in Reg. split.
  - intros sched. cbv zeta. destruct (Reg sched) as (H1 & _ & H3 & H4). split; [ exact H1 | ]. split; [ | exact H4 ].
    intros Fin. exists M, M', res. split; [ exact (H3 Fin) | ]. split; [ exact E2 | ]. split; [ exact E3 | exact Hm ].
  - intros sched l H. destruct (Reg sched) as (_ & H2 & _). exact (H2 l H).
Qed.
