From Coq Require Import Reals Lra Permutation Sorted String ZifyBool.
From Verif Require Import Common ArrayLib PWModel PWSpec PWPropsLemmas SwpModel SwpProofs GridSpec GridPropsLemmas PermModel PermSpec PermProofs PermPropsLemmas
  PermValue KernelModel OutputProofs NameModel PioModel PioSpec PioPropsLemmas GeoModel GeoSpec GeoPropsLemmas PermWholeModel PermWholeSpec.
Open Scope nat_scope.
Open Scope list_scope.

Definition okval {A} (d : A) (o : outcome A) : A := match o with Ok v => v | _ => d end.
Definition vz (v : R) : bool := if Req_EM_T v 0 then true else false.

(* ---------- lookup in a strictly sorted list ---------- *)
Lemma entry_cons r c v l row col : entry ((r, c, v) :: l) row col = if ((r =? row) && (c =? col))%Z then (v + entry l row col)%R else entry l row col.
Proof. reflexivity. Qed.
Lemma entry_absent res row col : (forall v, ~ In (row, col, v) res) -> entry res row col = 0%R.
Proof.
  induction res as [|[[r c] v] res IH]; intros H; [ reflexivity | ]. rewrite entry_cons.
  destruct (Z.eqb_spec r row); [ destruct (Z.eqb_spec c col) | ]; cbn.
  - subst. exfalso. apply (H v). left; reflexivity.
  - apply IH. intros w Hw. apply (H w). right; exact Hw.
  - apply IH. intros w Hw. apply (H w). right; exact Hw.
Qed.
Lemma entry_present res row col v : StronglySorted before res -> In (row, col, v) res -> entry res row col = v.
Proof.
  induction res as [|[[r c] w] res IH]; intros S H; [ destruct H | ]. inversion S as [|? ? S' F]; subst.
  rewrite Forall_forall in F. destruct H as [E|H].
  - injection E as -> -> ->. rewrite entry_cons, !Z.eqb_refl. cbn [andb]. rewrite entry_absent; [ apply Rplus_0_r | ].
    intros w Hw. specialize (F _ Hw). unfold before, e_row, e_col in F. cbn in F. lia.
  - specialize (F _ H). unfold before, e_row, e_col in F. cbn in F. rewrite entry_cons.
    destruct (Z.eqb_spec r row); [ destruct (Z.eqb_spec c col) | ]; cbn; try (exfalso; lia); apply IH; assumption.
Qed.

(* appending loops with a carried buffer *)
Lemma ofold_append_buf {X A Bf} (f : list A * Bf -> X -> outcome (list A * Bf)) (g : X -> list A) (P : Bf -> Prop) l : forall acc b,
  P b -> (forall acc b x, In x l -> P b -> exists b', P b' /\ f (acc, b) x = Ok (acc ++ g x, b')) ->
  exists b', P b' /\ ofold f l (acc, b) = Ok (acc ++ flat_map g l, b').
Proof.
  induction l as [|x l IH]; intros acc b Pb H; cbn; [ exists b; rewrite app_nil_r; tauto | ].
  destruct (H acc b x (or_introl eq_refl) Pb) as (b1 & P1 & ->). cbn [obind].
  destruct (IH (acc ++ g x) b1 P1) as (b2 & P2 & E). { intros; apply H; [ right; assumption | assumption ]. }
  exists b2. rewrite E, <- app_assoc. tauto.
Qed.

Section Rows.
Variables (legsize : Z -> Z) (states : list pw) (t : gtabs) (roots : list R) (Np Nq : nat) (pb qb phi wphi xs wxs : list R) (tab : list bool).
Let n := length roots.
Variable Gv : nat -> nat -> nat -> nat -> list R.
Hypothesis HG : forall qp pp ap a out, qp < Nq -> pp < Np -> ap < length states -> a < length states -> length out = n * length xs ->
  gtilde_subarray legsize states t Np n xs qp pp (zn ap) (zn a) out = Ok (Gv qp pp ap a) /\ length (Gv qp pp ap a) = n * length xs.
Definition elem_val (ap qp pp a q p : nat) : outcome R :=
  P123_element roots (Gv qp pp ap a) p q pp qp pb qb xs wxs
    (slice (map sin phi) ((qp * Np + pp) * n) n) (slice (map cos phi) ((qp * Np + pp) * n) n) (slice wphi ((qp * Np + pp) * n) n).
Variable value : nat -> nat -> nat -> nat -> nat -> nat -> R.
Hypothesis HV : forall ap qp pp a q p, ap < length states -> qp < Nq -> pp < Np -> a < length states -> q < Nq -> p < Np ->
  elem_val ap qp pp a q p = Ok (value ap qp pp a q p).
Variable ovl : nat -> nat -> nat -> nat -> bool.
Hypothesis HO : forall qp pp q p, qp < Nq -> pp < Np -> q < Nq -> p < Np -> aread tab (pq_idx Np Nq qp pp q p) = Ok (ovl qp pp q p).

Lemma row_work_ok qp G0 : qp < Nq -> length G0 = n * length xs ->
  row_work legsize states t roots Np Nq pb qb phi wphi xs wxs tab qp G0 = Ok (work R vz (length states) Np Nq ovl value qp).
Proof.
  intros Hqp HG0. unfold row_work. fold n.
  match goal with |- (do r <- ofold ?f (seq 0 Np) _; _) = _ =>
    destruct (ofold_append_buf f (fun pp => flat_map (fun alphap => flat_map (fun alpha => flat_map (fun q => flat_map (fun p =>
     if ovl qp pp q p then if vz (value alphap qp pp alpha q p) then []
       else [ (Z.of_nat (P123_idx Np Nq alphap qp pp), Z.of_nat (P123_idx Np Nq alpha q p), value alphap qp pp alpha q p) ] else [])
     (seq 0 Np)) (seq 0 Nq)) (seq 0 (length states))) (seq 0 (length states))) (fun b => length b = n * length xs) (seq 0 Np) [] G0 HG0) as (b & Pb & E)
  end.
  - intros acc b pp Hpp Pb. apply in_seq in Hpp. apply ofold_append_buf; [ exact Pb | ].
    clear acc b Pb. intros acc b ap Hap Pb. apply in_seq in Hap. apply ofold_append_buf; [ exact Pb | ].
    clear acc b Pb. intros acc b a Ha Pb. apply in_seq in Ha. cbn [fst snd].
    destruct (HG qp pp ap a b) as [-> LG]; try lia. cbn [obind]. exists (Gv qp pp ap a). split; [ exact LG | ].
    erewrite ofold_append'; [ reflexivity | ]. intros acc' q Hq. apply in_seq in Hq. apply ofold_append'. intros acc'' p Hp. apply in_seq in Hp.
    rewrite HO by lia. cbn [obind]. destruct (ovl qp pp q p); [ | rewrite app_nil_r; reflexivity ].
    fold (elem_val ap qp pp a q p). rewrite HV by lia. cbn [obind]. unfold vz. destruct (Req_EM_T (value ap qp pp a q p) 0); [ rewrite app_nil_r | ]; reflexivity.
  - rewrite E. reflexivity.
Qed.
End Rows.

Lemma channel_JP g Jm mx iso ss c states : (1 <= mx)%Z -> Z.Odd mx -> construct_symmetric_pw_states_g g Jm mx iso = Ok ss ->
  (0 <= c < ss_N_chn ss)%Z -> channel_slice ss c = Ok states -> forall s, In s states -> chn_of s = nth_chn c.
Proof.
  intros Hm Ho Hc Hr Hs s Is. destruct (chn_table g Jm mx iso ss Hm Ho Hc) as (_ & _ & _ & _ & _ & T & _).
  destruct (T c Hr) as (l & El & Nl & Il). rewrite Hs in El. injection El as <-. apply Il in Is. tauto.
Qed.
Lemma idx_inj Np Nq a q p a' q' p' : q < Nq -> p < Np -> q' < Nq -> p' < Np ->
  a * Nq * Np + q * Np + p = a' * Nq * Np + q' * Np + p' -> a = a' /\ q = q' /\ p = p'.
Proof.
  intros. assert (E : (a * Nq + q) * Np + p = (a' * Nq + q') * Np + p') by lia. apply rm_inj in E; try assumption. destruct E as [E ->].
  apply rm_inj in E; try assumption. tauto.
Qed.
Lemma idx_lt Np Nq Na a q p : a < Na -> q < Nq -> p < Np -> a * Nq * Np + q * Np + p < Na * Nq * Np.
Proof. intros. replace (a * Nq * Np + q * Np + p) with ((a * Nq + q) * Np + p) by lia. apply rm_lt; [ apply rm_lt | ]; assumption. Qed.

Section Whole.
Variable sixj : Z -> Z -> Z -> Z -> Z -> Z -> R.
Variable ninej : Z -> Z -> Z -> Z -> Z -> Z -> Z -> Z -> Z -> R.
Variable threej : Z -> Z -> Z -> Z -> Z -> Z -> R.
Variable sphP : Z -> Z -> R -> R.
Variable legblock : Z -> R -> list R.
Variable legsize : Z -> Z.
Lemma whole_matrix g Jm mx iso ss cn states roots dleg Np Nq pb qb xs wxs phi0 wphi0 tab0 k :
  let n := length roots in
  threej_rule threej -> ninej_rule ninej -> legendre_rule sphP legblock legsize ->
  (1 <= mx)%Z -> Z.Odd mx -> construct_symmetric_pw_states_g g Jm mx iso = Ok ss ->
  (0 <= cn < ss_N_chn ss)%Z -> channel_slice ss cn = Ok states ->
  partition_from_zero Np pb -> partition_from_zero Nq qb -> mesh_in (-1) 1 roots -> mesh_in (-1) 1 xs -> length wxs = length xs ->
  length phi0 = Nq * Np * n -> length wphi0 = Nq * Np * n -> length tab0 = Nq * Nq * Np * Np ->
  allocated legsize states Np Nq n (length xs) k ->
  exists phi wphi tab t rows,
    calculate_WP_overlap roots dleg Np Nq pb qb xs (phi0, wphi0, tab0) = Ok (phi, wphi, tab) /\
    geo_tables sixj ninej threej legblock legsize states Np Nq n phi xs k = Ok t /\
    (forall qp G0, qp < Nq -> length G0 = n * length xs ->
       row_work legsize states t roots Np Nq pb qb phi wphi xs wxs tab qp G0 = Ok (rows qp)) /\
    forall veqb srt folder J2max B T buf0 fs0 evs,
      decides_eq veqb -> sorts srt -> 1 <= B ->
      let Na := length states in
      let D := Z.of_nat (Na * Nq * Np) in
      let name t k := subarray_file_name folder (fst (nth_chn cn)) (snd (nth_chn cn)) (Z.of_nat Np) (Z.of_nat Nq) J2max (Z.of_nat t) (Z.of_nat k) in
      (forall t k, t < T -> k <= length evs -> String.length (name t k) < 300) ->
      (forall t, length (buf0 t) = B) -> (forall ev, In ev evs -> fst ev < T) ->
      Permutation (map snd evs) (flat_map rows (seq 0 Nq)) ->
      exists fs res, build R veqb name (mkspace R Np pb Nq qb states) srt D B T buf0 fs0 evs = Ok (fs, res) /\
        StronglySorted before res /\
        (forall row col v, In (row, col, v) res -> v <> 0%R /\ (0 <= row < D)%Z /\ (0 <= col < D)%Z) /\
        forall ap qp pp a q p r c, nth_error states ap = Some r -> nth_error states a = Some c ->
          qp < Nq -> pp < Np -> q < Nq -> p < Np ->
          let lo := atan_ratio (lower pb pp) (upper qb qp) in
          let hi := atan_ratio (upper pb pp) (lower qb qp) in
          let angle j := (lo + (hi - lo) * ((nth j roots 0 + 1) / 2))%R in
          let weight j := ((hi - lo) / 2 * (2 / ((1 - nth j roots 0 * nth j roots 0) * (dleg (nth j roots 0) * dleg (nth j roots 0)))))%R in
          let x i := nth i xs 0%R in
          exists v : nat -> nat -> R,
            (forall j i, j < n -> i < length xs ->
               direction_integral (fun a b => pi1_tilde a b (x i)) (fun a b => pi2_tilde a b (x i)) pb qb pp qp p q (angle j) (v j i)) /\
            entry res (Z.of_nat (ap * Nq * Np + qp * Np + pp)) (Z.of_nat (a * Nq * Np + q * Np + p)) =
            (GridSpec.sum (fun i => GridSpec.sum (fun j => nth i wxs 0 * weight j *
               geometric sixj ninej threej sphP r c (x i) (pair_cos (sin (angle j)) (cos (angle j)) (x i)) (spectator_cos (sin (angle j)) (cos (angle j)) (x i))
               * v j i) n) (length xs)
             / (sqrt (upper qb q - lower qb q) * sqrt (upper pb p - lower pb p)
                * sqrt (upper qb qp - lower qb qp) * sqrt (upper pb pp - lower pb pp)))%R.
Proof.
  intros n H3 H9 HL Hm Ho Hc Hr Hs Hp Hq Mr Mx Lwx L1 L2 L3 HA.
  pose proof (channel_ok g Jm mx iso ss cn states Hm Ho Hc Hr Hs) as [Nl Ph].
  pose proof (channel_JP g Jm mx iso ss cn states Hm Ho Hc Hr Hs) as JP.
  destruct (overlap_run roots dleg Np Nq pb qb xs phi0 wphi0 tab0 (proj1 Hp) (proj1 Hq) L1 L2 L3) as (phi & wphi & tab & E & K1 & K2 & K3 & _ & T).
  destruct (overlap_table roots dleg Np Nq pb qb xs Hp Hq Mr Mx phi0 wphi0 tab0 L1 L2 L3) as (phi' & wphi' & tab' & E' & _ & An & OT).
  rewrite E in E'. injection E' as <- <- <-.
  destruct (gauss_angles roots dleg Np Nq pb qb xs phi0 wphi0 tab0 (proj1 Hp) (proj1 Hq) L1 L2 L3) as (phi' & wphi' & tab' & E' & GA).
  rewrite E in E'. injection E' as <- <- <-. fold n in GA, An, OT, K1, K2.
  assert (Mphi : mesh_in 0 (PI / 2) phi).
  { intros y Hy. apply (In_nth phi y 0%R) in Hy. destruct Hy as (i & Hi & <-). rewrite K1 in Hi.
    assert (Hn : 0 < n) by (destruct n; [ rewrite Nat.mul_0_r in Hi; lia | lia ]).
    destruct (rm_surj (Nq * Np) n i Hi) as (b & j & Hb & Hj & ->).
    destruct (rm_surj Nq Np b Hb) as (qp & pp & Hqp & Hpp & ->).
    specialize (An qp pp j Hqp Hpp Hj).
    pose proof (bin_order roots Np pb pp Hp Hpp) as [A1 A2]. pose proof (bin_order roots Nq qb qp Hq Hqp) as [B1 B2].
    destruct (angle_range _ _ _ _ A1 A2 B1 B2) as (C1 & C2 & C3). lra. }
  destruct (geo_thm sixj ninej threej sphP legblock legsize states (fst (nth_chn cn)) Np Nq n phi xs k H3 H9 HL Nl) as (t & Et & W); try assumption.
  { intros s Is. destruct (Ph s Is) as (? & ? & _). tauto. }
  set (Gv := fun qp pp ap a => okval [] (gtilde_subarray legsize states t Np n xs qp pp (zn ap) (zn a) (repeat 0%R (n * length xs)))).
  assert (st_some : forall i, i < length states -> exists s, nth_error states i = Some s).
  { intros i Hi. destruct (nth_error states i) eqn:Ei; [ eauto | ]. apply nth_error_None in Ei. lia. }
  assert (HG : forall qp pp ap a out, qp < Nq -> pp < Np -> ap < length states -> a < length states -> length out = n * length xs ->
     gtilde_subarray legsize states t Np n xs qp pp (zn ap) (zn a) out = Ok (Gv qp pp ap a) /\ length (Gv qp pp ap a) = n * length xs).
  { intros qp pp ap a out Hqp Hpp Hap Ha Lo. destruct (st_some ap Hap) as [r Er]. destruct (st_some a Ha) as [c Ec].
    destruct (W qp pp ap a r c out Hqp Hpp Er Ec Lo) as (G & EG & LG & VG).
    destruct (W qp pp ap a r c (repeat 0%R (n * length xs)) Hqp Hpp Er Ec) as (G' & EG' & LG' & VG'). { apply repeat_length. }
    assert (EE : G = G').
    { apply (nth_ext _ _ 0%R 0%R); [ congruence | ]. intros i Hi. rewrite LG in Hi. destruct (rm_surj n (length xs) i Hi) as (j & i' & Hj & Hi' & ->).
      rewrite VG, VG' by assumption. reflexivity. }
    unfold Gv. rewrite EG'. cbn [okval]. rewrite EG, EE. split; [ reflexivity | congruence ]. }
  set (value := fun ap qp pp a q p => okval 0%R (elem_val roots Np pb qb phi wphi xs wxs Gv ap qp pp a q p)).
  assert (HE : forall ap qp pp a q p r c, nth_error states ap = Some r -> nth_error states a = Some c -> qp < Nq -> pp < Np -> q < Nq -> p < Np ->
     let lo := atan_ratio (lower pb pp) (upper qb qp) in
     let hi := atan_ratio (upper pb pp) (lower qb qp) in
     let angle j := (lo + (hi - lo) * ((nth j roots 0 + 1) / 2))%R in
     let weight j := ((hi - lo) / 2 * (2 / ((1 - nth j roots 0 * nth j roots 0) * (dleg (nth j roots 0) * dleg (nth j roots 0)))))%R in
     let x i := nth i xs 0%R in
     elem_val roots Np pb qb phi wphi xs wxs Gv ap qp pp a q p = Ok (value ap qp pp a q p) /\
     (nth (pq_idx Np Nq qp pp q p) tab false = false -> value ap qp pp a q p = 0%R) /\
     exists v : nat -> nat -> R,
       (forall j i, j < n -> i < length xs ->
          direction_integral (fun a b => pi1_tilde a b (x i)) (fun a b => pi2_tilde a b (x i)) pb qb pp qp p q (angle j) (v j i)) /\
       value ap qp pp a q p =
            (GridSpec.sum (fun i => GridSpec.sum (fun j => nth i wxs 0 * weight j *
               geometric sixj ninej threej sphP r c (x i) (pair_cos (sin (angle j)) (cos (angle j)) (x i)) (spectator_cos (sin (angle j)) (cos (angle j)) (x i))
               * v j i) n) (length xs)
             / (sqrt (upper qb q - lower qb q) * sqrt (upper pb p - lower pb p)
                * sqrt (upper qb qp - lower qb qp) * sqrt (upper pb pp - lower pb pp)))%R).
  { intros ap qp pp a q p r c Er Ec Hqp Hpp Hq' Hp' lo hi angle weight x.
    assert (Hap : ap < length states) by (apply nth_error_Some; congruence). assert (Ha : a < length states) by (apply nth_error_Some; congruence).
    destruct (HG qp pp ap a (repeat 0%R (n * length xs)) Hqp Hpp Hap Ha) as [EG LG]; [ apply repeat_length | ].
    destruct (W qp pp ap a r c (repeat 0%R (n * length xs)) Hqp Hpp Er Ec) as (G & EG' & _ & VG); [ apply repeat_length | ].
    rewrite EG in EG'. injection EG' as <-.
    assert (Hoff : (qp * Np + pp) * n + n <= Nq * Np * n) by (assert (qp * Np + pp + 1 <= Nq * Np) by nia; nia).
    destruct (element_value roots Np Nq pb qb xs wxs (slice phi ((qp * Np + pp) * n) n) (slice wphi ((qp * Np + pp) * n) n) (Gv qp pp ap a) p q pp qp)
      as (v & Dv & Ev); try assumption.
    { intros y Hy. apply in_slice in Hy. apply Mphi, Hy. }
    { apply length_slice. rewrite K1. exact Hoff. }
    { apply length_slice. rewrite K2. exact Hoff. }
    assert (EV : elem_val roots Np pb qb phi wphi xs wxs Gv ap qp pp a q p =
       P123_element roots (Gv qp pp ap a) p q pp qp pb qb xs wxs (map sin (slice phi ((qp * Np + pp) * n) n)) (map cos (slice phi ((qp * Np + pp) * n) n)) (slice wphi ((qp * Np + pp) * n) n)).
    { unfold elem_val. fold n. unfold slice. rewrite <- !slice_sin. reflexivity. }
    split; [ unfold value; rewrite EV, Ev; reflexivity | ]. split.
    { intros Hf. destruct (OT qp pp q p Hqp Hpp Hq' Hp') as (_ & OF & _). unfold value. rewrite EV.
      rewrite OF; try assumption; try reflexivity. apply length_slice. rewrite K2. exact Hoff. }
    exists v. split.
    { intros j i Hj Hi. specialize (Dv j i Hj Hi). rewrite nth_slice in Dv by exact Hj. destruct (GA qp pp j Hqp Hpp Hj) as [-> _] in Dv. exact Dv. }
    unfold value. rewrite EV, Ev. cbn [okval]. f_equal. apply sum_ext. intros i Hi. apply sum_ext. intros j Hj. fold n in Hj.
    destruct (GA qp pp j Hqp Hpp Hj) as [GA1 GA2]. rewrite nth_slice by exact Hj. rewrite (VG j i Hj Hi). cbv zeta. rewrite GA1, GA2. reflexivity. }
  set (ovl := fun qp pp q p => nth (pq_idx Np Nq qp pp q p) tab false).
  exists phi, wphi, tab, t, (work R vz (length states) Np Nq ovl value). split; [ exact E | ]. split; [ exact Et | ]. split.
  { intros qp G0 Hqp HG0. apply (row_work_ok legsize states t roots Np Nq pb qb phi wphi xs wxs tab Gv HG); try assumption.
    - intros ap qp' pp a q p Hap Hqp' Hpp Ha Hq' Hp'. destruct (st_some ap Hap) as [r Er]. destruct (st_some a Ha) as [c Ec].
      destruct (HE ap qp' pp a q p r c) as [-> _]; try assumption. reflexivity.
    - intros qp' pp q p Hqp' Hpp Hq' Hp'. unfold ovl. apply GridProofs.aread_nth. apply nth_error_Some. rewrite T by assumption. discriminate. }
  intros veqb srt folder J2max B Tn buf0 fs0 evs Hveq Hsort HB Na D name Hname Hbuf Hev Hperm.
  destruct (merged_matrix R veqb vz srt (mkspace R Np pb Nq qb states) folder (fst (nth_chn cn)) (snd (nth_chn cn)) J2max ovl value B Tn buf0 fs0 evs)
    as (fs & res & EB & SS & IN); try assumption.
  { split; [ apply Hp | ]. split; [ apply Hq | ]. split; [ exact Nl | ]. cbn [sp_pw]. intros s s' Is Is'.
    pose proof (JP s Is) as J1. pose proof (JP s' Is') as J2. rewrite <- J2 in J1. unfold chn_of in J1. injection J1 as -> ->. tauto. }
  cbn [sp_pw sp_Np sp_Nq] in EB, IN.
  exists fs, res. split; [ exact EB | ]. split; [ exact SS | ]. split.
  { intros row col v Hi. apply IN in Hi. destruct Hi as (ap & qp & pp & a & q & p & Ha1 & Ha2 & Ha3 & Ha4 & Ha5 & Ha6 & -> & -> & _ & _ & Hv).
    split; [ intros ->; unfold vz in Hv; destruct (Req_EM_T 0 0); [ discriminate | congruence ] | ].
    pose proof (idx_lt Np Nq Na ap qp pp Ha1 Ha2 Ha3). pose proof (idx_lt Np Nq Na a q p Ha4 Ha5 Ha6). unfold D. lia. }
  intros ap qp pp a q p r c Er Ec Hqp Hpp Hq' Hp' lo hi angle weight x.
  assert (Hap : ap < length states) by (apply nth_error_Some; congruence). assert (Ha : a < length states) by (apply nth_error_Some; congruence).
  destruct (HE ap qp pp a q p r c Er Ec Hqp Hpp Hq' Hp') as (_ & HF & v & Dv & Vv). exists v. split; [ exact Dv | ].
  etransitivity; [ | exact Vv ].
  destruct (ovl qp pp q p) eqn:Eo; [ destruct (Req_EM_T (value ap qp pp a q p) 0) as [Ez|Ez] | ].
  - rewrite Ez. apply entry_absent. intros w Hw. apply IN in Hw.
    destruct Hw as (ap' & qp' & pp' & a' & q' & p' & Ha1 & Ha2 & Ha3 & Ha4 & Ha5 & Ha6 & R1 & R2 & Ew & _ & Hv).
    apply Nat2Z.inj in R1, R2. apply idx_inj in R1, R2; try assumption. destruct R1 as (<- & <- & <-). destruct R2 as (<- & <- & <-).
    rewrite Ew, Ez in Hv. unfold vz in Hv. destruct (Req_EM_T 0 0); [ discriminate | congruence ].
  - apply entry_present; [ exact SS | ]. apply IN. exists ap, qp, pp, a, q, p. repeat split; try assumption.
    unfold vz. destruct (Req_EM_T _ 0); [ congruence | reflexivity ].
  - rewrite (HF Eo). apply entry_absent. intros w Hw. apply IN in Hw.
    destruct Hw as (ap' & qp' & pp' & a' & q' & p' & Ha1 & Ha2 & Ha3 & Ha4 & Ha5 & Ha6 & R1 & R2 & Ew & Ho' & Hv).
    apply Nat2Z.inj in R1, R2. apply idx_inj in R1, R2; try assumption. destruct R1 as (<- & <- & <-). destruct R2 as (<- & <- & <-). congruence.
Qed.
End Whole.
