From Coq Require Import Reals Lra ZifyBool.
From Verif Require Import Common ArrayLib PWModel PWSpec SwpModel SwpProofs GridSpec GridPropsLemmas PermModel PermPropsLemmas
  KernelModel KernelProofs PotentialPropsLemmas GeoModel GeoSpec GeoProofs.
Open Scope Z_scope.

Lemma phys_bounds s : physical s -> 0 <= L_2N s /\ 0 <= L_1N s /\ 0 <= S_2N s <= 1 /\ 0 <= T_2N s <= 1 /\ 0 <= J_2N s /\
  0 <= two_J_1N s /\ 0 <= two_T_3N s <= 3.
Proof.
  intros [(_ & _ & A1 & _) (_ & _ & A2 & _) (A3 & _ & A4 & _) (A5 & _ & A6 & _) (A7 & A8 & _) (_ & _ & A9 & _) _ _]. lia.
Qed.

(* ---------- recoupling coefficients ---------- *)
Section A.
Variable sixj : Z -> Z -> Z -> Z -> Z -> Z -> R.
Variable ninej : Z -> Z -> Z -> Z -> Z -> Z -> Z -> Z -> Z -> R.
Variables (six : list R) (jm : Z).
Hypothesis Hjm : 3 <= jm.
Hypothesis Hsix : forall a b c d e f, 0 <= a <= jm -> 0 <= b <= jm -> 0 <= c <= jm -> 0 <= d <= jm -> 0 <= e <= jm -> 0 <= f <= jm ->
      sixj_read six jm a b c d e f = Ok (sixj a b c d e f).

Lemma atilde_ok r c L : physical r -> physical c -> two_T_3N r = two_T_3N c ->
  atilde ninej six jm r c L (two_J_3N r) (two_T_3N r) = Ok (recoupling sixj ninej r c L).
Proof.
  intros Pr Pc HT. apply phys_bounds in Pr, Pc. unfold atilde, ofold.
  repeat (rewrite Hsix by lia; cbn [obind]). f_equal.
  unfold recoupling. rewrite HT, Z.eqb_refl. cbv zeta. rewrite sgn_sign.
  set (hr := (2 * J_2N r + 1) * (two_J_1N r + 1) * (2 * S_2N r + 1) * (2 * T_2N r + 1)).
  set (hc := (2 * J_2N c + 1) * (two_J_1N c + 1) * (2 * S_2N c + 1) * (2 * T_2N c + 1)).
  assert (Hr : 0 <= hr) by (unfold hr; repeat apply Z.mul_nonneg_nonneg; lia).
  assert (Hc : 0 <= hc) by (unfold hc; repeat apply Z.mul_nonneg_nonneg; lia).
  replace (hr * (2 * J_2N c + 1) * (two_J_1N c + 1) * (2 * S_2N c + 1) * (2 * T_2N c + 1)) with (hr * hc) by (unfold hc; ring).
  rewrite mult_IZR, sqrt_mult by (apply IZR_le; assumption). change (1 + 1) with 2. change (3 + 1) with 4. ring.
Qed.

Variable states : list pw.
Variables (J Lmax : Z).
Hypothesis Hphys : forall s, In s states -> physical s /\ two_J_3N s = J.
Hypothesis HL : 0 <= Lmax.
Let N := zn (length states).
Definition t3 : Type := Z * (Z * Z).
Definition st (a : Z) : pw := nth (Z.to_nat a) states (mkpw 0 0 0 0 0 0 0 0 0).
Definition l3l : list t3 :=
  flat_map (fun a => flat_map (fun a' => if two_T_3N (st a) =? two_T_3N (st a')
     then map (fun L => (a, (a', L))) (upto 0 Lmax) else []) (upto 0 (N - 1))) (upto 0 (N - 1)).
Lemma in_l3l a a' L : In (a, (a', L)) l3l <-> 0 <= a < N /\ 0 <= a' < N /\ 0 <= L <= Lmax /\ two_T_3N (st a) = two_T_3N (st a').
Proof.
  unfold l3l. split.
  - intros H. apply in_flat_map in H. destruct H as (? & H1 & H). apply in_flat_map in H. destruct H as (? & H2 & H).
    rewrite in_upto in *. destruct (two_T_3N (st x) =? two_T_3N (st x0)) eqn:E; [ | destruct H ].
    apply in_map_iff in H. destruct H as (? & E' & H). injection E' as -> -> ->. rewrite in_upto in H. lia.
  - intros (H1 & H2 & H3 & H4). apply in_flat_map. exists a. rewrite in_upto. split; [ lia | ].
    apply in_flat_map. exists a'. rewrite in_upto. split; [ lia | ]. rewrite H4, Z.eqb_refl.
    apply in_map_iff. exists L. rewrite in_upto. split; [ reflexivity | lia ].
Qed.
Lemma st_in a : 0 <= a < N -> In (st a) states /\ zread states a = Ok (st a).
Proof.
  intros H. unfold N, zn in H. split; [ apply nth_In; lia | ]. unfold st. apply zread_ok. lia.
Qed.
Definition addr3 (x : t3) : Z := let '(a, (a', L)) := x in atilde_base N Lmax a a' + L.
Definition val3 (x : t3) : R := let '(a, (a', L)) := x in recoupling sixj ninej (st a) (st a') L.
Lemma base_horner a a' L : atilde_base N Lmax a a' + L = (a * N + a') * (Lmax + 1) + L.
Proof. unfold atilde_base. ring. Qed.

Lemma atilde_store_ok : exists A, atilde_store ninej six jm states J Lmax = Ok A /\
  forall a a' L, 0 <= a < N -> 0 <= a' < N -> 0 <= L <= Lmax ->
    zread A (atilde_base N Lmax a a' + L) = Ok (recoupling sixj ninej (st a) (st a') L).
Proof.
  set (init := repeat 0%R (Z.to_nat (N * N * (Lmax + 1)))).
  assert (Li : Z.of_nat (length init) = N * N * (Lmax + 1)).
  { unfold init. rewrite repeat_length. assert (0 <= N) by (unfold N, zn; lia). nia. }
  assert (E : atilde_store ninej six jm states J Lmax = ofold (fun t x => zwrite t (addr3 x) (val3 x)) l3l init).
  { unfold atilde_store, l3l. fold N. fold init. apply ofold_flat. intros a s Ha. rewrite in_upto in Ha.
    destruct (st_in a ltac:(lia)) as [Ia Ra]. rewrite Ra. cbn [obind]. apply ofold_flat. intros a' s' Ha'. rewrite in_upto in Ha'.
    destruct (st_in a' ltac:(lia)) as [Ia' Ra']. rewrite Ra'. cbn [obind].
    destruct (two_T_3N (st a) =? two_T_3N (st a')) eqn:ET; [ | reflexivity ].
    rewrite ofold_map. apply ofold_ext. intros L s'' _. destruct (Hphys _ Ia) as [Pa Ja]. destruct (Hphys _ Ia') as [Pa' _].
    rewrite <- Ja. rewrite atilde_ok by (try assumption; lia). reflexivity. }
  rewrite E.
  destruct (zscatter addr3 val3 l3l init) as (A & EA & LA & W & O).
  - intros (a,(a',L)) H. apply in_l3l in H. cbn [addr3]. rewrite base_horner, Li. apply radix_lt; [ apply radix_lt; lia | lia ].
  - intros (a,(a',L)) (b,(b',L')) H H' Ea. apply in_l3l in H, H'. cbn [addr3] in Ea. rewrite !base_horner in Ea.
    apply radix in Ea; [ | lia | lia ]. destruct Ea as [Ea ->]. apply radix in Ea; [ | lia | lia ]. destruct Ea as [-> ->]. reflexivity.
  - exists A. split; [ exact EA | ]. intros a a' L Ha Ha' HLL.
    destruct (Z.eq_dec (two_T_3N (st a)) (two_T_3N (st a'))) as [ET|ET].
    + apply (W (a,(a',L))). apply in_l3l. tauto.
    + rewrite O.
      * assert (Hb : 0 <= atilde_base N Lmax a a' + L < Z.of_nat (length init)).
        { rewrite base_horner, Li. apply radix_lt; [ apply radix_lt; lia | lia ]. }
        rewrite (zread_ok _ _ 0%R) by exact Hb. f_equal. unfold recoupling. replace (two_T_3N (st a) =? two_T_3N (st a')) with false by lia.
        unfold init. apply nth_repeat.
      * intros (b,(b',L')) H Ea. apply in_l3l in H. cbn [addr3] in Ea. rewrite !base_horner in Ea.
        apply radix in Ea; [ | lia | lia ]. destruct Ea as [Ea _]. apply radix in Ea; [ | lia | lia ]. destruct Ea as [-> ->]. tauto.
Qed.
End A.

(* ---------- one value of the geometric function ---------- *)
Lemma even_rem m : m < 0 -> (Z.rem m 2 =? -1) = negb (Z.even m).
Proof.
  intros H. rewrite Zeven_mod. pose proof (Z.quot_rem' m 2). pose proof (Z.rem_bound_abs m 2 ltac:(lia)). pose proof (Z.rem_nonpos m 2 ltac:(lia) ltac:(lia)).
  pose proof (Z.div_mod m 2 ltac:(lia)). pose proof (Z.mod_pos_bound m 2 ltac:(lia)).
  unfold Zeq_bool. destruct (Z.compare_spec (m mod 2) 0); lia.
Qed.
Lemma leg_idx_lt l m lmax : 0 <= m <= l -> l <= lmax -> 0 <= leg_idx l m.
Proof. intros H1 H2. unfold leg_idx. assert (0 <= l * (l + 1) / 2) by (apply Z.div_pos; nia). lia. Qed.

Section G.
Variable threej : Z -> Z -> Z -> Z -> Z -> Z -> R.
Variable sphP : Z -> Z -> R -> R.
Hypothesis H3 : threej_rule threej.
Variables (A cg P1 P2 P3 : list R) (jm bA b1 b2 b3 : Z) (Lr Lc lr lc J Lmax : Z) (x c1 c2 : R) (rec : Z -> R).
Hypothesis HLr : 0 <= Lr. Hypothesis HLc : 0 <= Lc. Hypothesis Hlr : 0 <= lr. Hypothesis Hlc : 0 <= lc.
Hypothesis Hj : 2 * Lr <= jm /\ 2 * Lc <= jm /\ 2 * lr <= jm /\ 2 * lc <= jm.
Hypothesis HLm : Lr + lr <= Lmax.
Hypothesis HA : forall L, 0 <= L <= Lmax -> zread A (bA + L) = Ok (rec L).
Hypothesis Hrec : forall L, (J + 5) / 2 < L -> rec L = 0%R.
Hypothesis Hcg : forall j1 j2 j3 m1 m2, 0 <= j1 <= jm -> 0 <= j2 <= jm -> 0 <= j3 <= 2 * jm -> Z.abs m1 <= j1 -> Z.abs m2 <= j2 ->
      cg_read cg jm j1 j2 j3 m1 m2 = Ok (cg_fun threej j1 j2 j3 m1 m2 (m1 + m2)).
Hypothesis HP1 : forall m, 0 <= m <= lr -> zread P1 (b1 + leg_idx lr m) = Ok (sphP lr m x).
Hypothesis HP2 : forall m, 0 <= m <= Lc -> zread P2 (b2 + leg_idx Lc m) = Ok (sphP Lc m c1).
Hypothesis HP3 : forall m, 0 <= m <= lc -> zread P3 (b3 + leg_idx lc m) = Ok (sphP lc m c2).

Lemma plm_read_ok P b l c m : (forall m, 0 <= m <= l -> zread P (b + leg_idx l m) = Ok (sphP l m c)) -> Z.abs m <= l ->
  plm_read P b l m = Ok (Y sphP l m c).
Proof.
  intros H Hm. unfold plm_read. rewrite H by lia. cbn [obind]. f_equal. unfold Y.
  destruct (Z.ltb_spec m 0) as [Hn|Hn].
  - replace (0 <=? m) with false by lia. rewrite even_rem by exact Hn. replace (Z.abs m) with (- m) by lia. unfold sign.
    cbn [andb]. destruct (Z.even m); cbn [negb]; ring.
  - replace (0 <=? m) with true by lia. replace (Z.abs m) with m by lia. reflexivity.
Qed.

Definition inner (L M : Z) : R :=
  zsum (- Lc) Lc (fun M' => if Z.abs (M - M') <=? lc
         then clebsch threej Lc M' lc (M - M') L M * Y sphP Lc M' c1 * Y sphP lc (M - M') c2 else 0)%R.
Definition mid (L M : Z) : R := (sign M * clebsch threej Lr 0 lr M L M * Y sphP lr M x * inner L M)%R.

Lemma clebsch_zero l1 m1 l2 m2 l m : ~ (Z.abs (l1 - l2) <= l <= l1 + l2) \/ l < Z.abs m -> clebsch threej l1 m1 l2 m2 l m = 0%R.
Proof. intros H. unfold clebsch. rewrite H3; [ ring | ]. unfold can_couple. lia. Qed.
Lemma inner_zero L M : ~ (Z.abs (Lc - lc) <= L <= Lc + lc) -> inner L M = 0%R.
Proof.
  intros H. apply zsum_zero. intros k _. destruct (Z.abs (M - k) <=? lc); [ | reflexivity ].
  rewrite clebsch_zero by (left; exact H). ring.
Qed.

Lemma pi8 a : (8 * PI * PI * a = 0)%R -> a = 0%R.
Proof. pose proof PI_RGT_0. intros E. apply Rmult_integral in E. destruct E as [E|E]; [ | exact E ].
  exfalso. apply Rmult_integral in E. destruct E as [E|E]; [ | lra ]. apply Rmult_integral in E. lra. Qed.

Lemma gtilde_ok : gtilde A cg P1 P2 P3 jm bA b1 b2 b3 Lr Lc lr lc J =
  Ok (8 * (PI * PI) * sqrt ((2 * IZR Lr + 1) / (4 * PI)) *
      zsum 0 (Lr + lr) (fun L => rec L * zsum (- lr) lr (fun M => mid L M)))%R.
Proof.
  unfold gtilde.
  set (lo := Z.max (Z.abs (Lr - lr)) (Z.abs (Lc - lc))). set (hi := Z.min ((J + 5) / 2) (Z.min (Lr + lr) (Lc + lc))).
  rewrite (upto_fold_sum (fun L => 8 * PI * PI * (rec L * zsum (- lr) lr (fun M => mid L M)))%R).
  - cbn [obind]. f_equal. rewrite zsum_scal.
    rewrite (zsum_restrict 0 (Lr + lr) lo hi (fun L => rec L * zsum (- lr) lr (fun M => mid L M)))%R; [ ring | lia | lia | ].
    intros L HL Hn. destruct (Z.lt_ge_cases ((J + 5) / 2) L) as [Hc|Hc]; [ rewrite Hrec by exact Hc; ring | ].
    rewrite zsum_zero; [ ring | ]. intros M _. unfold mid.
    assert (Hx : ~ (Z.abs (Lr - lr) <= L <= Lr + lr) \/ ~ (Z.abs (Lc - lc) <= L <= Lc + lc)) by lia. destruct Hx as [Hx|Hx].
    + rewrite clebsch_zero by (left; exact Hx). ring.
    + rewrite inner_zero by exact Hx. ring.
  - intros L ret HL. assert (HL' : 0 <= L <= Lmax) by lia. rewrite HA by exact HL'. cbn [obind].
    destruct (Req_EM_T (8 * PI * PI * rec L) 0) as [E0|E0].
    { apply pi8 in E0. rewrite E0. f_equal. ring. }
    rewrite (upto_fold_sum (fun M => 8 * PI * PI * rec L * mid L M)%R).
    + f_equal. rewrite zsum_scal.
      change (fun M : Z => mid L M) with (mid L). rewrite (zsum_restrict (- lr) lr (- Z.min lr L) (Z.min lr L) (mid L)); [ ring | lia | lia | ].
      intros M HM Hn. unfold mid. rewrite clebsch_zero by lia. ring.
    + intros M acc HM. rewrite (plm_read_ok P1 b1 lr x M HP1) by lia. cbn [obind].
      assert (EC : cg_read cg jm (2 * Lr) (2 * lr) (2 * L) 0 (2 * M) = Ok (clebsch threej Lr 0 lr M L M)).
      { rewrite Hcg by lia. rewrite <- (cg_clebsch threej Lr 0 lr M L M) by lia. reflexivity. }
      rewrite EC. cbn [obind]. rewrite sgn_sign.
      destruct (Req_EM_T (clebsch threej Lr 0 lr M L M * sign M * Y sphP lr M x) 0) as [E1|E1].
      { f_equal. unfold mid. replace (sign M * clebsch threej Lr 0 lr M L M * Y sphP lr M x)%R with
          (clebsch threej Lr 0 lr M L M * sign M * Y sphP lr M x)%R by ring. rewrite E1. ring. }
      rewrite (upto_fold_sum (fun M' => 8 * PI * PI * rec L * (clebsch threej Lr 0 lr M L M * sign M * Y sphP lr M x) *
          (if Z.abs (M - M') <=? lc then clebsch threej Lc M' lc (M - M') L M * Y sphP Lc M' c1 * Y sphP lc (M - M') c2 else 0))%R).
      * f_equal. rewrite zsum_scal. unfold mid, inner. ring.
      * intros M' acc' HM'. destruct (Z.leb_spec (Z.abs (M - M')) lc) as [Hd|Hd]; [ | f_equal; ring ].
        rewrite (plm_read_ok P2 b2 Lc c1 M' HP2) by lia. cbn [obind].
        rewrite (plm_read_ok P3 b3 lc c2 (M - M') HP3) by lia. cbn [obind].
        rewrite Hcg by lia. cbn [obind]. replace (2 * M - 2 * M') with (2 * (M - M')) by ring.
        rewrite (cg_clebsch threej Lc M' lc (M - M') L M) by lia. f_equal. ring.
Qed.
End G.
