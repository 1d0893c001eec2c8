(* Witnesses and small lemmas for FaddeevProps. *)
From Coq Require Import Reals Lra.
From Verif Require Import Common ArrayLib PWModel PWSpec SwpModel ResolventModel GridSpec GridPropsLemmas PermPropsLemmas PotentialSpec
  KernelModel KernelSpec KernelColProofs FaddeevModel FaddeevSpec FaddeevProofs FaddeevStepProofs FaddeevLink FaddeevPadeProofs FaddeevSolveProofs FaddeevRuleProofs
  DetModel DenseModel PadeSpec PadeLists PadeLink FaddeevDirect FaddeevAcceptProofs FaddeevExample.
Open Scope nat_scope.

(* ---------- diagonal kernels ---------- *)
Lemma csum_single f n x : x < n -> (forall k, k < n -> k <> x -> f k = c0) -> csum f n = f x.
Proof.
  intros Hx H. unfold csum.
  assert (G : forall h : cdouble -> R, h c0 = 0%R -> sum (fun k => h (f k)) n = h (f x)).
  { intros h Hh. rewrite (sum_ext _ (fun k => (if k =? x then 1 else 0) * h (f k))%R).
    - apply (sum_unit (fun k => h (f k))). exact Hx.
    - intros k Hk. destruct (Nat.eqb_spec k x) as [->|Hn]; [ ring | ]. rewrite (H k Hk Hn), Hh. ring. }
  rewrite (G fst eq_refl), (G snd eq_refl). destruct (f x); reflexivity.
Qed.
Lemma rc_mul x y : cmul (rc x) (rc y) = rc (x * y). Proof. unfold cmul, rc. cbn. f_equal; ring. Qed.
Lemma rc_add x y : cadd (rc x) (rc y) = rc (x + y). Proof. unfold cadd, rc. cbn. f_equal; ring. Qed.
Lemma rc_opp x : copp (rc x) = rc (- x). Proof. unfold copp, rc. cbn. f_equal; ring. Qed.
Lemma cmul_0_l x : cmul c0 x = c0. Proof. unfold cmul, c0. cbn. f_equal; ring. Qed.
Lemma cmul_0_r x : cmul x c0 = c0. Proof. unfold cmul, c0. cbn. f_equal; ring. Qed.
Lemma diagonal D A (G : nat -> cdouble) (al g : nat -> R) : (forall i j, i < D -> j < D -> A i j = if i =? j then al i else 0%R) ->
  (forall k, k < D -> G k = rc (g k)) ->
  forall n x c, x < D -> c < D -> neumann D A G n x c = if x =? c then rc (al x * (g x * al x) ^ n) else c0.
Proof.
  intros HA HG n. induction n as [|n IH]; intros x c Hx Hc.
  - cbn [neumann]. rewrite HA by assumption. destruct (x =? c); [ cbn [pow]; rewrite Rmult_1_r; reflexivity | reflexivity ].
  - cbn [neumann]. rewrite (csum_single _ D x Hx).
    + rewrite IH, HA, HG by assumption. rewrite Nat.eqb_refl. destruct (x =? c).
      * rewrite !rc_mul. f_equal. cbn [pow]. ring.
      * apply cmul_0_r.
    + intros k Hk Hne. rewrite IH by assumption. destruct (Nat.eqb_spec x k) as [<-|_]; [ contradiction | ]. rewrite !cmul_0_l. reflexivity.
Qed.

(* ---------- the first two approximants of a geometric series ---------- *)
Definition zero_from (n : nat) (l : list cdouble) : nat -> cdouble := fun k => nth k l c0.
Lemma one_neq : c1 <> c0. Proof. unfold c1, c0. intros H. injection H. lra. Qed.
Lemma cmul_1_l x : cmul c1 x = x. Proof. destruct x. unfold cmul, c1. cbn. f_equal; ring. Qed.
Lemma cmul_1_r x : cmul x c1 = x. Proof. destruct x. unfold cmul, c1. cbn. f_equal; ring. Qed.
Lemma cadd_0_l x : cadd c0 x = x. Proof. destruct x. unfold cadd, c0. cbn. f_equal; ring. Qed.
Lemma cadd_0_r x : cadd x c0 = x. Proof. destruct x. unfold cadd, c0. cbn. f_equal; ring. Qed.
Lemma cdiv_1 x : cdiv x c1 = x. Proof. destruct x. unfold cdiv, cinv, cmul, c1. cbn. f_equal; field. Qed.

Lemma pade_order_0 (getrf : getrf_t) (Hgetrf : getrf_contract getrf) (b : nat -> cdouble) : pade_val (determinant getrf) b 0 c1 = b 0.
Proof.
  destruct (rational_exact (a := b) (z := c1) (M := 0) Hgetrf (p := fun k => match k with O => b 0 | _ => c0 end) (q := fun k => match k with O => c1 | _ => c0 end) (rd := fun k => Ok (b k))) as [_ E].
  - split; [ exists 0; split; [ lia | exact one_neq ] | ]. split; [ intros [|i] Hi; [ lia | split; reflexivity ] | ].
    intros [|k] Hk; [ | lia ]. cbn. rewrite cadd_0_l. apply cmul_1_l.
  - reflexivity.
  - intros y Hy i Hi. specialize (Hy 0 ltac:(lia)). cbn in Hy. rewrite cadd_0_l, cmul_1_l in Hy. assert (i = 0) by lia. subst i. exact Hy.
  - rewrite (pade_reads _ _ b) in E by reflexivity.
    assert (E' : pade_val (determinant getrf) b 0 c1 = cdiv (poly_at (fun k => match k with O => b 0 | _ => c0 end) 0 c1) (poly_at (fun k => match k with O => c1 | _ => c0 end) 0 c1)) by congruence.
    rewrite E'. unfold poly_at. cbn [plus ctotal cpow]. rewrite !cadd_0_l, !cmul_1_r. apply cdiv_1.
Qed.
Lemma pade_val_ext det a b M z : (forall k, k <= 2 * M -> a k = b k) -> pade_val det a M z = pade_val det b M z.
Proof.
  intros H. pose proof (pade_reads det (fun k => Ok (a k)) a M z (fun k _ => eq_refl)) as E1.
  pose proof (pade_reads det (fun k => Ok (a k)) b M z (fun k Hk => f_equal Ok (H k Hk))) as E2. congruence.
Qed.
Section Geo.
Variables (getrf : getrf_t) (x r : R).
Hypothesis Hgetrf : getrf_contract getrf.
Let a (k : nat) : cdouble := rc (x * r ^ k).
Hypothesis Hr : (x * r * (1 - r) <> 0)%R.
Lemma pade_order_1 : pade_val (determinant getrf) a 1 c1 = rc (x / (1 - r)).
Proof.
  assert (H1 : (1 - r <> 0)%R) by (intros H; apply Hr; rewrite H; ring).
  destruct (rational_exact (a := a) (z := c1) (M := 1) Hgetrf (p := fun k => match k with O => rc x | _ => c0 end) (q := fun k => match k with O => c1 | 1 => rc (- r) | _ => c0 end) (rd := fun k => Ok (a k))) as [_ E].
  - split; [ exists 0; split; [ lia | exact one_neq ] | ]. split; [ intros [|[|i]] Hi; [ lia | lia | split; reflexivity ] | ].
    intros [|[|[|k]]] Hk; [ | | | lia ]; unfold a; cbn [ctotal plus Nat.sub pow]; rewrite ?cadd_0_l, ?cmul_1_l, ?cmul_0_l, ?cadd_0_r, ?rc_mul, ?rc_add; unfold c0, rc; f_equal; ring.
  - reflexivity.
  - intros y Hy i Hi. pose proof (Hy 0 ltac:(lia)) as Y0. pose proof (Hy 1 ltac:(lia)) as Y1. unfold denominator, a in Y0, Y1. cbn in Y0, Y1.
    destruct (y 0) as [u0 v0] eqn:Ey0. destruct (y 1) as [u1 v1] eqn:Ey1. unfold cadd, cmul, rc, c0, c1 in Y0, Y1. cbn in Y0, Y1. injection Y0 as A1 A2. injection Y1 as B1 B2.
    assert (Hu : u0 = (- u1)%R) by lra. assert (Hv : v0 = (- v1)%R) by lra. subst u0 v0.
    assert (X1 : (x * r * (1 - r) * u1 = 0)%R) by lra. assert (X2 : (x * r * (1 - r) * v1 = 0)%R) by lra.
    apply Rmult_integral in X1, X2. destruct X1 as [X1|X1]; [ contradiction | ]. destruct X2 as [X2|X2]; [ contradiction | ]. subst u1 v1.
    destruct i as [|[|i]]; [ rewrite Ey0 | rewrite Ey1 | lia ]; unfold c0; f_equal; ring.
  - rewrite (pade_reads _ _ a) in E by reflexivity.
    match type of E with Ok ?u = Ok ?w => assert (E' : u = w) by congruence end. rewrite E'. unfold poly_at. cbn [plus ctotal cpow].
    rewrite !cmul_1_r, ?cmul_0_l, ?cadd_0_l, ?cadd_0_r. unfold c1. change (1%R, 0%R) with (rc 1). rewrite rc_add. unfold cdiv, cinv, rc, cmul. cbn [fst snd].
    f_equal; field; lra.
Qed.
End Geo.

(* ---------- the ten-state system ---------- *)
Section Ten.
Variables (CT VC : kop) (al be g4 g5 : R) (b : bool) (ends : list nat) (cells : list (nat * nat * nat)).
Let s := sys10 CT VC al be g4 g5 b ends cells.
Let A := kernel_matrix s true false (states_of 1) (unit_mats 4 1) (unit_mats 4 1).
Definition al10 (i : nat) : R := (if i =? 4 then al else if i =? 5 then be else 0)%R.
Definition g10 (i : nat) : R := (if i =? 4 then g4 else if i =? 5 then g5 else 0)%R.
Lemma term10 n i r c : r < 2 -> c < 10 ->
  term s A n (mkelt i r c) = if nth r [4; 5] 0 =? c then rc (al10 (nth r [4; 5] 0) * (g10 (nth r [4; 5] 0) * al10 (nth r [4; 5] 0)) ^ n) else c0.
Proof.
  intros Hr Hc. unfold term. cbn [e_row e_col]. change (s_D s) with 10.
  assert (Er : row_state s r = nth r [4; 5] 0) by (destruct r as [|[|r]]; [ reflexivity | reflexivity | lia ]). rewrite Er.
  apply (diagonal 10 A _ al10 g10).
  - intros x y Hx Hy. exact (A10_elem CT VC al be g4 g5 b ends cells x y Hx Hy).
  - intros k Hk. unfold row_G. change (s_nq s) with 1. change (s_D s) with 10. rewrite Nat.mod_1_r. cbn [Nat.mul plus].
    change (s_G s) with (G10 g4 g5). do 10 (destruct k as [|k]; [ reflexivity | ]). lia.
  - destruct r as [|[|r]]; cbn; lia.
  - exact Hc.
Qed.
Lemma el10 : el_elts s = [mkelt 0 0 4; mkelt 1 0 5; mkelt 2 1 4; mkelt 3 1 5].
Proof. reflexivity. Qed.
End Ten.

Section Memory.
Variable getrf : getrf_t.
Hypothesis Hgetrf : getrf_contract getrf.
Notation det := (determinant getrf).

(* the Born term of an element other than the first *)
Lemma born s tensor iso Jm mx c states V C (f fb : nat -> cdouble) U UBU U' UBU' : channel_system s tensor iso Jm mx c states V C -> (1 <= zn (s_D s) <= 2 ^ 28)%Z ->
  pade_method_solve det (Some f, Some fb) s U UBU = Ok (U', UBU') ->
  let A := kernel_matrix s tensor iso states V C in
  (forall e, In e (el_elts s) -> 0 < e_idx e -> (1 / 10 ^ 15 < cabs (term s A 0 e) < 1 / 10 ^ 7)%R -> nth (e_idx e) U' c0 = term s A 0 e) /\
  (forall e, In e (bu_elts s) -> 0 < e_idx e -> (1 / 10 ^ 15 < cabs (term s A 0 e) < 1 / 10 ^ 7)%R -> nth (e_idx e) UBU' c0 = term s A 0 e).
Proof.
  intros Hs HD E A. destruct (rule_reported s tensor iso Jm mx c states V C Hs HD det f fb U UBU U' UBU' E) as [R1 R2].
  assert (Hp : forall e, PA det (coef_of s A) e 0 = term s A 0 e) by (intros e; exact (pade_order_0 getrf Hgetrf (coef_of s A e))).
  assert (Hst : forall g e, 0 < e_idx e -> (1 / 10 ^ 15 < cabs (term s A 0 e) < 1 / 10 ^ 7)%R ->
     first_stop s tensor iso states V C det g e 0 /\ fst (bestr s tensor iso states V C det g e 0) = 0).
  { intros g e Hi Ha. apply (stop0 s tensor iso Jm mx c states V C Hs det f fb g e). cbv zeta. fold A. rewrite Hp. unfold ref. destruct (e_idx e); [ lia | ]. rewrite cabs_c0. exact Ha. }
  split; intros e He Hi Ha.
  - destruct (Hst f e Hi Ha) as [S1 S2]. rewrite (R1 e 0 He ltac:(unfold NM_max; lia) S1), S2. apply Hp.
  - destruct (Hst fb e Hi Ha) as [S1 S2]. rewrite (R2 e 0 He ltac:(unfold NM_max; lia) S1), S2. apply Hp.
Qed.

Lemma cabs_rc x : cabs (rc x) = Rabs x.
Proof. unfold cabs, rc. cbn [fst snd]. rewrite Rmult_0_l, Rplus_0_r. apply sqrt_Rsqr_abs. Qed.
Lemma Hzn CT VC al be g4 g5 b ends cells : (1 <= zn (s_D (sys10 CT VC al be g4 g5 b ends cells)) <= 2 ^ 28)%Z.
Proof. change (s_D _) with 10. unfold zn. split; vm_compute; discriminate. Qed.


Lemma PA10_0 CT VC al be g4 g5 b ends cells i r c : r < 2 -> c < 10 ->
  let s := sys10 CT VC al be g4 g5 b ends cells in
  let A := kernel_matrix s true false (states_of 1) (unit_mats 4 1) (unit_mats 4 1) in
  PA det (coef_of s A) (mkelt i r c) 0 = if nth r [4; 5] 0 =? c then rc (al10 al be (nth r [4; 5] 0)) else c0.
Proof.
  intros Hr Hc s A. unfold PA. rewrite (pade_order_0 getrf Hgetrf). unfold coef_of. unfold s, A. rewrite term10 by assumption. cbn [pow].
  rewrite Rmult_1_r. reflexivity.
Qed.

Lemma memory_dependence (fb : nat -> cdouble) : exists CT VC U1 U2,
  let s := sys10 CT VC 1 0 (1 / 10 ^ 8) 0 false [] [] in
  channel_system s true false 1 1 0 (states_of 1) (unit_mats 4 1) (unit_mats 4 1) /\
  pade_method_solve det (Some (fun _ => rc (1 + 5 / 10 ^ 8)), Some fb) s (repeat c0 4) [] = Ok (U1, []) /\
  pade_method_solve det (Some (fun _ => rc 3), Some fb) s (repeat c0 4) [] = Ok (U2, []) /\
  nth 0 U1 c0 = rc 1 /\ nth 0 U2 c0 = rc (1 / (1 - 1 / 10 ^ 8)).
Proof.
  destruct (sys10_ok 1 0 (1 / 10 ^ 8) 0 false [] []) as (CT & VC & Hs); [ discriminate | ].
  pose (s := sys10 CT VC 1 0 (1 / 10 ^ 8) 0 false [] []). fold s in Hs.
  pose (A := kernel_matrix s true false (states_of 1) (unit_mats 4 1) (unit_mats 4 1)).
  assert (HD : (1 <= zn (s_D s) <= 2 ^ 28)%Z) by apply Hzn.
  pose proof (elastic_ok s true false 1 1 0 (states_of 1) (unit_mats 4 1) (unit_mats 4 1) Hs HD det) as EO.
  destruct (EO (fun _ => rc (1 + 5 / 10 ^ 8)) fb (repeat c0 4) [] eq_refl eq_refl) as (U1 & E1 & _).
  destruct (EO (fun _ => rc 3) fb (repeat c0 4) [] eq_refl eq_refl) as (U2 & E2 & _).
  exists CT, VC, U1, U2. cbv zeta. fold s. split; [ exact Hs | ]. split; [ exact E1 | ]. split; [ exact E2 | ].
  assert (P0 : PA det (coef_of s A) (mkelt 0 0 4) 0 = rc 1) by (unfold s, A; rewrite PA10_0 by lia; reflexivity).
  assert (P1 : PA det (coef_of s A) (mkelt 0 0 4) 1 = rc (1 / (1 - 1 / 10 ^ 8))).
  { unfold PA. assert (Ec : forall k, coef_of s A (mkelt 0 0 4) k = rc (1 * (1 / 10 ^ 8) ^ k)).
    { intros k. unfold coef_of, s, A. rewrite term10 by lia. cbn [nth Nat.eqb]. unfold al10, g10. cbn [Nat.eqb]. rewrite Rmult_1_r. reflexivity. }
    rewrite <- (pade_order_1 getrf 1 (1 / 10 ^ 8) Hgetrf) by lra. apply pade_val_ext. intros k _. apply Ec. }
  split.
  - destruct (rule_reported s true false 1 1 0 (states_of 1) (unit_mats 4 1) (unit_mats 4 1) Hs HD det _ fb _ _ U1 [] E1) as [R1 _].
    destruct (stop0 s true false 1 1 0 (states_of 1) (unit_mats 4 1) (unit_mats 4 1) Hs det fb fb (fun _ => rc (1 + 5 / 10 ^ 8)) (mkelt 0 0 4)) as [S1 S2].
    { cbv zeta. fold A. rewrite P0. cbn [ref e_idx]. rewrite <- rc_add, cabs_shift by lra. lra. }
    specialize (R1 (mkelt 0 0 4) 0 ltac:(left; reflexivity) ltac:(unfold NM_max; lia) S1). rewrite S2 in R1. cbn [e_idx] in R1. rewrite R1. exact P0.
  - destruct (rule_reported s true false 1 1 0 (states_of 1) (unit_mats 4 1) (unit_mats 4 1) Hs HD det _ fb _ _ U2 [] E2) as [R1 _].
    destruct (stop1 s true false 1 1 0 (states_of 1) (unit_mats 4 1) (unit_mats 4 1) Hs det fb fb (fun _ => rc 3) (mkelt 0 0 4)) as [S1 S2].
    { fold A. rewrite P0. cbn [ref e_idx]. replace (rc 3) with (cadd (rc 1) (rc 2)) by (rewrite rc_add; f_equal; ring). apply cabs_shift. lra. }
    { fold A. rewrite P0. cbn [ref e_idx]. replace (rc 3) with (cadd (rc 1) (rc 2)) by (rewrite rc_add; f_equal; ring). apply cabs_shift. lra. }
    { fold A. rewrite P0, cabs_rc, Rabs_right by lra. lra. }
    { cbv zeta. fold A. rewrite P0, P1, rc_opp, rc_add, cabs_rc, Rabs_right by lra. lra. }
    specialize (R1 (mkelt 0 0 4) 1 ltac:(left; reflexivity) ltac:(unfold NM_max; lia) S1). rewrite S2 in R1. cbn [e_idx] in R1. rewrite R1. exact P1.
Qed.

(* the decision at the first order when the places read before the arrays hold zero *)
Lemma dec0_c0 s tensor iso states V C e :
  let x := cabs (PA det (coef_of s (kernel_matrix s tensor iso states V C)) e 0) in
  ((1 / 10 ^ 15 < x < 1 / 10 ^ 7)%R -> dec0 s tensor iso states V C det c0 e = true) /\
  (x = 0%R -> dec0 s tensor iso states V C det c0 e = false).
Proof.
  intros x. unfold dec0.
  assert (Ey : y0 c0 e = c0) by (unfold y0; destruct (e_idx e); reflexivity). rewrite Ey.
  unfold best_val. cbn [seq plus fold_left fst snd]. rewrite cabs_c0. fold x. split; intros H.
  - rewrite (Rltb_lt x 1) by lra. rewrite (Rltb_lt (1 / 10 ^ 15) x) by lra. cbn [andb]. unfold conv_val. cbn [fst snd].
    rewrite (Rltb_lt x (1 / 10 ^ 7)) by lra. apply orb_true_r.
  - rewrite (Rltb_ge (1 / 10 ^ 15) x) by lra. rewrite andb_false_r. unfold conv_val. cbn [fst snd]. fold x.
    rewrite (Rltb_ge 1 (1 / 10 ^ 6 * x)) by lra. rewrite (Rltb_ge 1 (1 / 10 ^ 7)) by lra. reflexivity.
Qed.

(* two elastic and two breakup elements accepted at the first order: the count reaches the number of elastic elements *)
Lemma break_witness U UBU : exists CT VC,
  let s := sys10 CT VC (1 / 10 ^ 8) (1 / 10 ^ 8) 0 0 true [0; 2] [(4, 0, 0); (5, 0, 0)] in
  channel_system s true false 1 1 0 (states_of 1) (unit_mats 4 1) (unit_mats 4 1) /\
  pade_method_solve det (Some (fun _ => c0), Some (fun _ => c0)) s U UBU = UB.
Proof.
  destruct (sys10_ok (1 / 10 ^ 8) (1 / 10 ^ 8) 0 0 true [0; 2] [(4, 0, 0); (5, 0, 0)]) as (CT & VC & Hs).
  { intros _. split; [ reflexivity | ]. split; [ cbn; lia | ]. split; [ cbn; lia | ]. intros x [<-|[<-|[]]]; cbn; lia. }
  exists CT, VC. cbv zeta. split; [ exact Hs | ].
  pose (s := sys10 CT VC (1 / 10 ^ 8) (1 / 10 ^ 8) 0 0 true [0; 2] [(4, 0, 0); (5, 0, 0)]). fold s in Hs |- *.
  assert (Hy : forall i r c, r < 2 -> (c = 4 \/ c = 5) -> dec0 s true false (states_of 1) (unit_mats 4 1) (unit_mats 4 1) det c0 (mkelt i r c) = (nth r [4; 5] 0 =? c)).
  { intros i r c Hr Hc. destruct (dec0_c0 s true false (states_of 1) (unit_mats 4 1) (unit_mats 4 1) (mkelt i r c)) as [D1 D2].
    unfold s in D1, D2. rewrite PA10_0 in D1, D2 by lia. fold s in D1, D2.
    destruct (nth r [4; 5] 0 =? c) eqn:E.
    - apply D1. rewrite cabs_rc. assert (Ex : al10 (1 / 10 ^ 8) (1 / 10 ^ 8) (nth r [4; 5] 0) = (1 / 10 ^ 8)%R) by (destruct r as [|[|r]]; [ reflexivity | reflexivity | lia ]).
      rewrite Ex, Rabs_right by lra. lra.
    - apply D2. rewrite <- (cabs_shift c0 0) at 1 by lra. f_equal. unfold c0, cadd, copp, rc. cbn. f_equal; ring. }
  apply (early_break s true false 1 1 0 (states_of 1) (unit_mats 4 1) (unit_mats 4 1) Hs (Hzn _ _ _ _ _ _ _ _ _) det).
  - cbn. lia.
  - assert (E1 : el_elts s = [mkelt 0 0 4; mkelt 1 0 5; mkelt 2 1 4; mkelt 3 1 5]) by reflexivity.
    assert (E2 : bu_elts s = [mkelt 0 0 4; mkelt 1 0 5; mkelt 2 1 4; mkelt 3 1 5]) by reflexivity.
    rewrite E1, E2. cbn [filter]. rewrite !Hy by lia. reflexivity.
  - exists (mkelt 1 0 5). split; [ right; left; reflexivity | ]. apply Hy; lia.
Qed.

(* one energy, two deuteron channels, the array sized as in the caller *)
Lemma small_witness f fb U : exists CT VC,
  let s := sys10 CT VC 1 1 0 0 true [0; 1] [(4, 0, 0)] in
  channel_system s true false 1 1 0 (states_of 1) (unit_mats 4 1) (unit_mats 4 1) /\
  pade_method_solve det (Some f, Some fb) s U (repeat c0 (s_nq s * s_nBU s)) = UB.
Proof.
  destruct (sys10_ok 1 1 0 0 true [0; 1] [(4, 0, 0)]) as (CT & VC & Hs).
  { intros _. split; [ reflexivity | ]. split; [ cbn; lia | ]. split; [ cbn; lia | ]. intros x [<-|[]]; cbn; lia. }
  exists CT, VC. cbv zeta. split; [ exact Hs | ].
  apply (small_array _ true false 1 1 0 (states_of 1) (unit_mats 4 1) (unit_mats 4 1) Hs (Hzn _ _ _ _ _ _ _ _ _) det).
  - reflexivity.
  - cbn. lia.
  - eexists. left. reflexivity.
  - apply repeat_length.
Qed.

(* an element whose exact value is twice the reported one *)
Lemma born_witness f fb : exists CT VC U' X,
  let s := sys10 CT VC 0 (1 / 10 ^ 8) 0 (5 * 10 ^ 7) false [] [] in
  let A := kernel_matrix s true false (states_of 1) (unit_mats 4 1) (unit_mats 4 1) in
  channel_system s true false 1 1 0 (states_of 1) (unit_mats 4 1) (unit_mats 4 1) /\
  faddeev_regular (s_D s) A (row_G s 1) /\ faddeev_solution (s_D s) A (row_G s 1) X /\
  In (mkelt 3 1 5) (el_elts s) /\
  pade_method_solve det (Some f, Some fb) s (repeat c0 4) [] = Ok (U', []) /\
  nth 3 U' c0 = rc (1 / 10 ^ 8) /\ X (row_state s 1) 5 = rc (2 / 10 ^ 8).
Proof.
  destruct (sys10_ok 0 (1 / 10 ^ 8) 0 (5 * 10 ^ 7) false [] []) as (CT & VC & Hs); [ discriminate | ].
  pose (s := sys10 CT VC 0 (1 / 10 ^ 8) 0 (5 * 10 ^ 7) false [] []). fold s in Hs.
  pose (A := kernel_matrix s true false (states_of 1) (unit_mats 4 1) (unit_mats 4 1)).
  assert (HD : (1 <= zn (s_D s) <= 2 ^ 28)%Z) by apply Hzn.
  destruct (elastic_ok s true false 1 1 0 (states_of 1) (unit_mats 4 1) (unit_mats 4 1) Hs HD det f fb (repeat c0 4) [] eq_refl eq_refl) as (U1 & E1 & _).
  exists CT, VC, U1, (fun r c => if (r =? 5) && (c =? 5) then rc (2 / 10 ^ 8) else c0). cbv zeta. fold s. fold A.
  assert (HG : forall k, k < 10 -> row_G s 1 k = rc (if k =? 5 then 5 * 10 ^ 7 else 0)%R).
  { intros k Hk. do 10 (destruct k as [|k]; [ reflexivity | ]). lia. }
  assert (HA : forall i j, i < 10 -> j < 10 -> A i j = if i =? j then (if i =? 4 then 0 else if i =? 5 then 1 / 10 ^ 8 else 0)%R else 0%R).
  { intros i j Hi Hj. unfold A, s. rewrite A10_elem by assumption. reflexivity. }
  split; [ exact Hs | ]. change (s_D s) with 10.
  assert (Hsum : forall r y, r < 10 -> ctotal (fun i => cmul (cmul (rc (A r i)) (row_G s 1 i)) (y i)) 10 = if r =? 5 then cmul (rc (1 / 2)) (y 5) else c0).
  { intros r y Hr. assert (Ei : forall i, i < 10 -> cmul (cmul (rc (A r i)) (row_G s 1 i)) (y i) = if i =? 5 then (if r =? 5 then cmul (rc (1 / 2)) (y 5) else c0) else c0).
    { intros i Hi. rewrite HA, HG by assumption. destruct (Nat.eqb_spec i 5) as [->|Hi5].
      - destruct (Nat.eqb_spec r 5) as [->|Hr5]; [ cbn [Nat.eqb]; rewrite rc_mul; f_equal; f_equal; lra | ]. rewrite rc_mul, Rmult_0_l. apply cmul_0_l.
      - rewrite rc_mul, Rmult_0_r. apply cmul_0_l. }
    rewrite (ctotal_ext _ (fun i => if i =? 5 then (if r =? 5 then cmul (rc (1 / 2)) (y 5) else c0) else c0)) by exact Ei.
    cbn [ctotal Nat.eqb]. rewrite ?cadd_0_l, ?cadd_0_r. reflexivity. }
  split.
  { intros y Hy r Hr. rewrite (Hy r Hr), Hsum by exact Hr. destruct (r =? 5); [ | reflexivity ].
    pose proof (Hy 5 ltac:(lia)) as H5. rewrite Hsum in H5 by lia. cbn [Nat.eqb] in H5. destruct (y 5) as [u v]. unfold cmul, rc in *. cbn [fst snd] in *. injection H5 as H5 H6.
    unfold c0. f_equal; lra. }
  split.
  { intros r c Hr Hc. rewrite (Hsum r (fun i => if (i =? 5) && (c =? 5) then rc (2 / 10 ^ 8) else c0) Hr), HA by assumption. rewrite Nat.eqb_refl.
    destruct (Nat.eqb_spec r 5) as [->|Hr5]; cbn [andb].
    - change (5 =? 4) with false. rewrite (Nat.eqb_sym 5 c). destruct (c =? 5); [ rewrite rc_mul, rc_add; f_equal; lra | ]. rewrite cmul_0_r. unfold rc, cadd, c0. cbn. f_equal; lra.
    - destruct (r =? c), (r =? 4); unfold rc, cadd, c0; cbn; f_equal; lra. }
  split; [ right; right; right; left; reflexivity | ]. split; [ exact E1 | ]. split; [ | reflexivity ].
  destruct (born s true false 1 1 0 (states_of 1) (unit_mats 4 1) (unit_mats 4 1) f fb (repeat c0 4) [] U1 [] Hs HD E1) as [B _].
  fold A in B. assert (Et : term s A 0 (mkelt 3 1 5) = rc (1 / 10 ^ 8)).
  { unfold s, A. rewrite term10 by lia. cbn [pow nth Nat.eqb]. rewrite Rmult_1_r. reflexivity. }
  rewrite <- Et. apply (B (mkelt 3 1 5)).
  - right; right; right; left; reflexivity.
  - cbn; lia.
  - rewrite Et, cabs_rc, Rabs_right by lra. lra.
Qed.
End Memory.

(* ---------- both solvers ---------- *)
From Verif Require DetLaplace.
Section Both.
Variables (getrf : getrf_t).
Hypothesis Hgetrf : getrf_contract getrf.
Lemma rational_laplace a p q M z rd : rational_series a p q M -> (forall k, k <= 2 * M -> rd k = Ok (a k)) -> laplace (M + 1) (denominator a M z) <> c0 ->
  poly_at q M z <> c0 /\ pade_approximant (determinant getrf) rd M M z = Ok (cdiv (poly_at p M z) (poly_at q M z)).
Proof. intros H1 H2 H3. apply DetLaplace.regular_laplace in H3. exact (rational_exact Hgetrf H1 H2 H3). Qed.
Variables (s : fsys) (tensor iso : bool) (Jm mx c : Z) (states : list pw) (V C : list R * list R).
Hypothesis Hsys : channel_system s tensor iso Jm mx c states V C.
Let A := kernel_matrix s tensor iso states V C.
Lemma both_agree solve U : solve_contract solve -> length U = s_nd s * s_nd s * s_nq s ->
  exists U', dense_solver solve s U = Ok U' /\ length U' = length U /\
    forall e M, In e (el_elts s) -> faddeev_regular (s_D s) A (row_G s (e_row e)) -> s_D s <= M -> laplace (M + 1) (denominator (fun k => term s A k e) M c1) <> c0 ->
      pade_approximant (determinant getrf) (fun k => Ok (term s A k e)) M M c1 = Ok (nth (e_idx e) U' c0).
Proof.
  intros Hs LU. destruct (direct_solves s tensor iso Jm mx c states V C Hsys solve U Hs LU) as (U' & E & L & H).
  exists U'. split; [ exact E | ]. split; [ exact L | ]. intros e M He Hr HM Hd.
  destruct (DensePadeLink.plain_exists Hr) as [X HX]. rewrite (H e X He Hr HX).
  apply (agree s tensor iso Jm mx c states V C Hsys getrf Hgetrf); [ apply in_or_app; left; exact He | exact HM | | exact HX ].
  apply DetLaplace.regular_laplace. exact Hd.
Qed.
Lemma breakup_agree e M X : In e (bu_elts s) -> s_D s <= M -> laplace (M + 1) (denominator (fun k => term s A k e) M c1) <> c0 ->
  faddeev_solution (s_D s) A (row_G s (e_row e)) X ->
  pade_approximant (determinant getrf) (fun k => Ok (term s A k e)) M M c1 = Ok (X (row_state s (e_row e)) (e_col e)).
Proof.
  intros He HM Hd HX. apply (agree s tensor iso Jm mx c states V C Hsys getrf Hgetrf); [ apply in_or_app; right; exact He | exact HM | | exact HX ].
  apply DetLaplace.regular_laplace. exact Hd.
Qed.
Lemma zero_over_zero e M : In e (el_elts s ++ bu_elts s) -> s_D s < M ->
  pade_approximant (determinant getrf) (fun k => Ok (term s A k e)) M M c1 = Ok (cdiv c0 c0).
Proof.
  intros He HM. destruct (beyond s tensor iso Jm mx c states V C Hsys getrf Hgetrf e M He HM) as [E1 E2].
  rewrite (pade_reads _ _ (fun k => term s A k e)) by reflexivity. rewrite pade_val_mx. fold A in E1, E2. rewrite E1, E2. reflexivity.
Qed.
Lemma direct_full solve U : solve_contract solve -> length U = s_nd s * s_nd s * s_nq s ->
  exists U', dense_solver solve s U = Ok U' /\ length U' = length U /\
    forall e, In e (el_elts s) -> faddeev_regular (s_D s) A (row_G s (e_row e)) -> exists X, faddeev_solution (s_D s) A (row_G s (e_row e)) X /\
      (forall Y, faddeev_solution (s_D s) A (row_G s (e_row e)) Y -> forall x y, x < s_D s -> y < s_D s -> Y x y = X x y) /\
      nth (e_idx e) U' c0 = X (row_state s (e_row e)) (e_col e).
Proof.
  intros Hs LU. destruct (direct_solves s tensor iso Jm mx c states V C Hsys solve U Hs LU) as (U' & E & L & H).
  exists U'. split; [ exact E | ]. split; [ exact L | ]. intros e He Hr.
  destruct (DensePadeLink.plain_exists Hr) as [X HX]. exists X. split; [ exact HX | ]. split; [ | apply H; assumption ].
  intros Y HY x y Hx Hy. exact (DensePadeLink.plain_unique (s_D s) A _ Y X Hr HY HX x y Hx Hy).
Qed.
End Both.

(* a two-state system on which both hypotheses hold *)
Lemma two_example : exists CT VC,
  let s := sys2 CT VC 1 1 1 0 (1 / 2) in
  let A := kernel_matrix s true false (states_of 0) (unit_mats 2 0) (unit_mats 2 0) in
  channel_system s true false 0 1 0 (states_of 0) (unit_mats 2 0) (unit_mats 2 0) /\ s_D s = 2 /\ s_nq s = 1 /\
  faddeev_regular (s_D s) A (row_G s 0) /\ In (mkelt 0 0 0) (el_elts s) /\
  laplace 3 (denominator (fun k => term s A k (mkelt 0 0 0)) 2 c1) <> c0.
Proof.
  destruct (sys2_ok 1 1 1 0 (1 / 2)) as (CT & VC & Hs). exists CT, VC. cbv zeta.
  pose (s := sys2 CT VC 1 1 1 0 (1 / 2)). fold s in Hs |- *. pose (A := kernel_matrix s true false (states_of 0) (unit_mats 2 0) (unit_mats 2 0)). fold A.
  assert (HA : A 0 0 = 1%R /\ A 0 1 = 1%R /\ A 1 0 = 1%R /\ A 1 1 = 0%R) by (unfold A, s; rewrite !A2_elem by lia; auto).
  destruct HA as (A00 & A01 & A10 & A11).
  assert (HG : row_G s 0 0 = rc (1 / 2) /\ row_G s 0 1 = rc (1 / 2)) by (split; reflexivity). destruct HG as [G0 G1].
  split; [ exact Hs | ]. split; [ reflexivity | ]. split; [ reflexivity | ]. change (s_D s) with 2. split.
  { intros y Hy. pose proof (Hy 0 ltac:(lia)) as Y0. pose proof (Hy 1 ltac:(lia)) as Y1. cbn [ctotal] in Y0, Y1. rewrite A00, A01, A10, A11, G0, G1 in *.
    destruct (y 0) as [u0 v0] eqn:E0. destruct (y 1) as [u1 v1] eqn:E1. unfold cadd, cmul, rc, c0 in Y0, Y1. cbn [fst snd] in Y0, Y1. injection Y0 as P1 P2. injection Y1 as Q1 Q2.
    intros [|[|r]] Hr; [ rewrite E0 | rewrite E1 | lia ]; unfold c0; f_equal; lra. }
  split; [ left; reflexivity | ].
  assert (St : forall n u v, neumann 2 A (row_G s 0) n 0 0 = rc u -> neumann 2 A (row_G s 0) n 0 1 = rc v ->
     neumann 2 A (row_G s 0) (S n) 0 0 = rc ((u + v) / 2) /\ neumann 2 A (row_G s 0) (S n) 0 1 = rc (u / 2)).
  { intros n u v Hu Hv. cbn [neumann]. unfold csum, sum. cbn [seq map fold_right fold_left]. rewrite Hu, Hv, A00, A01, A10, A11, G0, G1.
    unfold cmul, rc. cbn [fst snd]. split; f_equal; lra. }
  assert (N0 : neumann 2 A (row_G s 0) 0 0 0 = rc 1 /\ neumann 2 A (row_G s 0) 0 0 1 = rc 1) by (cbn [neumann]; rewrite A00, A01; auto).
  destruct N0 as [N0 N0']. destruct (St 0 _ _ N0 N0') as [N1 N1']. destruct (St 1 _ _ N1 N1') as [N2 N2']. destruct (St 2 _ _ N2 N2') as [N3 N3']. destruct (St 3 _ _ N3 N3') as [N4 N4'].
  assert (T : forall k, term s A k (mkelt 0 0 0) = neumann 2 A (row_G s 0) k 0 0) by reflexivity.
  unfold laplace, denominator. cbn [ctotal Nat.ltb Nat.leb plus Nat.sub cpow]. rewrite !T, N1, N2, N3, N4. 
  unfold c1. change (1%R, 0%R) with (rc 1). change c0 with (rc 0). rewrite rc_opp.
  rewrite ?rc_mul, ?rc_add. repeat rewrite ?rc_mul, ?rc_add. intros E. apply (f_equal fst) in E. cbn [rc fst] in E. lra.
Qed.
