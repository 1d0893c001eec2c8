From Coq Require Import Reals Lra Psatz.
From Coquelicot Require Import Coquelicot.
From Verif Require Import Common ArrayLib PWModel PWSpec PWChnProofs PWPropsLemmas SwpModel SwpProofs ResolventModel ResolventSpec.
Open Scope R_scope.

(* ---------- one cell ---------- *)
Lemma heaviside_cases x : (x < 0 /\ heaviside x = 0) \/ (0 <= x /\ heaviside x = 1).
Proof. unfold heaviside. destruct (Rltb x 0) eqn:E; [ apply Rltb_true in E | apply Rltb_false in E ]; auto. Qed.

Lemma mu1_pos Eb : - (Mn + Mp) < Eb -> 0 < mu1 Eb.
Proof.
  intros H. assert (0 < Mn) by (unfold Mn; lra). assert (0 < Mp) by (unfold Mp; lra).
  unfold mu1. apply Rdiv_lt_0_compat; [ apply Rmult_lt_0_compat; lra | lra ].
Qed.

Lemma Eq_increasing Eb q1 q2 : - (Mn + Mp) < Eb -> 0 <= q1 < q2 -> Eq_of Eb q1 < Eq_of Eb q2.
Proof.
  intros HE Hq. pose proof (mu1_pos Eb HE). unfold Eq_of, Rdiv. apply Rmult_lt_compat_r; [ apply Rinv_0_lt_compat; lra | nra ].
Qed.
Lemma Eq_nonneg Eb q : - (Mn + Mp) < Eb -> 0 <= Eq_of Eb q.
Proof.
  intros HE. pose proof (mu1_pos Eb HE). unfold Eq_of. apply Rmult_le_pos; [ nra | ]. left. apply Rinv_0_lt_compat. lra.
Qed.

Lemma BC_imag E Eb qu ql : - (Mn + Mp) < Eb -> 0 <= ql < qu ->
  (Eq_of Eb ql + Eb < E <= Eq_of Eb qu + Eb -> snd (resolvent_BC E Eb qu ql) = - PI / (Eq_of Eb qu - Eq_of Eb ql)) /\
  (~ (Eq_of Eb ql + Eb < E <= Eq_of Eb qu + Eb) -> snd (resolvent_BC E Eb qu ql) = 0).
Proof.
  intros HE Hq. pose proof (Eq_increasing Eb ql qu HE Hq) as Hi.
  unfold resolvent_BC. cbn [snd]. set (a := Eq_of Eb ql) in *. set (b := Eq_of Eb qu) in *.
  destruct (heaviside_cases (b + Eb - E)) as [[H1 ->]|[H1 ->]];
  destruct (heaviside_cases (a + Eb - E)) as [[H2 ->]|[H2 ->]]; split; intros H; try lra; field; lra.
Qed.

(* length of the part of the energy-conservation line inside the cell *)
Lemma CC_imag E Eb qu ql eu el : - (Mn + Mp) < Eb -> 0 <= ql < qu -> el < eu ->
  snd (resolvent_CC E Eb qu ql eu el)
  = - PI * onshell_length E (Eq_of Eb ql) (Eq_of Eb qu) el eu / ((eu - el) * (Eq_of Eb qu - Eq_of Eb ql)).
Proof.
  intros HE Hq He. pose proof (Eq_increasing Eb ql qu HE Hq) as Hi.
  unfold resolvent_CC, onshell_length. cbn [snd]. set (a := Eq_of Eb ql) in *. set (b := Eq_of Eb qu) in *.
  set (D := 0.5 * (el + eu) + 0.5 * (a + b) - E).
  set (DM := 0.5 * (eu - el - (b - a))). set (DP := 0.5 * (eu - el + (b - a))).
  assert (E1 : D + DM = eu + a - E) by (unfold D, DM; lra).
  assert (E2 : D - DM = el + b - E) by (unfold D, DM; lra).
  assert (E3 : D + DP = eu + b - E) by (unfold D, DP; lra).
  assert (E4 : D - DP = el + a - E) by (unfold D, DP; lra).
  rewrite E1, E2, E3, E4. clear E1 E2 E3 E4 D DM DP.
  assert (K : (eu + a - E) * heaviside (eu + a - E) + (el + b - E) * heaviside (el + b - E)
    - (eu + b - E) * heaviside (eu + b - E) - (el + a - E) * heaviside (el + a - E)
    = - Rmax 0 (Rmin eu (E - a) - Rmax el (E - b))).
  { destruct (heaviside_cases (eu + a - E)) as [[H1 ->]|[H1 ->]];
    destruct (heaviside_cases (el + b - E)) as [[H2 ->]|[H2 ->]];
    destruct (heaviside_cases (eu + b - E)) as [[H3 ->]|[H3 ->]];
    destruct (heaviside_cases (el + a - E)) as [[H4 ->]|[H4 ->]]; try lra;
    unfold Rmax, Rmin; repeat destruct (Rle_dec _ _); lra. }
  rewrite K. field. split; lra.
Qed.

Lemma onshell_nonneg E a b el eu : 0 <= onshell_length E a b el eu.
Proof. apply Rmax_l. Qed.
Lemma onshell_pos_iff E a b el eu : a < b -> el < eu -> (0 < onshell_length E a b el eu <-> el + a < E < eu + b).
Proof.
  intros. unfold onshell_length, Rmax, Rmin. repeat destruct (Rle_dec _ _); split; intros; lra.
Qed.

Lemma imag_sign E ql qu el eu : - (Mn + Mp) < el -> 0 <= ql < qu -> el < eu ->
  snd (cell_value E ql qu el eu) <= 0 /\
  (snd (cell_value E ql qu el eu) <> 0 ->
     (el < 0 /\ Eq_of el ql + el < E <= Eq_of el qu + el) \/
     (0 <= el /\ el + Eq_of 0 ql < E < eu + Eq_of 0 qu)).
Proof.
  intros HE Hq He. pose proof PI_RGT_0 as Hpi. unfold cell_value. destruct (Rltb el 0) eqn:En.
  - apply Rltb_true in En. pose proof (Eq_increasing el ql qu HE Hq) as Hi.
    destruct (BC_imag E el qu ql HE Hq) as [Ha Hb].
    assert (Hdec : (Eq_of el ql + el < E <= Eq_of el qu + el) \/ ~ (Eq_of el ql + el < E <= Eq_of el qu + el)) by lra.
    destruct Hdec as [Hin|Hout].
    + rewrite (Ha Hin). split; [ | intros _; left; split; assumption ].
      left. apply Ropp_lt_cancel. rewrite Ropp_0. unfold Rdiv. rewrite <- Ropp_mult_distr_l, Ropp_involutive.
      apply Rdiv_lt_0_compat; lra.
    + rewrite (Hb Hout). split; [ lra | ]. intros H; exfalso; apply H; reflexivity.
  - apply Rltb_false in En.
    assert (H0 : - (Mn + Mp) < 0) by (unfold Mn, Mp; lra).
    pose proof (Eq_increasing 0 ql qu H0 Hq) as Hi.
    rewrite (CC_imag E 0 qu ql eu el H0 Hq He).
    pose proof (onshell_nonneg E (Eq_of 0 ql) (Eq_of 0 qu) el eu) as Hn.
    pose proof (onshell_pos_iff E (Eq_of 0 ql) (Eq_of 0 qu) el eu Hi He) as Hp.
    set (len := onshell_length E (Eq_of 0 ql) (Eq_of 0 qu) el eu) in *.
    assert (Hd : 0 < / ((eu - el) * (Eq_of 0 qu - Eq_of 0 ql))) by (apply Rinv_0_lt_compat, Rmult_lt_0_compat; lra).
    split.
    + assert (0 <= PI * len * / ((eu - el) * (Eq_of 0 qu - Eq_of 0 ql))).
      { apply Rmult_le_pos; [ apply Rmult_le_pos; lra | lra ]. }
      unfold Rdiv. replace (- PI * len) with (- (PI * len)) by ring. lra.
    + intros Hnz. right. split; [ exact En | ]. apply Hp.
      destruct Hn as [Hn|Hn]; [ exact Hn | ]. exfalso. apply Hnz. rewrite <- Hn. unfold Rdiv. ring.
Qed.

(* ---------- real parts as averages of 1/(E - energy) ---------- *)
Lemma is_RInt_inv c s a b : (s = 1 \/ s = -1) -> a <= b -> (forall x, a <= x <= b -> 0 < s * (x - c)) ->
  is_RInt (fun x => / (c - x)) a b (ln (s * (a - c)) - ln (s * (b - c))).
Proof.
  intros Hs Hab Hpos.
  replace (ln (s * (a - c)) - ln (s * (b - c)))
    with (minus ((fun x => - ln (s * (x - c))) b) ((fun x => - ln (s * (x - c))) a))
    by (unfold minus, plus, opp; cbn; ring).
  apply (@is_RInt_derive R_CompleteNormedModule (fun x => - ln (s * (x - c))) (fun x => / (c - x))).
  - intros x Hx. rewrite Rmin_left, Rmax_right in Hx by exact Hab. specialize (Hpos x Hx).
    auto_derive; [ exact Hpos | ]. field. repeat split; intros H; destruct Hs as [-> | ->]; lra.
  - intros x Hx. rewrite Rmin_left, Rmax_right in Hx by exact Hab. specialize (Hpos x Hx).
    apply continuity_pt_filterlim. apply continuity_pt_inv; [ reg | ]. intros H.
    assert (x - c = 0) by lra. rewrite H0 in Hpos. lra.
Qed.

Lemma ln_abs s x : (s = 1 \/ s = -1) -> 0 < s * x -> ln (Rabs x) = ln (s * x).
Proof.
  intros [-> | ->] H; f_equal; [ rewrite Rabs_pos_eq | rewrite Rabs_left ]; lra.
Qed.

Lemma BC_real E Eb qu ql : - (Mn + Mp) < Eb -> 0 <= ql < qu ->
  (E < Eq_of Eb ql + Eb \/ Eq_of Eb qu + Eb < E) ->
  is_RInt (fun x => / (E - (Eb + x))) (Eq_of Eb ql) (Eq_of Eb qu)
    (fst (resolvent_BC E Eb qu ql) * (Eq_of Eb qu - Eq_of Eb ql)).
Proof.
  intros HE Hq Hout. pose proof (Eq_increasing Eb ql qu HE Hq) as Hi.
  unfold resolvent_BC. cbn [fst]. set (a := Eq_of Eb ql) in *. set (b := Eq_of Eb qu) in *.
  assert (Hs : exists s, (s = 1 \/ s = -1) /\ 0 < s * (a + Eb - E) /\ 0 < s * (b + Eb - E)).
  { destruct Hout; [ exists 1 | exists (-1) ]; split; auto; split; lra. }
  destruct Hs as (s & Hs & Ha & Hb).
  assert (Hx : forall x, a <= x <= b -> 0 < s * (x - (E - Eb))) by (intros x Hx; destruct Hs as [-> | ->]; lra).
  pose proof (is_RInt_inv (E - Eb) s a b Hs ltac:(lra) Hx) as HI.
  assert (Hln : ln (Rabs ((a + Eb - E) / (b + Eb - E))) = ln (s * (a - (E - Eb))) - ln (s * (b - (E - Eb)))).
  { unfold Rdiv. rewrite Rabs_mult, Rabs_Rinv by (intros H; rewrite H in Hb; lra).
    rewrite ln_mult; [ | apply Rabs_pos_lt; intros H; rewrite H in Ha; lra
                       | apply Rinv_0_lt_compat, Rabs_pos_lt; intros H; rewrite H in Hb; lra ].
    rewrite ln_Rinv by (apply Rabs_pos_lt; intros H; rewrite H in Hb; lra).
    rewrite (ln_abs s (a + Eb - E)), (ln_abs s (b + Eb - E)) by assumption.
    replace (a - (E - Eb)) with (a + Eb - E) by ring. replace (b - (E - Eb)) with (b + Eb - E) by ring. ring. }
  rewrite Hln. replace ((ln (s * (a - (E - Eb))) - ln (s * (b - (E - Eb)))) / (b - a) * (b - a))
     with (ln (s * (a - (E - Eb))) - ln (s * (b - (E - Eb)))) by (field; lra).
  apply (is_RInt_ext (fun x => / (E - Eb - x))); [ | exact HI ]. intros x _. f_equal. ring.
Qed.

(* integral of ln(s(x+c)) *)
Lemma is_RInt_ln c s a b : (s = 1 \/ s = -1) -> a <= b -> (forall x, a <= x <= b -> 0 < s * (x + c)) ->
  is_RInt (fun x => ln (s * (x + c))) a b
    ((b + c) * ln (s * (b + c)) - (b + c) - ((a + c) * ln (s * (a + c)) - (a + c))).
Proof.
  intros Hs Hab Hpos.
  replace ((b + c) * ln (s * (b + c)) - (b + c) - ((a + c) * ln (s * (a + c)) - (a + c)))
    with (minus ((fun x => (x + c) * ln (s * (x + c)) - (x + c)) b) ((fun x => (x + c) * ln (s * (x + c)) - (x + c)) a))
    by (unfold minus, plus, opp; cbn; ring).
  apply (@is_RInt_derive R_CompleteNormedModule (fun x => (x + c) * ln (s * (x + c)) - (x + c)) (fun x => ln (s * (x + c)))).
  - intros x Hx. rewrite Rmin_left, Rmax_right in Hx by exact Hab. specialize (Hpos x Hx).
    auto_derive; [ exact Hpos | ]. field. repeat split; intros H; destruct Hs as [-> | ->]; lra.
  - intros x Hx. rewrite Rmin_left, Rmax_right in Hx by exact Hab. specialize (Hpos x Hx).
    apply continuity_pt_filterlim.
    apply (continuity_pt_comp (fun x => s * (x + c)) ln); [ reg | ].
    apply derivable_continuous_pt. exists (/ (s * (x + c))). apply derivable_pt_lim_ln. exact Hpos.
Qed.

Lemma CC_real E Eb qu ql eu el : - (Mn + Mp) < Eb -> 0 <= ql < qu -> el < eu ->
  (E < el + Eq_of Eb ql \/ eu + Eq_of Eb qu < E) ->
  exists inner : R -> R,
    (forall p, el <= p <= eu -> is_RInt (fun x => / (E - (p + x))) (Eq_of Eb ql) (Eq_of Eb qu) (inner p)) /\
    is_RInt inner el eu
      (fst (resolvent_CC E Eb qu ql eu el) * ((eu - el) * (Eq_of Eb qu - Eq_of Eb ql))).
Proof.
  intros HE Hq He Hout. pose proof (Eq_increasing Eb ql qu HE Hq) as Hi.
  unfold resolvent_CC. cbn [fst]. set (a := Eq_of Eb ql) in *. set (b := Eq_of Eb qu) in *.
  set (D := 0.5 * (el + eu) + 0.5 * (a + b) - E).
  set (DM := 0.5 * (eu - el - (b - a))). set (DP := 0.5 * (eu - el + (b - a))).
  assert (E1 : D + DM = eu + (a - E)) by (unfold D, DM; lra).
  assert (E2 : D - DM = el + (b - E)) by (unfold D, DM; lra).
  assert (E3 : D + DP = eu + (b - E)) by (unfold D, DP; lra).
  assert (E4 : D - DP = el + (a - E)) by (unfold D, DP; lra).
  rewrite E1, E2, E3, E4. clear E1 E2 E3 E4 D DM DP.
  assert (Hs : exists s, (s = 1 \/ s = -1) /\ forall p x, el <= p <= eu -> a <= x <= b -> 0 < s * (p + (x - E))).
  { destruct Hout; [ exists 1 | exists (-1) ]; split; auto; intros; lra. }
  destruct Hs as (s & Hs & Hpos).
  exists (fun p => ln (s * (p + (a - E))) - ln (s * (p + (b - E)))). split.
  - intros p Hp. pose proof (is_RInt_inv (E - p) s a b Hs ltac:(lra)) as HI.
    assert (Hx : forall x, a <= x <= b -> 0 < s * (x - (E - p))).
    { intros x Hx. replace (x - (E - p)) with (p + (x - E)) by ring. apply Hpos; assumption. }
    specialize (HI Hx). replace (a - (E - p)) with (p + (a - E)) in HI by ring.
    replace (b - (E - p)) with (p + (b - E)) in HI by ring.
    apply (is_RInt_ext (fun x => / (E - p - x))); [ | exact HI ]. intros x _. f_equal. ring.
  - pose proof (is_RInt_ln (a - E) s el eu Hs ltac:(lra)) as Ia.
    pose proof (is_RInt_ln (b - E) s el eu Hs ltac:(lra)) as Ib.
    assert (Ha : forall x, el <= x <= eu -> 0 < s * (x + (a - E))) by (intros x Hx; apply Hpos; lra).
    assert (Hb : forall x, el <= x <= eu -> 0 < s * (x + (b - E))) by (intros x Hx; apply Hpos; lra).
    specialize (Ia Ha). specialize (Ib Hb).
    pose proof (is_RInt_minus _ _ _ _ _ _ Ia Ib) as HI.
    rewrite (ln_abs s (eu + (a - E))), (ln_abs s (el + (b - E))), (ln_abs s (eu + (b - E))), (ln_abs s (el + (a - E)))
      by first [ exact Hs | apply Ha; lra | apply Hb; lra ].
    match goal with |- is_RInt _ _ _ ?v => replace v with
      (minus ((eu + (a - E)) * ln (s * (eu + (a - E))) - (eu + (a - E)) - ((el + (a - E)) * ln (s * (el + (a - E))) - (el + (a - E))))
             ((eu + (b - E)) * ln (s * (eu + (b - E))) - (eu + (b - E)) - ((el + (b - E)) * ln (s * (el + (b - E))) - (el + (b - E))))) end.
    + exact HI.
    + unfold minus, plus, opp. cbn. field. split; lra.
Qed.
