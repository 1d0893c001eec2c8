(* Property theorems about the geometric function of the permutation operator (C69-C71). *)
From Coq Require Import Reals Lra ZifyBool.
From Verif Require Import Common ArrayLib PWModel PWSpec SwpModel GridSpec PermModel PermSpec PermProps KernelModel
  GeoModel GeoSpec GeoPropsLemmas.
Open Scope Z_scope.

(* C69: for every channel of every model space, whatever the special functions are as long as they obey their selection
   rules, the tables are built without an error and each value handed to the momentum integration is the full geometric
   formula at that direction: no term is lost to the truncated sums, the skipped zeros or the table layouts. *)
Theorem C69_geometric_function sixj ninej threej sphP legblock legsize states J Np Nq Nphi phi xs k :
  threej_rule threej -> ninej_rule ninej -> legendre_rule sphP legblock legsize ->
  states <> [] -> (forall s, In s states -> physical s /\ two_J_3N s = J) ->
  length phi = (Nq * Np * Nphi)%nat -> mesh_in 0 (PI / 2) phi -> mesh_in (-1) 1 xs ->
  allocated legsize states Np Nq Nphi (length xs) k ->
  exists t, geo_tables sixj ninej threej legblock legsize states Np Nq Nphi phi xs k = Ok t /\
  forall qp pp ap a r c out, (qp < Nq)%nat -> (pp < Np)%nat -> nth_error states ap = Some r -> nth_error states a = Some c ->
    length out = (Nphi * length xs)%nat ->
    exists G, gtilde_subarray legsize states t Np Nphi xs qp pp (zn ap) (zn a) out = Ok G /\ length G = (Nphi * length xs)%nat /\
      forall j i, (j < Nphi)%nat -> (i < length xs)%nat ->
        let f := nth ((qp * Np + pp) * Nphi + j) phi 0%R in let x := nth i xs 0%R in
        nth (j * length xs + i) G 0%R =
        geometric sixj ninej threej sphP r c x (pair_cos (sin f) (cos f) x) (spectator_cos (sin f) (cos f) x).
Proof. exact (geo_thm sixj ninej threej sphP legblock legsize states J Np Nq Nphi phi xs k). Qed.
Print Assumptions C69_geometric_function.

(* ... and with C66 the whole element, for the channels of a constructed model space *)
Theorem C69_permutation_element sixj ninej threej sphP legblock legsize g Jm mx iso ss cn states roots Np Nq pb qb phi wphi xs wxs k :
  let Nphi := length roots in
  threej_rule threej -> ninej_rule ninej -> legendre_rule sphP legblock legsize ->
  1 <= mx -> Z.Odd mx -> construct_symmetric_pw_states_g g Jm mx iso = Ok ss ->
  0 <= cn < ss_N_chn ss -> channel_slice ss cn = Ok states ->
  partition_from_zero Np pb -> partition_from_zero Nq qb -> mesh_in (-1) 1 xs -> mesh_in 0 (PI / 2) phi ->
  length phi = (Nq * Np * Nphi)%nat -> length wphi = (Nq * Np * Nphi)%nat -> length wxs = length xs ->
  allocated legsize states Np Nq Nphi (length xs) k ->
  exists t, geo_tables sixj ninej threej legblock legsize states Np Nq Nphi phi xs k = Ok t /\
  forall qp pp q p ap a r c out, (qp < Nq)%nat -> (pp < Np)%nat -> (q < Nq)%nat -> (p < Np)%nat ->
    nth_error states ap = Some r -> nth_error states a = Some c -> length out = (Nphi * length xs)%nat ->
    exists G (v : nat -> nat -> R), gtilde_subarray legsize states t Np Nphi xs qp pp (zn ap) (zn a) out = Ok G /\
      let angle j := nth ((qp * Np + pp) * Nphi + j) phi 0%R in
      let weight j := nth ((qp * Np + pp) * Nphi + j) wphi 0%R in
      let x i := nth i xs 0%R in
      (forall j i, (j < Nphi)%nat -> (i < length xs)%nat ->
         direction_integral (fun a b => pi1_tilde a b (x i)) (fun a b => pi2_tilde a b (x i)) pb qb pp qp p q (angle j) (v j i)) /\
      P123_element roots G p q pp qp pb qb xs wxs
        (slice (map sin phi) ((qp * Np + pp) * Nphi) Nphi) (slice (map cos phi) ((qp * Np + pp) * Nphi) Nphi) (slice wphi ((qp * Np + pp) * Nphi) Nphi) =
      Ok (GridSpec.sum (fun i => GridSpec.sum (fun j => nth i wxs 0 * weight j *
             geometric sixj ninej threej sphP r c (x i) (pair_cos (sin (angle j)) (cos (angle j)) (x i)) (spectator_cos (sin (angle j)) (cos (angle j)) (x i))
             * v j i) Nphi) (length xs)
          / (sqrt (upper qb q - lower qb q) * sqrt (upper pb p - lower pb p)
             * sqrt (upper qb qp - lower qb qp) * sqrt (upper pb pp - lower pb pp)))%R.
Proof. exact (geo_element sixj ninej threej sphP legblock legsize g Jm mx iso ss cn states roots Np Nq pb qb phi wphi xs wxs k). Qed.
Print Assumptions C69_permutation_element.

(* Functions that obey the rules and are non-zero wherever the rules allow it; a model space; its arrays. *)
Definition ex_threej (a b c m n k : Z) : R :=
  if (Z.abs (a - b) <=? c) && (c <=? a + b) && (Z.abs m <=? a) && (Z.abs n <=? b) && (Z.abs k <=? c) then 1%R else 0%R.
Definition ex_ninej (a b c d e f g h i : Z) : R := if (Z.abs (g - h) <=? i) && (i <=? g + h) then 1%R else 0%R.
Definition ex_sphP (l m : Z) (x : R) : R := x.
Definition ex_legsize (lmax : Z) : Z := (lmax + 1) * (lmax + 2) / 2 + 2 * lmax + 2.
Definition ex_legblock (lmax : Z) (x : R) : list R := repeat x (Z.to_nat (ex_legsize lmax)).
Lemma ex_rules : threej_rule ex_threej /\ ninej_rule ex_ninej /\ legendre_rule ex_sphP ex_legblock ex_legsize.
Proof.
  unfold threej_rule, ninej_rule, legendre_rule, can_couple, ex_threej, ex_ninej, ex_sphP, ex_legblock, ex_legsize. repeat apply conj.
  - intros. match goal with |- (if ?b then _ else _) = _ => destruct b eqn:E end; [ lia | reflexivity ].
  - intros. match goal with |- (if ?b then _ else _) = _ => destruct b eqn:E end; [ lia | reflexivity ].
  - intros lmax x H. assert (0 <= (lmax + 1) * (lmax + 2) / 2) by (apply Z.div_pos; lia). rewrite repeat_length. split; [ lia | ].
    intros l m Hm Hl. apply nth_error_repeat. apply Z2Nat.inj_lt; [ | lia | ].
    + assert (0 <= l * (l + 1) / 2) by (apply Z.div_pos; nia). lia.
    + assert (l * (l + 1) / 2 <= lmax * (lmax + 1) / 2) by (apply Z.div_le_mono; nia).
      replace ((lmax + 1) * (lmax + 2)) with (lmax * (lmax + 1) + (lmax + 1) * 2) by ring. rewrite Z.div_add by lia.
      clear - H Hm Hl H1. revert H1. generalize (l * (l + 1) / 2) (lmax * (lmax + 1) / 2). intros. lia.
Qed.
Definition ex_ss : statespace := match construct_symmetric_pw_states_g 0 1 1 false with Ok s => s | _ => mkss [] [] 0 end.
Definition ex_states : list pw := match channel_slice ex_ss 0 with Ok l => l | _ => [] end.
Definition ex_junk : gjunk :=
  mkgjunk (repeat 7%R (Z.to_nat ((2 * geo_lmax ex_states + 1) ^ 6))) (repeat 7%R (Z.to_nat (cg_size (2 * geo_lmax ex_states))))
    (repeat 7%R (Z.to_nat (ex_legsize (max_l3 ex_states)) * 1)) (repeat 7%R (Z.to_nat (ex_legsize (max_L12 ex_states)) * 2 * 2 * 1 * 1))
    (repeat 7%R (Z.to_nat (ex_legsize (max_l3 ex_states)) * 2 * 2 * 1 * 1)).
Lemma ex_lmax : geo_lmax ex_states = 5.
Proof. vm_compute. reflexivity. Qed.
Example C69_example : threej_rule ex_threej /\ ninej_rule ex_ninej /\ legendre_rule ex_sphP ex_legblock ex_legsize /\
  construct_symmetric_pw_states_g 0 1 1 false = Ok ex_ss /\ channel_slice ex_ss 0 = Ok ex_states /\ length ex_states = 10%nat /\
  partition_from_zero 2 [0; 5; 9]%R /\ mesh_in (-1) 1 [0%R] /\ mesh_in 0 (PI / 2) [PI / 8; PI / 6; PI / 4; PI / 3]%R /\
  allocated ex_legsize ex_states 2 2 1 1 ex_junk.
Proof.
  destruct ex_rules as (R3 & R9 & RL). pose proof PI_RGT_0.
  split; [ exact R3 | ]. split; [ exact R9 | ]. split; [ exact RL | ]. split; [ vm_compute; reflexivity | ].
  split; [ vm_compute; reflexivity | ]. split; [ vm_compute; reflexivity | ]. split; [ exact PermProps.C20_example_grid | ].
  split; [ intros t [<-|[]]; lra | ]. split; [ intros t [<-|[<-|[<-|[<-|[]]]]]; lra | ].
  unfold allocated, ex_junk, zn. cbn [k_six k_cg k_P1 k_P2 k_P3]. rewrite !repeat_length, ex_lmax. repeat apply conj.
  - rewrite Z2Nat.id by lia. vm_compute. reflexivity.
  - rewrite Z2Nat.id by (cbv; discriminate). reflexivity.
  - reflexivity.
  - reflexivity.
  - reflexivity.
Qed.
(* for these functions (and 6j = 1) the formula is not zero for the first state of the channel (1S0 pair, s-wave spectator) *)
Example C69_example_value : exists r, nth_error ex_states 0 = Some r /\
  geometric (fun _ _ _ _ _ _ => 1%R) ex_ninej ex_threej ex_sphP r r (1/2) (1/2) (1/2) <> 0%R.
Proof.
  exists (mkpw 0 0 0 1 0 1 1 1 1). split; [ vm_compute; reflexivity | ].
  assert (Z1 : forall f, zsum 0 0 f = f 0%Z).
  { intros f. unfold zsum, GridSpec.sum. change (Z.to_nat (0 - 0 + 1)) with 1%nat. cbn [seq map fold_right]. cbn. ring. }
  unfold geometric. cbn [L_2N L_1N]. change (0 + 0) with 0. change (- 0) with 0. rewrite !Z1. change (Z.abs (0 - 0) <=? 0) with true. cbv iota.
  unfold clebsch, Y, sign, ex_sphP, ex_threej. unfold recoupling, ex_ninej, sign. cbn [L_2N L_1N S_2N T_2N J_2N two_J_1N two_J_3N two_T_3N].
  cbn -[sqrt PI Rmult Rplus Rdiv Rminus IZR]. rewrite sqrt_1.
  pose proof PI_RGT_0. assert (A : (0 < sqrt ((2 * 0 + 1) / (4 * PI)))%R).
  { apply sqrt_lt_R0. apply Rdiv_lt_0_compat; lra. }
  assert (B : (0 < sqrt 6)%R) by (apply sqrt_lt_R0; lra).
  revert A B. generalize (sqrt ((2 * 0 + 1) / (4 * PI))) (sqrt 6). intros u v Hu Hv.
  match goal with |- ?t <> 0%R => replace t with (- (2 * (PI * PI) * u * (v * v)))%R by field end.
  assert (0 < PI * PI * u * (v * v))%R by (generalize PI H; intros w Hw; repeat apply Rmult_lt_0_compat; lra). lra.
Qed.

(* C70: a model space whose 6j table is too large for the program is refused before the table is filled.
   False: the size is only tested for being negative, and a size that wraps around to a positive number passes. *)
Definition big_ss : statespace := match construct_symmetric_pw_states_g 0 16 1 false with Ok s => s | _ => mkss [] [] 0 end.
Definition big_states : list pw := match channel_slice big_ss 0 with Ok l => l | _ => [] end.
Theorem C70_refuted sixj ninej threej legblock legsize Np Nq Nphi phi xs k :
  construct_symmetric_pw_states_g 0 16 1 false = Ok big_ss /\ channel_slice big_ss 0 = Ok big_states /\
  (2 * geo_lmax big_states + 1) ^ 6 >= 2 ^ 31 /\
  geo_tables sixj ninej threej legblock legsize big_states Np Nq Nphi phi xs k = UB.
Proof.
  split; [ vm_compute; reflexivity | ]. split; [ vm_compute; reflexivity | ]. split; [ vm_compute; discriminate | ].
  unfold geo_tables. assert (E : sixj_size (2 * geo_lmax big_states) = UB) by (vm_compute; reflexivity).
  rewrite E. destruct (aread big_states 0) eqn:E0; try (vm_compute in E0; discriminate E0). reflexivity.
Qed.
Print Assumptions C70_refuted.
(* What holds: every model space up to J_2N_max + J + 1/2 = 14 gets a table of the right size; beyond the largest table
   (highest orbital momentum 17) the build never succeeds, and for 18 and 19 the run stops with the error message. *)
Theorem C70_partial g Jm mx iso ss c states :
  1 <= mx -> Z.Odd mx -> construct_symmetric_pw_states_g g Jm mx iso = Ok ss ->
  0 <= c < ss_N_chn ss -> channel_slice ss c = Ok states -> Jm + (fst (nth_chn c) + 1) / 2 <= 14 ->
  exists sz, sixj_size (2 * geo_lmax states) = Ok sz /\ sz = (2 * geo_lmax states + 1) ^ 6.
Proof. exact (capacity_ok g Jm mx iso ss c states). Qed.
Print Assumptions C70_partial.
Theorem C70_too_large_partial n :
  (n = 18 \/ n = 19 -> sixj_size (2 * n) = Err) /\ (18 <= n -> forall sz, sixj_size (2 * n) <> Ok sz).
Proof.
  split.
  - intros [-> | ->]; vm_compute; reflexivity.
  - intros H sz. destruct (sixj_not_fits n H) as [-> | ->]; discriminate.
Qed.
Print Assumptions C70_too_large_partial.
Example C70_example : Z.Odd 3 /\ (exists ss, construct_symmetric_pw_states_g 0 5 3 true = Ok ss /\ ss_N_chn ss = 4) /\
  5 + (fst (nth_chn 3) + 1) / 2 <= 14.
Proof. split; [ exists 1; reflexivity | ]. split; [ eexists; split; vm_compute; reflexivity | vm_compute; discriminate ]. Qed.

(* C71: the permutation operator conserves total isospin: between states of different total isospin every element is 0. *)
Theorem C71_isospin_conserved sixj ninej threej sphP legblock legsize g Jm mx iso ss cn states roots Np Nq pb qb phi wphi xs wxs k :
  let Nphi := length roots in
  threej_rule threej -> ninej_rule ninej -> legendre_rule sphP legblock legsize ->
  1 <= mx -> Z.Odd mx -> construct_symmetric_pw_states_g g Jm mx iso = Ok ss ->
  0 <= cn < ss_N_chn ss -> channel_slice ss cn = Ok states ->
  partition_from_zero Np pb -> partition_from_zero Nq qb -> mesh_in (-1) 1 xs -> mesh_in 0 (PI / 2) phi ->
  length phi = (Nq * Np * Nphi)%nat -> length wphi = (Nq * Np * Nphi)%nat -> length wxs = length xs ->
  allocated legsize states Np Nq Nphi (length xs) k ->
  exists t, geo_tables sixj ninej threej legblock legsize states Np Nq Nphi phi xs k = Ok t /\
  forall qp pp q p ap a r c out, (qp < Nq)%nat -> (pp < Np)%nat -> (q < Nq)%nat -> (p < Np)%nat ->
    nth_error states ap = Some r -> nth_error states a = Some c -> length out = (Nphi * length xs)%nat ->
    two_T_3N r <> two_T_3N c ->
    (do G <- gtilde_subarray legsize states t Np Nphi xs qp pp (zn ap) (zn a) out;
     P123_element roots G p q pp qp pb qb xs wxs
        (slice (map sin phi) ((qp * Np + pp) * Nphi) Nphi) (slice (map cos phi) ((qp * Np + pp) * Nphi) Nphi) (slice wphi ((qp * Np + pp) * Nphi) Nphi))
    = Ok 0%R.
Proof. exact (isospin_element sixj ninej threej sphP legblock legsize g Jm mx iso ss cn states roots Np Nq pb qb phi wphi xs wxs k). Qed.
Print Assumptions C71_isospin_conserved.
Example C71_example : exists ss l r c, construct_symmetric_pw_states_g 0 1 1 true = Ok ss /\ channel_slice ss 0 = Ok l /\
  nth_error l 0 = Some r /\ nth_error l 10 = Some c /\ two_T_3N r <> two_T_3N c.
Proof. do 4 eexists. repeat split; try (vm_compute; reflexivity). vm_compute. discriminate. Qed.
