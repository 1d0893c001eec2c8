From Coq Require Import String Lia.
From Verif Require Import Common IndexModel IndexSpec IndexProofs.
Open Scope Z_scope.

Ltac um := eapply u_mul.
Ltac ua := eapply u_add.

(* number of (q, p, phi, x) in row-major order, with all partial products bounded *)
Section Tables.
Variables np nq nphi nx ln : Z.
Hypotheses (Hnp : 1 <= np < 2 ^ 31) (Hnq : 1 <= nq < 2 ^ 31) (Hnphi : 1 <= nphi < 2 ^ 31) (Hnx : 1 <= nx < 2 ^ 31) (Hl : 1 <= ln).
Hypothesis HT : ln * (nq * np * nphi * nx) < two64.

Lemma pos_mul a b : 1 <= a -> 1 <= b -> 1 <= a * b.
Proof. nia. Qed.
Lemma sizes_up : 1 <= nphi * nx /\ nphi <= nphi * nx /\ nx <= nphi * nx /\ 1 <= np * nphi * nx /\ nphi * nx <= np * nphi * nx /\ np * nphi * nx <= nq * np * nphi * nx /\
  nq * np * nphi * nx <= ln * (nq * np * nphi * nx) /\ ln <= ln * (nq * np * nphi * nx) /\ np * nphi <= np * nphi * nx /\ 1 <= np * nphi.
Proof.
  assert (A := pos_mul nphi nx ltac:(lia) ltac:(lia)). assert (A' := pos_mul np nphi ltac:(lia) ltac:(lia)). assert (B := pos_mul (np * nphi) nx A' ltac:(lia)). assert (Q := pos_mul nq np ltac:(lia) ltac:(lia)). assert (Q2 := pos_mul (nq * np) nphi Q ltac:(lia)). assert (Q3 := pos_mul (nq * np * nphi) nx Q2 ltac:(lia)).
  assert (G1 := grow nphi nx ltac:(lia) ltac:(lia)). assert (G2 := grow nx nphi ltac:(lia) ltac:(lia)). assert (G3 := grow (nphi * nx) np ltac:(lia) ltac:(lia)). assert (G4 := grow (np * nphi * nx) nq ltac:(lia) ltac:(lia)).
  assert (G5 := grow (nq * np * nphi * nx) ln ltac:(lia) Hl). assert (G6 := grow ln (nq * np * nphi * nx) ltac:(lia) Q3). assert (G7 := grow (np * nphi) nx ltac:(lia) ltac:(lia)).
  rewrite (Z.mul_comm nx nphi) in G2. replace (nphi * nx * np) with (np * nphi * nx) in G3 by ring. replace (np * nphi * nx * nq) with (nq * np * nphi * nx) in G4 by ring. rewrite (Z.mul_comm _ ln) in G5.
  repeat split; assumption.
Qed.
Lemma t_Plm_1_size : cval (app (sizes [("len", ln)]%string) (ints [("Nx", nx)]%string)) Plm_1_size = Ok (U64, ln * nx).
Proof.
  destruct sizes_up as (A1 & A2 & A3 & A4 & A5 & A6 & A7 & A8 & _). assert (T : two64 = 18446744073709551616) by reflexivity. change (2 ^ 31) with 2147483648 in *.
  assert (M : ln * nx <= ln * (nq * np * nphi * nx)) by (apply Z.mul_le_mono_nonneg_l; lia).
  unfold Plm_1_size, len, Nx. um; [ reflexivity | reflexivity | auto | lia | lia | lia ].
Qed.
Lemma t_Plm_2_size : cval (app (sizes [("len", ln)]%string) (ints [("Np_WP", np); ("Nq_WP", nq); ("Nphi", nphi); ("Nx", nx)]%string)) Plm_2_size = Ok (U64, ln * (nq * np * nphi * nx)).
Proof.
  destruct sizes_up as (A1 & A2 & A3 & A4 & A5 & A6 & A7 & A8 & _). assert (T : two64 = 18446744073709551616) by reflexivity. change (2 ^ 31) with 2147483648 in *.
  assert (Q := pos_mul nq np ltac:(lia) ltac:(lia)). assert (Q2 := pos_mul (nq * np) nphi Q ltac:(lia)).
  assert (B1 := grow (ln * np) nq ltac:(apply Z.mul_nonneg_nonneg; lia) ltac:(lia)). assert (N1 : 0 <= ln * np) by (apply Z.mul_nonneg_nonneg; lia).
  assert (B2 := grow (ln * np * nq) nphi ltac:(lia) ltac:(lia)). assert (B3 := grow (ln * np * nq * nphi) nx ltac:(lia) ltac:(lia)).
  assert (E : ln * np * nq * nphi * nx = ln * (nq * np * nphi * nx)) by ring.
  set (w := ln * (nq * np * nphi * nx)) in *. set (w1 := ln * np * nq * nphi) in *. set (w2 := ln * np * nq) in *. set (w3 := ln * np) in *.
  eapply val_eq; [ unfold Plm_2_size, len, Np, Nq, Nphi, Nx; um; [ um; [ um; [ um; [ reflexivity | reflexivity | auto | | | ] | reflexivity | auto | | | ] | reflexivity | auto | | | ] | reflexivity | auto | | | ]; cbn [fst snd]; fold w3; fold w2; fold w1; lia | exact E ].
Qed.
Lemma t_G_size : nphi * nx < 2 ^ 31 -> cval (ints [("Nphi", nphi); ("Nx", nx)]%string) G_size = Ok (I32, nphi * nx).
Proof. intros H. destruct sizes_up as (A1 & _). unfold G_size, Nphi, Nx. eapply i_mul; [ reflexivity | reflexivity | lia ]. Qed.

Variables q p f x : Z.
Hypotheses (Hq : 0 <= q < nq) (Hp : 0 <= p < np) (Hf : 0 <= f < nphi) (Hx : 0 <= x < nx).
Let G := app (sizes [("qp_idx_WP", q); ("pp_idx_WP", p); ("phi_idx", f); ("len", ln)]%string) (ints [("Np_WP", np); ("Nphi", nphi); ("Nx", nx); ("x_idx", x)]%string).
Lemma idx_up : 0 <= q * np /\ q * np <= q * np * nphi /\ q * np * nphi <= q * np * nphi * nx /\ q * np * nphi * nx <= nq * np * nphi * nx - np * nphi * nx /\
  0 <= p * nphi /\ p * nphi <= p * nphi * nx /\ p * nphi * nx <= np * nphi * nx - nphi * nx /\ 0 <= f * nx <= nphi * nx - nx /\
  (q * np + p) * nphi = q * np * nphi + p * nphi.
Proof.
  destruct sizes_up as (A1 & A2 & A3 & A4 & A5 & A6 & A7 & A8 & A9 & A10).
  assert (N1 : 0 <= q * np) by (apply Z.mul_nonneg_nonneg; lia). assert (N2 : 0 <= p * nphi) by (apply Z.mul_nonneg_nonneg; lia). assert (N3 := grow (q * np) nphi N1 ltac:(lia)). assert (N4 := grow (q * np * nphi) nx ltac:(lia) ltac:(lia)). assert (N5 := grow (p * nphi) nx N2 ltac:(lia)).
  assert (B1 := below q nq (np * nphi * nx) Hq A4). assert (B2 := below p np (nphi * nx) Hp A1). assert (B3 := below f nphi nx Hf ltac:(lia)).
  replace (q * (np * nphi * nx)) with (q * np * nphi * nx) in B1 by ring. replace (nq * (np * nphi * nx)) with (nq * np * nphi * nx) in B1 by ring. replace (p * (nphi * nx)) with (p * nphi * nx) in B2 by ring. replace (np * (nphi * nx)) with (np * nphi * nx) in B2 by ring.
  repeat split; try assumption; try lia; ring.
Qed.
Lemma set_bound : 0 <= q * np * nphi * nx + p * nphi * nx + f * nx + x < nq * np * nphi * nx.
Proof. destruct idx_up as (I1 & I2 & I3 & I4 & I5 & I6 & I7 & I8 & I9). destruct sizes_up as (A1 & A2 & A3 & A4 & A5 & A6 & A7 & A8 & A9 & A10). lia. Qed.
Lemma t_phi_entry : cval G phi_entry = Ok (U64, (q * np + p) * nphi + f) /\ 0 <= (q * np + p) * nphi + f < nq * np * nphi.
Proof.
  destruct idx_up as (I1 & I2 & I3 & I4 & I5 & I6 & I7 & I8 & I9). destruct sizes_up as (A1 & A2 & A3 & A4 & A5 & A6 & A7 & A8 & A9 & A10). assert (T : two64 = 18446744073709551616) by reflexivity. change (2 ^ 31) with 2147483648 in *.
  assert (R : 0 <= (q * np + p) * nphi + f < nq * np * nphi).
  { assert (X := inside q p np nq Hq Hp). exact (inside (q * np + p) f nphi (nq * np) X Hf). }
  assert (Gr := grow (nq * np * nphi) nx ltac:(lia) ltac:(lia)). assert (Gr0 := grow (q * np + p) nphi ltac:(lia) ltac:(lia)). split; [ | exact R ].
  clear I4 I6 I7 I8 A2 A3 A4 A5 A6 A8 A9 A10.
  unfold phi_entry, qp, pp, Np, Nphi, phi_i. ua; [ um; [ ua; [ um; [ reflexivity | reflexivity | auto | | | ] | reflexivity | auto | | | ] | reflexivity | auto | | | ] | reflexivity | auto | | | ]; cbn [fst snd]; lia.
Qed.
Lemma t_Plm_2_set : cval G Plm_2_set = Ok (U64, ((q * np + p) * nphi + f) * nx + x).
Proof.
  destruct idx_up as (I1 & I2 & I3 & I4 & I5 & I6 & I7 & I8 & I9). destruct sizes_up as (A1 & A2 & A3 & A4 & A5 & A6 & A7 & A8 & A9 & A10). assert (B := set_bound). assert (T : two64 = 18446744073709551616) by reflexivity. change (2 ^ 31) with 2147483648 in *.
  eapply val_eq.
  - unfold Plm_2_set, qp, pp, Np, Nphi, Nx, phi_i, x_i.
    ua; [ ua; [ ua; [ um; [ um; [ um; [ reflexivity | reflexivity | auto | | | ] | reflexivity | auto | | | ] | reflexivity | auto | | | ] | um; [ um; [ reflexivity | reflexivity | auto | | | ] | reflexivity | auto | | | ] | auto | | | ] | um; [ reflexivity | reflexivity | auto | | | ] | auto | | | ] | reflexivity | auto | | | ]; cbn [fst snd]; lia.
  - cbn [fst snd]. ring.
Qed.
Lemma t_Plm_2_start : cval G Plm_2_start = Ok (U64, (q * np + p) * nphi * nx * ln) /\ cval G Plm_2_inner = Ok (U64, (f * nx + x) * ln) /\ 0 <= (f * nx + x) * ln.
Proof.
  destruct idx_up as (I1 & I2 & I3 & I4 & I5 & I6 & I7 & I8 & I9). destruct sizes_up as (A1 & A2 & A3 & A4 & A5 & A6 & A7 & A8 & A9 & A10). assert (B := set_bound). assert (T : two64 = 18446744073709551616) by reflexivity. change (2 ^ 31) with 2147483648 in *.
  assert (M1 : (q * np * nphi * nx + p * nphi * nx) * ln <= (nq * np * nphi * nx) * ln) by (apply Z.mul_le_mono_nonneg_r; lia).
  assert (M2 : (f * nx + x) * ln <= (nq * np * nphi * nx) * ln) by (apply Z.mul_le_mono_nonneg_r; lia). rewrite (Z.mul_comm (nq * np * nphi * nx) ln) in M1, M2.
  assert (M3 : 0 <= (f * nx + x) * ln) by (apply Z.mul_nonneg_nonneg; lia).
  split; [ | split; [ | exact M3 ] ].
  - eapply val_eq.
    + unfold Plm_2_start, qp, pp, Np, Nphi, Nx, len.
      um; [ ua; [ um; [ um; [ um; [ reflexivity | reflexivity | auto | | | ] | reflexivity | auto | | | ] | reflexivity | auto | | | ] | um; [ um; [ reflexivity | reflexivity | auto | | | ] | reflexivity | auto | | | ] | auto | | | ] | reflexivity | auto | | | ]; cbn [fst snd];
      set (w := ln * (nq * np * nphi * nx)) in *; set (w1 := (q * np * nphi * nx + p * nphi * nx) * ln) in *; clearbody w w1; lia.
    + cbn [fst snd]. ring.
  - unfold Plm_2_inner, phi_i, Nx, x_i, len. um; [ ua; [ um; [ reflexivity | reflexivity | auto | | | ] | reflexivity | auto | | | ] | reflexivity | auto | | | ]; cbn [fst snd];
      set (w := ln * (nq * np * nphi * nx)) in *; set (w1 := (f * nx + x) * ln) in *; clearbody w w1; lia.
Qed.
Lemma t_entry_bound : let s := ((q * np + p) * nphi + f) * nx + x in 0 <= s * ln /\ s * ln + ln <= ln * (nq * np * nphi * nx).
Proof.
  intros s. assert (B := set_bound). assert (E : s = q * np * nphi * nx + p * nphi * nx + f * nx + x) by (unfold s; ring). rewrite <- E in B. clearbody s. set (w := nq * np * nphi * nx) in *. clearbody w. clear E HT.
  split; [ apply Z.mul_nonneg_nonneg; lia | ]. assert ((s + 1) * ln <= w * ln) by (apply Z.mul_le_mono_nonneg_r; lia). lia.
Qed.
Lemma t_Plm_2_entry : let s := ((q * np + p) * nphi + f) * nx + x in cval (sizes [("idx_subarray_2", s); ("len", ln)]%string) Plm_2_entry = Ok (U64, s * ln).
Proof.
  intros s. assert (B := set_bound). assert (E : s = q * np * nphi * nx + p * nphi * nx + f * nx + x) by (unfold s; ring). rewrite <- E in B. assert (C := t_entry_bound). cbv zeta in C. fold s in C. destruct C as [C1 C2]. destruct sizes_up as (A1 & A2 & A3 & A4 & A5 & A6 & A7 & A8 & A9 & A10).
  clearbody s. set (w := ln * (nq * np * nphi * nx)) in *. set (w1 := nq * np * nphi * nx) in *. clearbody w w1. unfold Plm_2_entry, len. um; [ reflexivity | reflexivity | auto | lia | lia | lia ].
Qed.
Lemma t_Plm_1_entry : cval (sizes [("idx_subarray_1", x); ("len", ln)]%string) Plm_1_entry = Ok (U64, x * ln) /\ 0 <= x * ln /\ x * ln + ln <= ln * nx.
Proof.
  destruct sizes_up as (A1 & A2 & A3 & A4 & A5 & A6 & A7 & A8 & A9 & A10). assert (M : (x + 1) * ln <= nx * ln) by (apply Z.mul_le_mono_nonneg_r; lia). assert (N : 0 <= x * ln) by (apply Z.mul_nonneg_nonneg; lia).
  assert (M' : ln * nx <= ln * (nq * np * nphi * nx)) by (apply Z.mul_le_mono_nonneg_l; lia). assert (T : two64 = 18446744073709551616) by reflexivity. change (2 ^ 31) with 2147483648 in *.
  set (w := ln * (nq * np * nphi * nx)) in *. set (w1 := nq * np * nphi * nx) in *. clearbody w w1.
  split; [ | split; lia ]. unfold Plm_1_entry, len. um; [ reflexivity | reflexivity | auto | lia | lia | lia ].
Qed.
Lemma t_G_entry : cval G G_entry = Ok (U64, f * nx + x) /\ 0 <= f * nx + x < nphi * nx.
Proof.
  destruct idx_up as (I1 & I2 & I3 & I4 & I5 & I6 & I7 & I8 & I9). destruct sizes_up as (A1 & A2 & A3 & A4 & A5 & A6 & A7 & A8 & A9 & A10). assert (T : two64 = 18446744073709551616) by reflexivity. change (2 ^ 31) with 2147483648 in *.
  split; [ | lia ]. unfold G_entry, phi_i, Nx, x_i. ua; [ um; [ reflexivity | reflexivity | auto | | | ] | reflexivity | auto | | | ]; cbn [fst snd]; lia.
Qed.
End Tables.

(* numbers of pairs of cells *)
Section Pairs.
Variables np nq q' p' q p : Z.
Hypotheses (Hnp : 1 <= np) (Hnq : 1 <= nq) (HC : nq * np < 2 ^ 31).
Hypotheses (Hq' : 0 <= q' < nq) (Hp' : 0 <= p' < np) (Hq : 0 <= q < nq) (Hp : 0 <= p < np).
Let G := ints [("Np_WP", np); ("Nq_WP", nq)]%string.
Lemma pair_up : np < 2 ^ 31 /\ nq < 2 ^ 31 /\ np * (nq * np) <= 2 ^ 31 * 2 ^ 31 /\ nq * np * (nq * np) <= 2 ^ 31 * 2 ^ 31 /\ 1 <= nq * np.
Proof.
  assert (A := grow np nq ltac:(lia) Hnq). rewrite (Z.mul_comm np nq) in A. assert (B := grow nq np ltac:(lia) Hnp). assert (D : 1 <= nq * np) by lia. split; [ lia | ]. split; [ lia | ].
  change (2 ^ 31) with 2147483648 in *. split; [ apply Z.mul_le_mono_nonneg; lia | ]. split; [ apply Z.mul_le_mono_nonneg; lia | exact D ].
Qed.
Lemma t_steps : cval G step_1 = Ok (U64, np * (nq * np)) /\ cval G step_2 = Ok (U64, nq * np) /\ cval G step_3 = Ok (U64, np).
Proof.
  destruct pair_up as (A1 & A2 & A3 & A4 & A5). assert (T : two64 = 18446744073709551616) by reflexivity. change (2 ^ 31) with 2147483648 in *.
  assert (N : 0 <= np * nq) by (apply Z.mul_nonneg_nonneg; lia). assert (E : np * nq = nq * np) by ring. assert (E2 : np * nq * np = np * (nq * np)) by ring.
  split; [ | split ].
  - eapply val_eq; [ | exact E2 ]. unfold step_1, Np, Nq. um; [ um; [ eapply u_cast; [ reflexivity | ] | reflexivity | auto | | | ] | reflexivity | auto | | | ]; cbn [fst snd]; rewrite ?E2; set (w := np * (nq * np)) in *; set (w1 := np * nq) in *; set (w2 := nq * np) in *; clearbody w w1 w2; lia.
  - unfold step_2, Np, Nq. um; [ eapply u_cast; [ reflexivity | ] | reflexivity | auto | | | ]; cbn [fst snd]; lia.
  - unfold step_3, Np. eapply u_cast; [ reflexivity | ]; cbn [fst snd]; lia.
Qed.
Lemma t_pair_cell : cval (app (sizes [("qp_idx_WP", q'); ("pp_idx_WP", p'); ("idx_q_bin", q); ("idx_p_bin", p)]%string) (sizes [("step_length_1", np * (nq * np)); ("step_length_2", nq * np); ("step_length_3", np)]%string)) pair_cell
    = Ok (U64, (q' * np + p') * (nq * np) + (q * np + p)) /\ 0 <= (q' * np + p') * (nq * np) + (q * np + p) < nq * nq * np * np.
Proof.
  destruct pair_up as (A1 & A2 & A3 & A4 & A5). assert (T : two64 = 18446744073709551616) by reflexivity. change (2 ^ 31) with 2147483648 in *.
  assert (X1 := inside q' p' np nq Hq' Hp'). assert (X2 := inside q p np nq Hq Hp). assert (X := inside _ _ _ _ X1 X2).
  assert (E : (q' * np + p') * (nq * np) + (q * np + p) = q' * (np * (nq * np)) + p' * (nq * np) + q * np + p) by ring.
  assert (N1 : 0 <= q' * (np * (nq * np))) by (apply Z.mul_nonneg_nonneg; [ lia | apply Z.mul_nonneg_nonneg; lia ]). assert (N2 : 0 <= p' * (nq * np)) by (apply Z.mul_nonneg_nonneg; lia). assert (N3 : 0 <= q * np) by (apply Z.mul_nonneg_nonneg; lia). assert (N4 : 0 <= np * (nq * np)) by (apply Z.mul_nonneg_nonneg; lia).
  split; [ | replace (nq * nq * np * np) with (nq * np * (nq * np)) by ring; exact X ].
  rewrite E in X. eapply val_eq; [ | exact (eq_sym E) ]. unfold pair_cell, qp, pp, qbin, pbin.
  set (w := nq * np * (nq * np)) in *. set (w1 := q' * (np * (nq * np))) in *. set (w2 := p' * (nq * np)) in *. set (w3 := q * np) in *. set (w4 := np * (nq * np)) in *. set (w5 := nq * np) in *.
  ua; [ ua; [ ua; [ um; [ eapply u_cast; [ reflexivity | ] | reflexivity | auto | | | ] | um; [ reflexivity | reflexivity | auto | | | ] | auto | | | ] | um; [ reflexivity | reflexivity | auto | | | ] | auto | | | ] | reflexivity | auto | | | ]; cbn [fst snd]; fold w1; fold w2; fold w3; clear X1 X2 E; clearbody w w1 w2 w3 w4 w5; lia.
Qed.
End Pairs.
