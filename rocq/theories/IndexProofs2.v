From Coq Require Import String Lia.
From Verif Require Import Common IndexModel IndexSpec IndexProofs.
Open Scope Z_scope.

(* positions inside the arrays *)
Lemma in_square c n r k d : 0 <= c < n -> 0 <= r < d -> 0 <= k < d -> 0 <= c * (d * d) + r * d + k < d * d * n.
Proof.
  intros Hc Hr Hk. assert (D : 0 <= d * d) by (apply Z.mul_nonneg_nonneg; lia). assert (A : 0 <= r * d + k < d * d) by (apply inside; assumption).
  assert (B := inside c (r * d + k) (d * d) n Hc A). rewrite (Z.mul_comm (d * d) n). lia.
Qed.
Lemma in_packed c n r k d half before : 0 <= c < n -> 0 <= r < d -> r <= k < d -> d * (d + 1) = 2 * half -> 2 * before = r * (2 * d - r + 1) -> 0 <= c * half + (before + (k - r)) < half * n.
Proof.
  intros Hc Hr Hk H1 H2. assert (T : 0 <= (d - r) * (d - r - 1)) by (apply Z.mul_nonneg_nonneg; lia). assert (B0 : 0 <= r * (2 * d - r + 1)) by (apply Z.mul_nonneg_nonneg; lia).
  assert (A : 0 <= before + (k - r) < half) by lia. rewrite (Z.mul_comm half n). exact (inside c _ half n Hc A).
Qed.
Section Indices.
Variables np nq na nu nc : Z.
Hypothesis F : sizes_fit np nq na nu nc.
Ltac open := destruct F as [P1 P2 P3 P4 P5 P6 P7 P8 P9].

Section Coupled.
Variables c r k : Z.
Hypotheses (Hc : 0 <= c < nc) (Hr : 0 <= r < np) (Hk : 0 <= k < np).
Let G := ints [("Np_WP", np); ("chn_idx", c); ("idx_bin_r", r); ("idx_bin_c", k)]%string.
Lemma coupled_facts : 0 <= c /\ c <= c * 4 /\ c * 4 <= c * 4 * np /\ c * 4 * np <= c * 4 * np * np /\ c * 4 * np * np <= 4 * (np * np) * nc - 4 * (np * np) /\
  0 <= r * 2 /\ r * 2 <= r * 2 * np /\ r * 2 * np <= 2 * (np * np) - 2 * np /\ (r + np) * 2 <= (r + np) * 2 * np /\ (r + np) * 2 * np <= 4 * (np * np) - 2 * np /\ 4 * (np * np) * nc < 2 ^ 31 /\ 1 <= np /\ np <= np * np.
Proof. destruct (sq_coup _ _ _ _ _ F) as (A & B). open. repeat split; try lia; nia. Qed.
Lemma i_upper_left : cval G V_upper_left = Ok (I32, c * (2 * np * (2 * np)) + r * (2 * np) + k).
Proof. destruct coupled_facts as (A1 & A2 & A3 & A4 & A5 & A6 & A7 & A8 & A9 & A10 & A11 & A12 & A13). eapply val_eq; [ unfold V_upper_left, Np, chn, bin_r, bin_c; cv; lia | cbn [fst snd]; ring ]. Qed.
Lemma i_upper_right : cval G V_upper_right = Ok (I32, c * (2 * np * (2 * np)) + r * (2 * np) + (np + k)).
Proof. destruct coupled_facts as (A1 & A2 & A3 & A4 & A5 & A6 & A7 & A8 & A9 & A10 & A11 & A12 & A13). eapply val_eq; [ unfold V_upper_right, Np, chn, bin_r, bin_c; cv; lia | cbn [fst snd]; ring ]. Qed.
Lemma i_lower_left : cval G V_lower_left = Ok (I32, c * (2 * np * (2 * np)) + (np + r) * (2 * np) + k).
Proof. destruct coupled_facts as (A1 & A2 & A3 & A4 & A5 & A6 & A7 & A8 & A9 & A10 & A11 & A12 & A13). eapply val_eq; [ unfold V_lower_left, Np, chn, bin_r, bin_c; cv; lia | cbn [fst snd]; ring ]. Qed.
Lemma i_lower_right : cval G V_lower_right = Ok (I32, c * (2 * np * (2 * np)) + (np + r) * (2 * np) + (np + k)).
Proof. destruct coupled_facts as (A1 & A2 & A3 & A4 & A5 & A6 & A7 & A8 & A9 & A10 & A11 & A12 & A13). eapply val_eq; [ unfold V_lower_right, Np, chn, bin_r, bin_c; cv; lia | cbn [fst snd]; ring ]. Qed.
End Coupled.

Section Uncoupled.
Variables c r k : Z.
Hypotheses (Hc : 0 <= c < nu) (Hr : 0 <= r < np) (Hk : 0 <= k < np).
Let G := ints [("Np_WP", np); ("chn_idx", c); ("idx_bin_r", r); ("idx_bin_c", k)]%string.
Lemma i_uncoupled : cval G V_uncoupled = Ok (I32, c * (np * np) + r * np + k).
Proof.
  destruct (sq_unco _ _ _ _ _ F) as (A & B & C & D). open.
  assert (c <= c * np <= c * np * np) by (split; apply grow; nia). assert (c * np * np <= np * np * nu - np * np) by nia. assert (0 <= r * np <= np * np - np) by nia.
  eapply val_eq; [ unfold V_uncoupled, Np, chn, bin_r, bin_c; cv; lia | cbn [fst snd]; ring ].
Qed.
End Uncoupled.

(* blocks of the stored matrices: d rows (np or 2 np), n channels *)
Section Blocks.
Variables d n c : Z.
Hypotheses (Hd : d = np /\ n = nu \/ d = 2 * np /\ n = nc) (Hc : 0 <= c < n).
Lemma block_facts : 1 <= d /\ d * (d + 1) < 2 ^ 31 /\ d * (d + 1) * n < 2 ^ 31.
Proof. destruct (sq_unco _ _ _ _ _ F) as (A & B & C & D). open. destruct Hd as [[-> ->]|[-> ->]]; repeat split; nia. Qed.
Lemma i_H_block t : d * (d + 1) = 2 * t -> cval (ints [("mat_dim", d); ("chn_idx", c)]%string) H_block = Ok (I32, c * t).
Proof.
  intros Ht. destruct block_facts as (A & B & C). assert (c <= c * d <= c * d * (d + 1)) by (split; apply grow; nia). assert (c * d * (d + 1) <= d * (d + 1) * n) by nia.
  unfold H_block, chn, dim. eapply i_half; [ cv; lia | cbn [fst snd]; nia | nia | cbn [fst snd]; lia ].
Qed.
Lemma i_V_block : cval (ints [("mat_dim", d); ("chn_idx", c)]%string) V_block = Ok (I32, c * (d * d)).
Proof.
  destruct block_facts as (A & B & C). assert (c <= c * d <= c * d * d) by (split; apply grow; nia). assert (c * d * d <= d * (d + 1) * n) by nia.
  eapply val_eq; [ unfold V_block, chn, dim; cv; lia | cbn [fst snd]; ring ].
Qed.
End Blocks.
Section Elements.
Variables d r k : Z.
Hypotheses (Hd : d = np \/ d = 2 * np) (Hr : 0 <= r < d) (Hk : r <= k < d).
Lemma d_facts : 1 <= d /\ d * (d + 1) < 2 ^ 31.
Proof. destruct (sq_unco _ _ _ _ _ F) as (A & B & C & D). open. destruct Hd as [->| ->]; split; nia. Qed.
(* position (r,k) of the upper triangle stored row by row: the r first rows hold d, d-1, ..., d-r+1 elements *)
Lemma i_triangle s : 2 * s = r * (2 * d - r + 1) -> cval (ints [("mat_dim", d); ("idx_bin_r", r); ("idx_bin_c", k)]%string) triangle = Ok (I32, s + (k - r)).
Proof.
  intros Hs. destruct d_facts as (A & B).
  destruct (even_prod (d - 1) ltac:(lia)) as (t1 & E1 & T1). destruct (even_prod (d - r - 1) ltac:(lia)) as (t2 & E2 & T2).
  assert (M : (d - r - 1) * (d - r - 1 + 1) <= (d - 1) * (d - 1 + 1)) by (apply Z.mul_le_mono_nonneg; lia). assert (t2 <= t1) by lia.
  assert (M2 : (d - 1) * (d - 1 + 1) <= d * (d + 1)) by (apply Z.mul_le_mono_nonneg; lia). assert (t1 < 2 ^ 30) by lia.
  assert (X1 : d * (d - 1) = 2 * t1) by lia. assert (X2 : (d - r) * (d - r - 1) = 2 * t2) by lia. assert (X3 : t1 - t2 + r = s) by lia.
  eapply val_eq.
  - unfold triangle, dim, bin_r, bin_c. eapply i_add; [ eapply i_sub; [ eapply i_half with (k := t1); [ cv; lia | cbn [fst snd]; lia | lia | cbn [fst snd]; lia ] | eapply i_half with (k := t2); [ cv; lia | cbn [fst snd]; lia | lia | cbn [fst snd]; lia ] | lia ] | reflexivity | cbn [fst snd]; lia ].
  - cbn [fst snd]. lia.
Qed.
Lemma i_V_element k' : 0 <= k' < d -> cval (ints [("mat_dim", d); ("idx_bin_r", r); ("idx_bin_c", k')]%string) V_element = Ok (I32, r * d + k').
Proof. intros Hk'. destruct d_facts as (A & B). eapply val_eq; [ unfold V_element, dim, bin_r, bin_c; cv; nia | reflexivity ]. Qed.
End Elements.

Lemma i_e_unco c : 0 <= c < nu -> cval (ints [("Np_WP", np); ("chn_idx", c)]%string) e_unco = Ok (I32, c * (np + 1)).
Proof. intros Hc. destruct (sq_unco _ _ _ _ _ F) as (A & B & C & D). open. assert (c * (np + 1) <= np * (np + 1) * nu) by nia. eapply val_eq; [ unfold e_unco, Np, chn; cv; nia | reflexivity ]. Qed.
Lemma e_facts c : 0 <= c < nc -> 0 <= c /\ c * 2 <= c * 2 * (np + 1) /\ c * 2 * (np + 1) + np + 1 < 2 ^ 31 /\ 1 <= np.
Proof. intros Hc. open. assert (c * 2 * (np + 1) <= 2 * (np + 1) * nc - 2 * (np + 1)) by nia. assert (2 * (np + 1) * nc <= 2 * np * (2 * np + 1) * nc) by nia. repeat split; nia. Qed.
Lemma i_e_coup_1 c : 0 <= c < nc -> cval (ints [("Np_WP", np); ("chn_idx", c)]%string) e_coup_1 = Ok (I32, c * (2 * (np + 1))).
Proof. intros Hc. destruct (e_facts c Hc) as (A & B & C & D). eapply val_eq; [ unfold e_coup_1, Np, chn; cv; lia | cbn [fst snd]; ring ]. Qed.
Lemma i_e_coup_2 c : 0 <= c < nc -> cval (ints [("Np_WP", np); ("chn_idx", c)]%string) e_coup_2 = Ok (I32, c * (2 * (np + 1)) + (np + 1)).
Proof. intros Hc. destruct (e_facts c Hc) as (A & B & C & D). eapply val_eq; [ unfold e_coup_2, Np, chn; cv; lia | cbn [fst snd]; ring ]. Qed.

(* cells of the channel *)
Section Cells.
Variables a q p : Z.
Hypotheses (Ha : 0 <= a < na) (Hq : 0 <= q < nq) (Hp : 0 <= p < np).
Lemma cell_facts : a <= a * nq <= a * nq * np /\ a <= a * np <= a * np * nq /\ a * nq * np <= na * nq * np - nq * np /\ 0 <= q * np <= nq * np - np /\ 1 <= nq * np /\ a * nq * np + q * np + p < na * nq * np.
Proof.
  destruct (cells3 _ _ _ _ _ F) as (A1 & A2 & A3 & A4 & A5 & A6). open.
  assert (B1 := grow a nq ltac:(lia) P2). assert (B2 := grow (a * nq) np ltac:(lia) P1). assert (B3 := grow a np ltac:(lia) P1). assert (B4 := grow (a * np) nq ltac:(lia) P2).
  assert (B5 := below a na (nq * np) Ha A6). assert (B6 := below q nq np Hq P1). repeat split; lia.
Qed.
Lemma i_G_cell : cval (ints [("Np_WP", np); ("Nq_WP", nq); ("idx_alpha", a); ("idx_q_bin", q); ("idx_p_bin", p)]%string) G_cell = Ok (I32, (a * nq + q) * np + p).
Proof. destruct cell_facts as (A1 & A2 & A3 & A4 & A5 & A6). open. clear P3 P4 P5 P6 P7 P8. eapply val_eq; [ unfold G_cell, Np, Nq, alpha, qbin, pbin; cv; lia | cbn [fst snd]; ring ]. Qed.
Lemma i_bounds_cell : cval (ints [("Np_WP", np); ("Nq_WP", nq); ("idx_alpha", a); ("idx_q_bin", q); ("idx_p_bin", p)]%string) bounds_cell = Ok (I32, (a * nq + q) * np + p).
Proof.
  destruct cell_facts as (A1 & A2 & A3 & A4 & A5 & A6). open. clear P3 P4 P5 P6 P7 P8. assert (a * np * nq = a * nq * np) by ring. assert (a * nq <= a * nq * np) by lia.
  eapply val_eq; [ unfold bounds_cell, Np, Nq, alpha, qbin, pbin; cv; lia | cbn [fst snd]; ring ].
Qed.
Lemma i_bounds_entry k : 0 <= k <= 3 -> cval (ints [("idx", (a * nq + q) * np + p)]%string) (bounds_entry k) = Ok (I32, 4 * ((a * nq + q) * np + p) + k).
Proof.
  intros Hk. destruct cell_facts as (A1 & A2 & A3 & A4 & A5 & A6). open. clear P3 P4 P5 P6 P7 P8. assert ((a * nq + q) * np + p = a * nq * np + q * np + p) by ring.
  eapply val_eq; [ unfold bounds_entry; cv; lia | cbn [fst snd]; ring ].
Qed.
(* in make_permutation_matrix.cpp the three indices are size_t *)
Lemma i_P123_row : cval (app (ints [("Np_WP", np); ("Nq_WP", nq)]%string) (sizes [("idx_alpha", a); ("idx_q_bin", q); ("idx_p_bin", p)]%string)) P123_row = Ok (U64, (a * nq + q) * np + p).
Proof.
  destruct cell_facts as (A1 & A2 & A3 & A4 & A5 & A6). open. clear P3 P4 P5 P6 P7 P8. destruct (cells3 _ _ _ _ _ F) as (B1 & B2 & B3 & B4 & B5 & B6). assert (nq <= nq * np) by (apply grow; lia). assert (np <= nq * np) by (rewrite Z.mul_comm; apply grow; lia). assert (two64 = 18446744073709551616) as E by reflexivity. change (2 ^ 31) with 2147483648 in *.
  set (w := a * nq * np) in *. set (w1 := a * nq) in *. set (w2 := q * np) in *. set (w3 := na * nq * np) in *. set (w4 := nq * np) in *. clear B1 B2 B3 B4 A2.
  assert (0 <= w1 /\ 0 <= a) as [W1 W2] by lia.
  eapply val_eq.
  - unfold P123_row, Np, Nq, alpha, qbin, pbin.
    eapply u_add; [ eapply u_add; [ eapply u_mul; [ eapply u_mul; [ reflexivity | reflexivity | auto | | | ] | reflexivity | auto | | | ] | eapply u_mul; [ reflexivity | reflexivity | auto | | | ] | auto | | | ] | reflexivity | auto | | | ]; cbn [fst snd]; lia.
  - cbn [fst snd]. subst w w1 w2 w3 w4. ring.
Qed.
(* (alpha, q, p) recovered from the number of a column *)
Lemma i_col : let G := sizes [("Np_WP", np); ("Nq_WP", nq); ("idx_col", (a * nq + q) * np + p)]%string in
  cval G col_alpha = Ok (U64, a) /\ cval G col_q = Ok (U64, q) /\ cval G col_p = Ok (U64, p).
Proof.
  intros G. destruct cell_facts as (A1 & A2 & A3 & A4 & A5 & A6). open. destruct (cells3 _ _ _ _ _ F) as (B1 & B2 & B3 & B4 & B5 & B6). assert (N1 : nq <= nq * np) by (apply grow; lia). assert (N2 : np <= nq * np) by (rewrite Z.mul_comm; apply grow; lia).
  assert (T : two64 = 18446744073709551616) by reflexivity. change (2 ^ 31) with 2147483648 in *.
  set (x := (a * nq + q) * np + p) in *. assert (X0 : x = a * nq * np + q * np + p) by (unfold x; ring). assert (X1 : x = a * (np * nq) + (q * np + p)) by (unfold x; ring). assert (X3 : x = (a * nq + q) * np + p) by reflexivity.
  assert (Q : np * nq = nq * np) by ring. clearbody x.
  assert (R : (0 <= x < two64) /\ (1 <= nq * np < two64) /\ (1 <= np < two64) /\ (0 <= nq < two64) /\ (0 <= q * np + p < nq * np)).
  { clear X1 X3 Q P6 P7 P8 B1 B2 B3 B4 A2. set (w := a * nq * np) in *. set (w1 := a * nq) in *. set (w2 := q * np) in *. set (w3 := na * nq * np) in *. set (w4 := nq * np) in *. clearbody w w1 w2 w3 w4. lia. }
  clear A1 A2 A3 A4 A5 A6 B1 B2 B3 B4 B5 B6 P3 P4 P5 P6 P7 P8 P9 N1 N2 X0 Ha F. rewrite <- Q in R. destruct R as (R1 & R2 & R3 & R4 & R5').
  assert (R5 : 0 <= q * np + p < two64) by (clear - R5' R2; set (w := q * np + p) in *; clearbody w; set (w' := np * nq) in *; clearbody w'; lia).
  assert (R0 : np * nq <> 0) by (clear - R2; intros Z0; rewrite Z0 in R2; lia).
  assert (M : x mod (np * nq) = q * np + p) by (rewrite X1, Z.add_comm, Z.mod_add by exact R0; apply Z.mod_small; exact R5').
  assert (D : x / (np * nq) = a) by (rewrite X1, Z.div_add_l by exact R0; rewrite Z.div_small by exact R5'; ring).
  assert (R6 : np <> 0) by (clear - R3; lia).
  assert (D2 : (q * np + p) / np = q) by (rewrite Z.div_add_l by exact R6; rewrite Z.div_small by exact Hp; ring).
  assert (M2 : x mod np = p) by (rewrite X3, Z.add_comm, Z.mod_add by exact R6; apply Z.mod_small; exact Hp).
  clear - D D2 M M2 R1 R2 R3 R4 R5.
  split; [ | split ].
  - eapply val_eq; [ unfold col_alpha, Np, Nq; eapply u_div; [ reflexivity | eapply u_mul; [ reflexivity | reflexivity | auto | | | ] | auto | | ]; cbn [fst snd]; try exact R1; try exact R2; clear - R2 R3 R4; lia | exact D ].
  - eapply val_eq; [ unfold col_q, Np, Nq; eapply u_div; [ eapply u_mod; [ reflexivity | eapply u_mul; [ reflexivity | reflexivity | auto | | | ] | auto | | ] | reflexivity | auto | | ]; cbn [fst snd]; rewrite ?M; try exact R1; try exact R2; try exact R3; try exact R5; clear - R2 R3 R4; lia | cbn [fst snd]; rewrite M; exact D2 ].
  - eapply val_eq; [ unfold col_p, Np; eapply u_mod; [ reflexivity | reflexivity | auto | | ]; cbn [fst snd]; try exact R1; exact R3 | exact M2 ].
Qed.
End Cells.
(* blocks of C^T: int times size_t *)
Lemma i_CT_unco c : 0 <= c < nu -> cval (app (ints [("chn_idx", c)]%string) (sizes [("Np_WP", np)]%string)) CT_unco = Ok (U64, c * (np * np)).
Proof.
  intros Hc. destruct (sq_unco _ _ _ _ _ F) as (A & B & C & D). open. assert (c <= c * np <= c * np * np) by (split; apply grow; nia). assert (c * np * np <= np * np * nu - np * np) by nia. assert (np <= np * np) by nia. assert (two64 = 2 ^ 64) as E by reflexivity.
  eapply val_eq; [ unfold CT_unco, chn, Np; eapply u_mul; [ eapply u_mul; [ reflexivity | reflexivity | auto | | | ] | reflexivity | auto | | | ]; cbn [fst snd]; lia | cbn [fst snd]; ring ].
Qed.
Lemma i_CT_coup c : 0 <= c < nc -> cval (app (ints [("chn_idx", c)]%string) (sizes [("Np_WP", np)]%string)) CT_coup = Ok (U64, c * (4 * (np * np))).
Proof.
  intros Hc. destruct (sq_coup _ _ _ _ _ F) as (A & B). open. assert (c <= c * 4 <= c * 4 * np) by (split; apply grow; nia). assert (c * 4 * np <= c * 4 * np * np) by (apply grow; nia). assert (c * 4 * np * np <= 4 * (np * np) * nc - 4 * (np * np)) by nia. assert (np <= np * np) by nia. assert (two64 = 2 ^ 64) as E by reflexivity.
  eapply val_eq; [ unfold CT_coup, chn, Np; eapply u_mul; [ eapply u_mul; [ eapply i_mul; [ reflexivity | eapply i_lit; lia | ] | reflexivity | auto | | | ] | reflexivity | auto | | | ]; cbn [fst snd]; lia | cbn [fst snd]; ring ].
Qed.
Lemma i_CT_quarter c k : 0 <= c < nc -> 0 <= k < 4 -> cval (sizes [("idx_2N_mat_WP_coup", c * (4 * (np * np))); ("Np_WP", np)]%string) (CT_quarter k) = Ok (U64, c * (4 * (np * np)) + k * (np * np)).
Proof.
  intros Hc Hk. destruct (sq_coup _ _ _ _ _ F) as (A & B). open. assert (c * (4 * (np * np)) <= 4 * (np * np) * nc - 4 * (np * np)) by nia. assert (0 <= k * np <= k * np * np) by nia. assert (k * np * np <= 3 * (np * np)) by (rewrite <- Z.mul_assoc; apply Z.mul_le_mono_nonneg_r; [ apply Z.mul_nonneg_nonneg | ]; lia). assert (np <= np * np) by (apply grow; lia).
  assert (0 <= c * (4 * (np * np))) by nia. assert (two64 = 2 ^ 64) as E by reflexivity.
  eapply val_eq; [ unfold CT_quarter, Np; eapply u_add; [ reflexivity | eapply u_mul; [ eapply u_mul; [ eapply i_lit; lia | reflexivity | auto | | | ] | reflexivity | auto | | | ] | auto | | | ]; cbn [fst snd]; lia | cbn [fst snd]; ring ].
Qed.
(* solve_faddeev.cpp l.424: amplitude of (row state, column state, energy) *)
Lemma i_U_cell nd nT r c j : 0 <= r < nd -> 0 <= c < nd -> 0 <= j < nT -> nd * nd * nT < two64 ->
  cval (sizes [("idx_d_row", r); ("num_deuteron_states", nd); ("num_q_com", nT); ("idx_d_col", c); ("idx_q_com", j)]%string) U_cell = Ok (U64, (r * nd + c) * nT + j).
Proof.
  intros Hr Hc Hj HT. clear F. assert (D1 : 1 <= nd) by lia. assert (D2 : 1 <= nT) by lia. assert (D3 : 1 <= nd * nT) by (assert (X := grow nd nT ltac:(lia) D2); lia).
  assert (D4 : 0 <= r * nd) by (apply Z.mul_nonneg_nonneg; lia). assert (D5 : 0 <= c * nT) by (apply Z.mul_nonneg_nonneg; lia).
  assert (A1 := grow r nd ltac:(lia) D1). assert (A2 := grow (r * nd) nT D4 D2). assert (A3 := below r nd (nd * nT) Hr D3). assert (A4 := below c nd nT Hc D2).
  assert (A5 := grow nT nd ltac:(lia) D1). assert (A6 := grow nd nT ltac:(lia) D2). assert (A7 := grow (nd * nT) nd ltac:(lia) D1). rewrite (Z.mul_comm nT nd) in A5.
  replace (r * (nd * nT)) with (r * nd * nT) in A3 by ring. replace (nd * (nd * nT)) with (nd * nd * nT) in A3 by ring. replace (nd * nT * nd) with (nd * nd * nT) in A7 by ring.
  eapply val_eq.
  - unfold U_cell. eapply u_add; [ eapply u_add; [ eapply u_mul; [ eapply u_mul; [ reflexivity | reflexivity | auto | | | ] | reflexivity | auto | | | ] | eapply u_mul; [ reflexivity | reflexivity | auto | | | ] | auto | | | ] | reflexivity | auto | | | ]; cbn [fst snd];
    set (w := r * nd * nT) in *; set (w1 := r * nd) in *; set (w2 := c * nT) in *; set (w3 := nd * nd * nT) in *; set (w4 := nd * nT) in *; clearbody w w1 w2 w3 w4; lia.
  - cbn [fst snd]. ring.
Qed.
Lemma i_phi nphi : 1 <= nphi -> nq * np * nphi < 2 ^ 31 -> cval (ints [("Np_WP", np); ("Nq_WP", nq); ("Nphi", nphi)]%string) phi_size = Ok (I32, nq * np * nphi).
Proof.
  intros Hn HL. destruct (cells3 _ _ _ _ _ F) as (B1 & B2 & B3 & B4 & B5 & B6). assert (A := grow (nq * np) nphi ltac:(lia) Hn).
  eapply val_eq; [ unfold phi_size, Np, Nq; cv; lia | reflexivity ].
Qed.
Lemma i_WP_cells : cval (ints [("Np_WP", np); ("Nq_WP", nq)]%string) WP_cells = Ok (U64, nq * nq * np * np).
Proof.
  destruct (cells3 _ _ _ _ _ F) as (B1 & B2 & B3 & B4 & B5 & B6). open. assert (T : two64 = 18446744073709551616) by reflexivity. change (2 ^ 31) with 2147483648 in *.
  assert (L : nq * np < 2 ^ 29) by (change (2 ^ 29) with 536870912; lia). clear B1 B2 B3 B4 B5 P3 P4 P5 P6 P7 P8 P9.
  assert (N1 := grow nq np ltac:(lia) P1). assert (N2 := grow np nq ltac:(lia) P2). rewrite (Z.mul_comm np nq) in N2. change (2 ^ 29) with 536870912 in L.
  assert (S1 : nq * nq <= 536870912 * 536870912) by (apply Z.mul_le_mono_nonneg; lia). assert (S2 : nq * nq * np <= 536870912 * 536870912).
  { rewrite <- Z.mul_assoc. apply Z.mul_le_mono_nonneg; lia. }
  assert (S3 : nq * nq * np * np <= 536870912 * 536870912). { replace (nq * nq * np * np) with (nq * np * (nq * np)) by ring. apply Z.mul_le_mono_nonneg; lia. }
  assert (Z1 : 0 <= nq * nq) by (apply Z.mul_nonneg_nonneg; lia). assert (Z2 : 0 <= nq * nq * np) by (apply Z.mul_nonneg_nonneg; lia).
  unfold WP_cells, Np, Nq. eapply u_mul; [ eapply u_mul; [ eapply u_mul; [ eapply u_cast; [ reflexivity | ] | reflexivity | auto | | | ] | reflexivity | auto | | | ] | reflexivity | auto | | | ]; cbn [fst snd];
    set (w := nq * nq * np * np) in *; set (w1 := nq * nq * np) in *; set (w2 := nq * nq) in *; clearbody w w1 w2; clear F; lia.
Qed.
End Indices.
