From Coq Require Import String Lia.
From Verif Require Import Common IndexModel IndexSpec.
Open Scope Z_scope.

Lemma val_eq G e t v v' : cval G e = Ok (t, v') -> v' = v -> cval G e = Ok (t, v).
Proof. intros E <-. exact E. Qed.
Lemma ok_iff z : - 2 ^ 31 <= z < 2 ^ 31 -> int_ok z = true.
Proof. unfold int_ok. intros H. apply andb_true_intro. split; [ apply Z.leb_le | apply Z.ltb_lt ]; apply H. Qed.
Lemma i_arith f x y : - 2 ^ 31 <= f x y < 2 ^ 31 -> carith f (I32, x) (I32, y) = Ok (I32, f x y).
Proof. intros H. cbn [carith]. rewrite (ok_iff _ H). reflexivity. Qed.
Lemma i_lit G z : - 2 ^ 31 <= z < 2 ^ 31 -> cval G (Lit z) = Ok (I32, z).
Proof. intros H. cbn [cval]. rewrite (ok_iff _ H). reflexivity. Qed.
Lemma i_add G a b x y : cval G a = Ok (I32, x) -> cval G b = Ok (I32, y) -> - 2 ^ 31 <= x + y < 2 ^ 31 -> cval G (Add a b) = Ok (I32, x + y).
Proof. intros A B H. cbn [cval]. rewrite A, B. exact (i_arith Z.add x y H). Qed.
Lemma i_sub G a b x y : cval G a = Ok (I32, x) -> cval G b = Ok (I32, y) -> - 2 ^ 31 <= x - y < 2 ^ 31 -> cval G (Sub a b) = Ok (I32, x - y).
Proof. intros A B H. cbn [cval]. rewrite A, B. exact (i_arith Z.sub x y H). Qed.
Lemma i_mul G a b x y : cval G a = Ok (I32, x) -> cval G b = Ok (I32, y) -> - 2 ^ 31 <= x * y < 2 ^ 31 -> cval G (Mul a b) = Ok (I32, x * y).
Proof. intros A B H. cbn [cval]. rewrite A, B. exact (i_arith Z.mul x y H). Qed.
(* exact division of a non-negative int by 2 *)
Lemma i_half G a x k : cval G a = Ok (I32, x) -> x = 2 * k -> 0 <= k -> x < 2 ^ 31 -> cval G (Div a (Lit 2)) = Ok (I32, k).
Proof.
  intros A E Hk H. cbn [cval]. rewrite A, (i_lit G 2 ltac:(lia) : (if int_ok 2 then _ else _) = _). cbn [obind]. unfold cdivide. cbn [snd]. replace (2 =? 0) with false by reflexivity.
  assert (Q : Z.quot x 2 = k) by (rewrite E, Z.mul_comm; apply Z.quot_mul; lia).
  rewrite <- Q. apply i_arith. rewrite Q. lia.
Qed.
(* size_t operations: one operand a size_t, the other a size_t or a non-negative int *)
Definition is_size (o : outcome (cty * Z)) (z : Z) : Prop := exists t, o = Ok (t, z) /\ 0 <= z /\ (t = I32 \/ z < two64).
Lemma to_size_id t z : 0 <= z < two64 -> to_size (t, z) = z.
Proof. intros H. destruct t; [ exact (Z.mod_small _ _ H) | reflexivity ]. Qed.
Lemma u_arith f t t' x y : t = U64 \/ t' = U64 -> 0 <= x < two64 -> 0 <= y < two64 -> 0 <= f x y < two64 -> carith f (t, x) (t', y) = Ok (U64, f x y).
Proof.
  intros [->| ->] Hx Hy H; cbn [carith].
  - rewrite !to_size_id by assumption. rewrite Z.mod_small by assumption. reflexivity.
  - destruct t; rewrite !to_size_id by assumption; rewrite Z.mod_small by assumption; reflexivity.
Qed.
Lemma u_add G a b t t' x y : cval G a = Ok (t, x) -> cval G b = Ok (t', y) -> t = U64 \/ t' = U64 -> 0 <= x < two64 -> 0 <= y < two64 -> x + y < two64 -> cval G (Add a b) = Ok (U64, x + y).
Proof. intros A B T Hx Hy H. cbn [cval]. rewrite A, B. apply (u_arith Z.add); lia || assumption. Qed.
Lemma u_mul G a b t t' x y : cval G a = Ok (t, x) -> cval G b = Ok (t', y) -> t = U64 \/ t' = U64 -> 0 <= x < two64 -> 0 <= y < two64 -> x * y < two64 -> cval G (Mul a b) = Ok (U64, x * y).
Proof. intros A B T Hx Hy H. cbn [cval]. rewrite A, B. apply (u_arith Z.mul); try assumption. nia. Qed.
Lemma u_div G a b t t' x y : cval G a = Ok (t, x) -> cval G b = Ok (t', y) -> t = U64 \/ t' = U64 -> 0 <= x < two64 -> 1 <= y < two64 -> cval G (Div a b) = Ok (U64, x / y).
Proof.
  intros A B T Hx Hy. cbn [cval]. rewrite A, B. cbn [obind]. unfold cdivide. cbn [snd]. replace (y =? 0) with false by (symmetry; apply Z.eqb_neq; lia).
  assert (Q : Z.quot x y = x / y) by (apply Z.quot_div_nonneg; lia).
  assert (R : 0 <= x / y < two64) by (split; [ apply Z.div_pos; lia | apply Z.le_lt_trans with x; [ apply Z.div_le_upper_bound; nia | lia ] ]).
  rewrite <- Q in *. exact (u_arith Z.quot t t' x y T Hx ltac:(lia) R).
Qed.
Lemma u_mod G a b t t' x y : cval G a = Ok (t, x) -> cval G b = Ok (t', y) -> t = U64 \/ t' = U64 -> 0 <= x < two64 -> 1 <= y < two64 -> cval G (Mod a b) = Ok (U64, x mod y).
Proof.
  intros A B T Hx Hy. cbn [cval]. rewrite A, B. cbn [obind]. unfold cdivide. cbn [snd]. replace (y =? 0) with false by (symmetry; apply Z.eqb_neq; lia).
  assert (Q : Z.rem x y = x mod y) by (apply Z.rem_mod_nonneg; lia).
  assert (R : 0 <= x mod y < two64) by (assert (0 <= x mod y < y) by (apply Z.mod_pos_bound; lia); lia).
  rewrite <- Q in *. exact (u_arith Z.rem t t' x y T Hx ltac:(lia) R).
Qed.
Lemma u_cast G a t x : cval G a = Ok (t, x) -> 0 <= x < two64 -> cval G (Cst a) = Ok (U64, x).
Proof. intros A H. cbn [cval]. rewrite A. cbn [obind]. rewrite to_size_id by exact H. reflexivity. Qed.

(* a*m + b < n*m *)
Lemma inside a b m n : 0 <= a < n -> 0 <= b < m -> 0 <= a * m + b < n * m.
Proof. intros A B. nia. Qed.
Lemma grow a b : 0 <= a -> 1 <= b -> a <= a * b.
Proof. nia. Qed.
Lemma below a n m : 0 <= a < n -> 1 <= m -> 0 <= a * m <= n * m - m.
Proof. nia. Qed.
Lemma even_prod n : 0 <= n -> exists k, n * (n + 1) = 2 * k /\ 0 <= k.
Proof. intros H. destruct (Z.Even_or_Odd n) as [[k ->]|[k ->]]; [ exists (k * (2 * k + 1)) | exists ((2 * k + 1) * (k + 1)) ]; split; nia. Qed.

Ltac cv := repeat first [ eapply i_add | eapply i_sub | eapply i_mul | eapply i_lit; lia | reflexivity ]; cbn [fst snd].
Ltac rng := first [ lia | nia ].

Section Sizes.
Variables np nq na nu nc : Z.
Hypothesis F : sizes_fit np nq na nu nc.
Let G0 : cenv := ints [("Np_WP", np); ("Nq_WP", nq); ("Nalpha", na); ("num_2N_unco_states", nu); ("num_2N_coup_states", nc)]%string.
Ltac open := destruct F as [P1 P2 P3 P4 P5 P6 P7 P8 P9].

Lemma sq_unco : 0 <= np * np /\ np * np <= np * np * nu /\ np * np * nu < 2 ^ 31 /\ np * (np + 1) <= np * (np + 1) * nu.
Proof. open. repeat split; nia. Qed.
Lemma sq_coup : 4 * (np * np) < 2 ^ 31 /\ 0 <= 4 * (np * np) * nc < 2 ^ 31.
Proof. open. repeat split; nia. Qed.
Lemma cells3 : 1 <= na * nq /\ na * nq <= na * nq * np /\ 1 <= na * np /\ na * np <= na * nq * np /\ nq * np <= na * nq * np /\ 1 <= nq * np.
Proof. open. assert (1 <= na * nq) by nia. assert (1 <= na * np) by nia. assert (1 <= nq * np) by nia. repeat split; try assumption; nia. Qed.

Lemma size_V_unco : cval G0 V_unco_size = Ok (I32, np * np * nu).
Proof. destruct sq_unco as (A & B & C & _). open. eapply val_eq; [ unfold V_unco_size, Np, n_unco; cv; lia | reflexivity ]. Qed.
Lemma size_V_coup : cval G0 V_coup_size = Ok (I32, 4 * (np * np) * nc).
Proof. destruct sq_coup as (A & B & C). open. eapply val_eq; [ unfold V_coup_size, Np, n_coup; cv; nia | cbn [fst snd]; ring ]. Qed.
Lemma size_dense : cval G0 dense_dim_main = Ok (I32, na * nq * np).
Proof. destruct cells3 as (A1 & A2 & A3 & A4 & A5 & A6). open. eapply val_eq; [ unfold dense_dim_main, Np, Nq, Na; cv; nia | cbn [fst snd]; ring ]. Qed.
Lemma size_P123 : cval G0 P123_dim = Ok (I32, na * nq * np).
Proof. destruct cells3 as (A1 & A2 & A3 & A4 & A5 & A6). open. eapply val_eq; [ unfold P123_dim, Np, Nq, Na; cv; nia | cbn [fst snd]; ring ]. Qed.
Lemma size_bounds : cval G0 bounds_size = Ok (I32, 4 * (na * nq * np)).
Proof.
  destruct cells3 as (A1 & A2 & A3 & A4 & A5 & A6). open. assert (na <= na * np) by nia. assert (4 * na * np * nq = 4 * (na * nq * np)) by ring.
  eapply val_eq; [ unfold bounds_size, Np, Nq, Na; cv; nia | cbn [fst snd]; ring ].
Qed.
Lemma size_H_unco k : np * (np + 1) = 2 * k -> cval G0 H_unco_size = Ok (I32, k * nu).
Proof.
  intros Hk. destruct sq_unco as (A & B & C & D). open. unfold H_unco_size, Np, n_unco. eapply i_mul; [ eapply i_half; [ cv; nia | exact Hk | nia | cbn [fst snd]; nia ] | reflexivity | cbn [fst snd]; nia ].
Qed.
Lemma size_H_coup : cval G0 H_coup_size = Ok (I32, np * (2 * np + 1) * nc).
Proof.
  open. unfold H_coup_size, Np, n_coup. eapply i_mul; [ eapply i_half; [ cv; nia | cbn [fst snd]; ring | nia | cbn [fst snd]; nia ] | reflexivity | cbn [fst snd]; nia ].
Qed.
Lemma size_e_unco : cval G0 e_unco_size = Ok (I32, (np + 1) * nu).
Proof. destruct sq_unco as (A & B & C & D). open. eapply val_eq; [ unfold e_unco_size, Np, n_unco; cv; nia | cbn [fst snd]; ring ]. Qed.
Lemma size_e_coup : cval G0 e_coup_size = Ok (I32, 2 * (np + 1) * nc).
Proof. open. eapply val_eq; [ unfold e_coup_size, Np, n_coup; cv; nia | cbn [fst snd]; ring ]. Qed.
End Sizes.
