From Coq Require Import Reals Lra ZifyBool.
From Verif Require Import Common ArrayLib PWModel PWSpec SwpModel SwpProofs GridSpec GridPropsLemmas
  PotentialModel PotentialSpec PotentialProofs PotentialMatProofs.
Open Scope Z_scope.

(* ---------- Legendre table ---------- *)
Lemma legendre_S n x : legendre (S n) x = (((2 * INR n + 1) * x * P n x - INR n * snd (legendre n x)) / (INR n + 1), P n x)%R.
Proof. unfold P. cbn [legendre]. destruct (legendre n x). reflexivity. Qed.
Lemma P_0 x : P 0 x = 1%R. Proof. reflexivity. Qed.
Lemma P_1 x : P 1 x = x. Proof. unfold P. cbn. field. Qed.
Lemma P_rec n x : P (S (S n)) x = (((2 * INR (S n) + 1) * x * P (S n) x - INR (S n) * P n x) / (INR (S n) + 1))%R.
Proof. unfold P at 1. rewrite legendre_S. cbn [fst]. rewrite (legendre_S n). reflexivity. Qed.

Definition row_is (z : list R) (d : nat) (row : list R) : Prop :=
  length row = length z /\ forall i, (i < length z)%nat -> nth i row 0%R = P d (nth i z 0%R).

Lemma legendre_next_ok l z curr prev : (1 <= l)%nat -> row_is z l curr -> row_is z (l - 1) prev ->
  exists row, legendre_next l z curr prev = Ok row /\ row_is z (S l) row.
Proof.
  intros Hl [Lc Hc] [Lp Hp]. unfold legendre_next.
  rewrite (ofold_ext _ (fun (acc : list R) i => awrite acc i (P (S l) (nth i z 0%R)))).
  2:{ intros i s Hi. apply in_seq in Hi. rewrite !areadn by lia. cbn [obind]. f_equal. unfold at_.
      rewrite Hc, Hp by lia. destruct l as [|m]; [ lia | ]. rewrite P_rec. replace (S m - 1)%nat with m by lia. reflexivity. }
  destruct (scatter (fun i : nat => i) (fun i => P (S l) (nth i z 0%R)) (seq 0 (length z)) (repeat 1%R (length z)))
    as (row & E & L & W & _).
  - intros i Hi. apply in_seq in Hi. rewrite repeat_length. lia.
  - intros i j _ _ ->. reflexivity.
  - exists row. split; [ exact E | ]. rewrite repeat_length in L. split; [ exact L | ].
    intros i Hi. apply nth_error_nth. apply W. apply in_seq. lia.
Qed.

Lemma legendre_table_ok L z : (1 <= L)%nat -> exists tab, legendre_table L z = Ok tab /\ length tab = S L /\
  forall d, (d <= L)%nat -> exists row, nth_error tab d = Some row /\ row_is z d row.
Proof.
  intros HL. unfold legendre_table.
  destruct (ofold_inv (fun dn tab => length tab = (length dn + 2)%nat /\
      forall d, (d < length dn + 2)%nat -> exists row, nth_error tab d = Some row /\ row_is z d row)
    (fun tab l => do curr <- aread tab l; do prev <- aread tab (l - 1); do row <- legendre_next l z curr prev; Ok (tab ++ [row]))
    (seq 1 (L - 1)) [repeat 1%R (length z); z]) as (tab & E & Ht & Hr).
  - split; [ reflexivity | ]. intros d Hd. cbn [length] in Hd. destruct d as [|[|]]; [ | | lia ]; cbn [nth_error];
      eexists; (split; [ reflexivity | ]); split.
    + apply repeat_length.
    + intros i Hi. rewrite P_0. apply nth_error_nth. apply nth_error_repeat. exact Hi.
    + reflexivity.
    + intros i Hi. rewrite P_1. reflexivity.
  - intros d l r tab Hl (Ht & Hr).
    assert (Hb : l = (length d + 1)%nat /\ (l < L)%nat).
    { pose proof (f_equal (fun l => nth (length d) l 0%nat) Hl) as H0. cbn beta in H0.
      pose proof (f_equal (@length nat) Hl) as H1. rewrite seq_length, app_length in H1. cbn [length] in H1.
      rewrite seq_nth in H0 by lia. rewrite app_nth2, Nat.sub_diag in H0 by lia. cbn in H0. lia. }
    destruct Hb as [-> Hb].
    destruct (Hr (length d + 1)%nat ltac:(lia)) as (cu & E1 & R1). destruct (Hr (length d + 1 - 1)%nat ltac:(lia)) as (pr & E2 & R2).
    rewrite (aread_some _ _ _ E1), (aread_some _ _ _ E2). cbn [obind].
    destruct (legendre_next_ok (length d + 1) z cu pr ltac:(lia) R1 R2) as (row & E & Rr). rewrite E. cbn [obind].
    eexists. split; [ reflexivity | ]. rewrite !app_length. cbn [length]. split; [ lia | ].
    intros d' Hd'. destruct (Nat.eq_dec d' (length d + 2)) as [->|Hne].
    + exists row. rewrite nth_error_app2 by lia. rewrite Ht, Nat.sub_diag. split; [ reflexivity | ].
      replace (length d + 2)%nat with (S (length d + 1)) by lia. exact Rr.
    + destruct (Hr d' ltac:(lia)) as (row' & E' & R'). exists row'. split; [ | exact R' ]. rewrite nth_error_app1 by lia. exact E'.
  - rewrite seq_length in Ht, Hr. exists tab. split; [ exact E | ]. split; [ lia | ]. intros d Hd. apply Hr. lia.
Qed.

(* ---------- one-pion exchange ---------- *)
Definition legtab (z : list R) (L : nat) (tab : list (list R)) : Prop :=
  forall d, (d <= L)%nat -> exists row, nth_error tab d = Some row /\ row_is z d row.

(* angular integral of the code: pi * sum_i w_i v(z_i) [z_i] P_J(z_i) *)
Definition ang (z wz : list R) (qi qo : R) (J : nat) (l1 : bool) : R :=
  (PI * sum (fun i => at_ wz i * pot_opep_mom qi qo (at_ z i) * (if l1 then at_ z i else 1) * P J (at_ z i)) (length wz))%R.

Lemma ang_ok z wz L tab qi qo J (l1 : bool) : legtab z L tab -> length wz = length z -> 0 <= J <= Z.of_nat L ->
  ang_integral tab z wz qi qo J l1 = Ok (ang z wz qi qo (Z.to_nat J) l1).
Proof.
  intros HT Hl HJ. unfold ang_integral, ang.
  destruct (HT (Z.to_nat J) ltac:(lia)) as (row & Er & Lr & Hr).
  destruct (ofold_inv (fun d (acc : R) => acc = sum (fun i => at_ wz i * pot_opep_mom qi qo (at_ z i) * (if l1 then at_ z i else 1) * P (Z.to_nat J) (at_ z i))%R (length d))
    (fun acc i =>
      do root <- fetch_root tab J i; do w <- aread wz i; do zi <- aread z i;
      Ok (acc + (if l1 then w * pot_opep_mom qi qo zi * zi * root else w * pot_opep_mom qi qo zi * root))%R)
    (seq 0 (length wz)) 0%R) as (s & E & Hs).
  - reflexivity.
  - intros d i r s Hd ->.
    assert (Hi : i = length d /\ (i < length wz)%nat).
    { pose proof (f_equal (fun l => nth (length d) l 0%nat) Hd) as H0. cbn beta in H0.
      pose proof (f_equal (@length nat) Hd) as H1. rewrite seq_length, app_length in H1. cbn [length] in H1.
      rewrite seq_nth in H0 by lia. rewrite app_nth2, Nat.sub_diag in H0 by lia. cbn in H0. lia. }
    destruct Hi as [-> Hi]. unfold fetch_root, zread. replace (J <? 0) with false by lia.
    rewrite (aread_some _ _ _ Er). cbn [obind]. rewrite !areadn by lia. cbn [obind].
    eexists. split; [ reflexivity | ]. rewrite app_length. cbn [length]. rewrite Nat.add_1_r, PermPropsLemmas.sum_S.
    f_equal. unfold at_ at 3. destruct l1.
    + unfold at_. rewrite Hr by lia. ring.
    + unfold at_. rewrite Hr by lia. ring.
  - rewrite E. cbn [obind]. rewrite Hs, seq_length. reflexivity.
Qed.

Lemma mom_sym qi qo z : pot_opep_mom qi qo z = pot_opep_mom qo qi z.
Proof. unfold pot_opep_mom. do 3 f_equal. ring. Qed.
Lemma ang_sym z wz qi qo J l1 : ang z wz qi qo J l1 = ang z wz qo qi J l1.
Proof. unfold ang. f_equal. apply sum_ext. intros i _. rewrite mom_sym. reflexivity. Qed.

Lemma iso_shift J : iso_fac (J - 1) 1 = iso_fac (J + 1) 1.
Proof.
  unfold iso_fac. replace (Z.land (1 - (J - 1) - 1) 1) with (Z.land (1 - (J + 1) - 1) 1); [ reflexivity | ].
  change 1 with (Z.ones 1) at 4 8. rewrite !Z.land_ones by lia. change (2 ^ 1) with 2.
  replace (1 - (J - 1) - 1) with (1 - (J + 1) - 1 + 1 * 2) by lia. rewrite Z_mod_plus_full. reflexivity.
Qed.

Definition opep6 (z wz : list R) (qi qo : R) (J : Z) : list R :=
  let I0 := ang z wz qi qo (Z.to_nat J) false in let I1 := ang z wz qi qo (Z.to_nat J) true in
  let IP := ang z wz qi qo (Z.to_nat (J + 1)) false in let IM := ang z wz qi qo (Z.to_nat (J - 1)) false in
  let jr := IZR J in
  let S0 := (2 * (- (qo * qo + qi * qi) * I0 + 2 * qo * qi * I1) * iso_fac J 0)%R in
  let pp := ((2 / (2 * jr + 1)) * (- (qo * qo + qi * qi) * IP + 2 * qo * qi * I0) * iso_fac (J + 1) 1)%R in
  let S1 := (2 * ((qo * qo + qi * qi) * I0 - 2 * qo * qi * (1 / (2 * jr + 1)) * (jr * IP + (jr + 1) * IM)) * iso_fac J 1)%R in
  let mm := ((2 / (2 * jr + 1)) * ((qo * qo + qi * qi) * IM - 2 * qo * qi * I0) * iso_fac (J - 1) 1)%R in
  let pm := ((4 * sqrt (jr * (jr + 1)) / (2 * jr + 1)) * (qi * qi * IP + qo * qo * IM - 2 * qo * qi * I0) * iso_fac (J - 1) 1)%R in
  let mp := ((4 * sqrt (jr * (jr + 1)) / (2 * jr + 1)) * (qi * qi * IM + qo * qo * IP - 2 * qo * qi * I0) * iso_fac (J + 1) 1)%R in
  if J =? 0 then [S0; 0; 0; 0; 0; pp]%R else [S0; S1; mm; pm; mp; pp].

Lemma opep_ok z wz L tab qi qo J : legtab z L tab -> length wz = length z -> 0 <= J -> J + 1 <= Z.of_nat L ->
  opep tab z wz qi qo J = Ok (opep6 z wz qi qo J).
Proof.
  intros HT Hl H0 H1. unfold opep, opep6. rewrite !(ang_ok z wz L tab) by (first [ assumption | lia ]). cbn [obind].
  destruct (J =? 0) eqn:E; cbn [negb]; [ reflexivity | ].
  rewrite !(ang_ok z wz L tab) by (first [ assumption | lia ]). reflexivity.
Qed.

Definition lo6 (z wz : list R) (M qi qo : R) (J : Z) : list R :=
  let coeff := (reg qi * reg qo * rel_factor M qi * rel_factor M qo / (8 * PI * PI * PI))%R in
  let V := opep6 z wz qi qo J in
  [ (at_ V 0 + (if (J =? 0)%Z then C1S0 else 0)) * coeff; at_ V 1 * coeff;
    (at_ V 2 + (if (J =? 1)%Z then C3S1 else 0)) * coeff; at_ V 3 * coeff; at_ V 4 * coeff; at_ V 5 * coeff ]%R.

Lemma lo_ok z wz cpl S J T Tz qi qo : length wz = length z -> 0 <= J <= 100 ->
  LO_internal z wz qi qo cpl S J T Tz = Ok (lo6 z wz MN qi qo J).
Proof.
  intros Hl HJ. unfold LO_internal. destruct (legendre_table_ok (100 + 1) z ltac:(lia)) as (tab & E & _ & HT). rewrite E. cbn [obind].
  unfold lo_internal. rewrite (opep_ok z wz (100 + 1) tab) by (first [ assumption | lia ]). cbn [obind].
  unfold lo6. destruct (J =? 0) eqn:E0.
  - replace (J =? 1) with false by lia. unfold opep6. rewrite E0. cbn. f_equal. repeat (apply f_equal2; [ ring | ]). reflexivity.
  - destruct (J =? 1) eqn:E1; unfold opep6; rewrite E0; cbn; f_equal; repeat (apply f_equal2; [ ring | ]); reflexivity.
Qed.

(* swapping the momenta exchanges "+-" and "-+" and leaves the other elements alone *)
Definition swap6 (V W : nat -> R) : Prop :=
  V 0%nat = W 0%nat /\ V 1%nat = W 1%nat /\ V 2%nat = W 2%nat /\ V 5%nat = W 5%nat /\ V 3%nat = W 4%nat /\ V 4%nat = W 3%nat.
Lemma swap_element V W L L' S J : swap6 V W -> element V L L' S J = element W L' L S J.
Proof.
  intros (H0 & H1 & H2 & H5 & H3 & H4). unfold element. destruct (S =? 0); [ exact H0 | ].
  rewrite (Z.eqb_sym L' L). destruct (L =? L') eqn:E.
  - assert (L = L') as -> by lia. rewrite H1, H2, H5. reflexivity.
  - destruct (L <? L') eqn:E2.
    + replace (L' <? L) with false by lia. congruence.
    + replace (L' <? L) with true by lia. congruence.
Qed.
Lemma opep_swap z wz qi qo J : swap6 (at_ (opep6 z wz qi qo J)) (at_ (opep6 z wz qo qi J)).
Proof.
  unfold opep6. rewrite !(ang_sym z wz qi qo). rewrite iso_shift. destruct (J =? 0); unfold swap6, at_; cbn [nth];
  repeat split; try ring; unfold Rdiv; ring.
Qed.
Lemma lo_swap z wz M qi qo J : swap6 (at_ (lo6 z wz M qi qo J)) (at_ (lo6 z wz M qo qi J)).
Proof.
  destruct (opep_swap z wz qi qo J) as (H0 & H1 & H2 & H5 & H3 & H4).
  unfold lo6. cbv zeta. revert H0 H1 H2 H5 H3 H4. generalize (opep6 z wz qi qo J) (opep6 z wz qo qi J). intros V W.
  unfold swap6, at_. cbn [nth]. intros H0 H1 H2 H5 H3 H4.
  replace (reg qo * reg qi * rel_factor M qo * rel_factor M qi)%R with (reg qi * reg qo * rel_factor M qi * rel_factor M qo)%R by ring.
  rewrite H0, H1, H2, H3, H4, H5. repeat split; reflexivity.
Qed.

Definition mt6 (qi qo : R) (J : Z) : list R :=
  let VA_I := (513968 / 1000)%R in let VA_III := (626885 / 1000)%R in let VR := (1438720 / 1000)%R in
  let muA := (1550 / 1000 * hbarc)%R in let muR := (3110 / 1000 * hbarc)%R in
  (if J =? 0 then [ (mt_term VR muR qi qo - mt_term VA_I muA qi qo) / (2 * PI * qi * qo); 0; 0; 0; 0; 0]%R
        else if J =? 1 then [0; 0; (mt_term VR muR qi qo - mt_term VA_III muA qi qo) / (2 * PI * qi * qo); 0; 0; 0]%R
        else six0).
Lemma mt_ok cpl S J T Tz qi qo : malfliet_tjon qi qo cpl S J T Tz = Ok (mt6 qi qo J).
Proof. reflexivity. Qed.
Lemma mt_term_sym V mu qi qo : mt_term V mu qi qo = mt_term V mu qo qi.
Proof. unfold mt_term. do 2 f_equal. unfold Rdiv. f_equal; [ ring | ]. f_equal. ring. Qed.
Lemma mt_swap qi qo J : swap6 (at_ (mt6 qi qo J)) (at_ (mt6 qo qi J)).
Proof.
  unfold mt6. rewrite !(mt_term_sym _ _ qi qo). replace (2 * PI * qi * qo)%R with (2 * PI * qo * qi)%R by ring.
  destruct (J =? 0); [ | destruct (J =? 1) ]; unfold swap6, at_; cbn [nth]; repeat split; reflexivity.
Qed.
