(* Property theorems about the result files (C46, C56). Values are of an arbitrary type V. *)
From Coq Require Import String Reals Sorted.
From Verif Require Import Common ArrayLib NameModel PWModel PWSpec SwpModel ResolventModel GridModel OnShellModel OutputModel OutputSpec OutputProofs OutputBreakupProofs OutputPropsLemmas.
Open Scope list_scope.
Open Scope nat_scope.

(* C46.  Any number nd of deuteron channels: one line per energy with its Tlab, Ecm, bin and the nd*nd amplitudes in the order of the
   first table, whose m-th line names the m-th amplitude and its quantum numbers.  For one or three channels the fixed header of the
   second table is right too (C12: there are two channels for J=1/2 and three otherwise). *)
Theorem C46_partial {V} states deut nq (U T E : list V) qi : let nd := length deut in
  (exists s0, nth_error states 0 = Some s0 /\ (P_3N s0 = 1 \/ P_3N s0 = -1)%Z) -> (forall k, In k deut -> k < length states) ->
  length U = nd * nd * nq -> length T = nq -> length E = nq -> length qi = nq ->
  exists t1 headers t2, store_U V states deut nq U T E qi = Ok (t1, headers, t2) /\ length t1 = nd * nd /\ length t2 = nq /\
   firstn 3 headers = ["Tlab [MeV]"; "Ecm [MeV]"; "q_idx"]%string /\
   (forall i j, i < nd -> j < nd -> exists si sj, nth_error states (nth i deut 0) = Some si /\ nth_error states (nth j deut 0) = Some sj /\
      nth_error t1 (i * nd + j) = Some (mkt1 ("U" ++ str_of_nat i ++ str_of_nat j) i j (L_1N si) (two_J_1N si) (L_1N sj) (two_J_1N sj))) /\
   (forall q, q < nq -> exists line, nth_error t2 q = Some line /\
      nth_error T q = Some (t2_T V line) /\ nth_error E q = Some (t2_E V line) /\ nth_error qi q = Some (t2_q V line) /\
      length (t2_U V line) = nd * nd /\
      (forall i j, i < nd -> j < nd -> nth_error (t2_U V line) (i * nd + j) = amplitude nd nq U i j q) /\
      (nd = 1 \/ nd = 3 -> forall i j v, i < nd -> j < nd -> (printed_under headers line (U_header i j) v <-> amplitude nd nq U i j q = Some v))).
Proof.
  intros nd H0 Hd HU HT HE Hq. destruct (store_main states deut nq U T E qi H0 Hd HU HT HE Hq) as (t1 & t2 & E1 & L1 & L2 & A1 & A2). fold nd in L1, A1, A2.
  exists t1, headers2, t2. split; [ exact E1 | ]. split; [ exact L1 | ]. split; [ exact L2 | ]. split; [ reflexivity | ]. split; [ exact A1 | ].
  intros q Hlt. destruct (A2 q Hlt) as (line & B1 & B2 & B3 & B4 & B5 & B6). exists line. repeat (split; [ assumption | ]).
  intros Hnd i j v Hi Hj. rewrite <- B6 by assumption. unfold printed_under. split.
  - intros (k & Hk & Hv). apply header_at in Hk; [ | lia | lia ]. replace (i * nd + j) with k; [ exact Hv | ]. destruct Hnd as [E'|E']; rewrite E' in *; nia.
  - intros Hv. exists (i * 3 + j). split; [ apply header_at; lia | ]. replace (i * 3 + j) with (i * nd + j); [ exact Hv | ]. destruct Hnd as [E'|E']; rewrite E' in *; nia.
Qed.
Print Assumptions C46_partial.

Definition ex_d (l j : Z) : pw := mkpw 0 1 1 0 l j 1 1 1.
Example C46_example : store_U Z [ex_d 0 1; mkpw 2 1 1 0 0 1 1 1 1; ex_d 2 3] [0; 2] 2 [1; 2; 3; 4; 5; 6; 7; 8]%Z [10; 20]%Z [11; 21]%Z [4; 7]
  = Ok ([mkt1 "U00" 0 0 0 1 0 1; mkt1 "U01" 0 1 0 1 2 3; mkt1 "U10" 1 0 2 3 0 1; mkt1 "U11" 1 1 2 3 2 3]%string, headers2,
        [mkt2 Z 10 11 4 [1; 3; 5; 7]; mkt2 Z 20 21 7 [2; 4; 6; 8]]%Z).
Proof. vm_compute. reflexivity. Qed.

(* C46 in full is false.  With two deuteron channels (every J=1/2 channel) the amplitude printed under U10 is U11, under U02 it is U10. *)
Theorem C46_two_channels {V} states deut nq (U T E : list V) qi : length deut = 2 ->
  (exists s0, nth_error states 0 = Some s0 /\ (P_3N s0 = 1 \/ P_3N s0 = -1)%Z) -> (forall k, In k deut -> k < length states) ->
  length U = 4 * nq -> length T = nq -> length E = nq -> length qi = nq ->
  exists t1 headers t2, store_U V states deut nq U T E qi = Ok (t1, headers, t2) /\
   forall q, q < nq -> exists line, nth_error t2 q = Some line /\
     (forall v, printed_under headers line (U_header 1 0) v <-> amplitude 2 nq U 1 1 q = Some v) /\
     (forall v, printed_under headers line (U_header 0 2) v <-> amplitude 2 nq U 1 0 q = Some v) /\
     (forall v, ~ printed_under headers line (U_header 1 1) v).
Proof.
  intros Hd2 H0 Hd HU HT HE Hq. destruct (store_main states deut nq U T E qi H0 Hd) as (t1 & t2 & E1 & L1 & L2 & A1 & A2); try assumption; [ rewrite Hd2; lia | ].
  rewrite Hd2 in *. exists t1, headers2, t2. split; [ exact E1 | ]. intros q Hlt. destruct (A2 q Hlt) as (line & B1 & B2 & B3 & B4 & B5 & B6).
  exists line. split; [ exact B1 | ]. split; [ | split ].
  - intros v. rewrite <- (B6 1 1) by lia. split.
    + intros (k & Hk & Hv). apply header_at in Hk; [ | lia | lia ]. subst k. exact Hv.
    + intros Hv. exists 3. split; [ apply (header_at 1 0); lia | exact Hv ].
  - intros v. rewrite <- (B6 1 0) by lia. split.
    + intros (k & Hk & Hv). apply header_at in Hk; [ | lia | lia ]. subst k. exact Hv.
    + intros Hv. exists 2. split; [ apply (header_at 0 2); lia | exact Hv ].
  - intros v (k & Hk & Hv). apply header_at in Hk; [ | lia | lia ]. subst k. change (1 * 3 + 1) with 4 in Hv. assert (4 < length (t2_U V line)) by (apply nth_error_Some; congruence). lia.
Qed.
Print Assumptions C46_two_channels.
Theorem C46_refuted :
  ~ forall (V : Type) states deut nq (U T E : list V) qi t1 headers t2,
      store_U V states deut nq U T E qi = Ok (t1, headers, t2) ->
      forall q line i j v, nth_error t2 q = Some line -> i < length deut -> j < length deut ->
        printed_under headers line (U_header i j) v -> amplitude (length deut) nq U i j q = Some v.
Proof.
  intros H. specialize (H Z _ _ _ _ _ _ _ _ _ _ C46_example 0 (mkt2 Z 10%Z 11%Z 4 [1; 3; 5; 7]%Z) 1 0 7%Z eq_refl). cbn [length] in H.
  specialize (H ltac:(lia) ltac:(lia)). cut (amplitude 2 2 [1; 2; 3; 4; 5; 6; 7; 8]%Z 1 0 0 = Some 7%Z); [ vm_compute; discriminate | ]. apply H.
  exists 3. split; vm_compute; reflexivity.
Qed.
Print Assumptions C46_refuted.

(* C56.  row d bu, col d bu: where the amplitude from deuteron channel d to breakup cell bu goes.  The row also holds the energy the
   cell belongs to, the next four columns its bins, the column header the pair/spectator quantum numbers.  No two amplitudes share a
   place, a column belongs to one final state and one deuteron channel, and everything else is zero. *)
Theorem C56_breakup_table {V} states deut cells ends nq (zero : V) pmom U T E qcm q_com_idx qWP e_unco e_coup tensor iso Np :
  NoDup deut -> (forall k, In k deut -> k < length states) -> per_energy nq (length cells) ends ->
  (forall t, In t cells -> exists ql qu el eu, bins_of states qWP e_unco e_coup tensor iso Np t ql qu el eu) ->
  length deut * length cells <= length U -> length T = nq -> length E = nq -> length qcm = nq -> length q_com_idx = nq ->
  (forall i, In i q_com_idx -> i + 1 < length qWP) ->
  exists headers data rows cols (row : nat -> nat -> nat) (col : nat -> nat -> nat),
   restructure_breakup_data V states deut cells ends zero pmom U T E qcm q_com_idx qWP e_unco e_coup tensor iso Np nq = Ok (headers, data, rows, cols) /\
   length headers = cols /\ length data = cols * rows /\ firstn 5 headers = energy_columns /\
   (forall q d bu, q < nq -> d < length deut -> nth q ends 0 <= bu < nth (q + 1) ends 0 ->
      exists t a iq ip sc sr ql qu el eu u, nth_error cells bu = Some t /\ t = (a, iq, ip) /\ zread states a = Ok sc /\ nth_error states (nth d deut 0) = Some sr /\
        bins_of states qWP e_unco e_coup tensor iso Np t ql qu el eu /\ nth_error U (d * length cells + bu) = Some u /\
        5 <= col d bu /\
        firstn 5 (skipn (col d bu) headers) = state_columns sc sr /\
        map (entry data cols (row d bu)) (seq (col d bu) 5) = map Some [u; ql; qu; pmom el; pmom eu] /\
        map (entry data cols (row d bu)) (seq 0 5)
          = [nth_error T q; nth_error E q; nth_error qcm q; nth_error qWP (nth q q_com_idx 0); nth_error qWP (nth q q_com_idx 0 + 1)]) /\
   (forall d bu d' bu', d < length deut -> bu < length cells -> d' < length deut -> bu' < length cells ->
      row d bu = row d' bu' -> col d bu = col d' bu' -> d = d' /\ bu = bu') /\
   (forall d bu d' bu', d < length deut -> bu < length cells -> d' < length deut -> bu' < length cells ->
      (col d bu = col d' bu' <-> d = d' /\ fst (fst (nth bu cells (0, 0, 0)%Z)) = fst (fst (nth bu' cells (0, 0, 0)%Z)))) /\
   (forall r c, r < rows -> 5 <= c < cols ->
      (forall d bu, d < length deut -> bu < length cells -> ~ (r = row d bu /\ col d bu <= c < col d bu + 5)) -> entry data cols r c = Some zero) /\
   (forall r, r < rows -> exists q, q < nq /\ map (entry data cols r) (seq 0 5)
          = [nth_error T q; nth_error E q; nth_error qcm q; nth_error qWP (nth q q_com_idx 0); nth_error qWP (nth q q_com_idx 0 + 1)]).
Proof.
  intros H1 H2 H3 H4 H5 H6 H7 H8 H9 H10. rewrite <- energy_columns_eq.
  destruct (breakup_table states deut cells ends nq zero pmom U T E qcm q_com_idx qWP e_unco e_coup tensor iso Np H1 H2 H3 H4 H5 H6 H7 H8 H9 H10)
    as (headers & data & rows & cols & row & col & A1 & A2 & A3 & A4 & A5 & A6).
  exists headers, data, rows, cols, row, col. repeat (split; [ assumption | ]). split; [ | exact A6 ].
  intros q d bu Hq Hd Hb. destruct (A5 q d bu Hq Hd Hb) as (t & a & iq & ip & sc & sr & ql & qu & el & eu & u & B).
  exists t, a, iq, ip, sc, sr, ql, qu, el, eu, u. rewrite <- columns_eq. exact B.
Qed.
Print Assumptions C56_breakup_table.
(* the tables made by the on-shell search satisfy [per_energy] *)
Theorem C56_layout tensor iso Np Nq e_unco e_coup q states Eb Es cells ends : StronglySorted Rle Es ->
  breakup_cells tensor iso Np Nq e_unco e_coup q states Eb Es = Ok (cells, ends) -> per_energy (length Es) (length cells) ends.
Proof. exact (per_energy_of_cells tensor iso Np Nq e_unco e_coup q states Eb Es cells ends). Qed.
Print Assumptions C56_layout.
Definition ex_s (T3 : Z) : pw := mkpw 0 0 0 1 0 1 1 T3 1.
Example C56_example :
  restructure_breakup_data Z [ex_d 0 1; ex_s 1; ex_d 2 3] [0; 2] [(1, 0, 0); (1, 0, 1); (0, 1, 0)]%Z [0; 1; 3] 0%Z (fun x => x * 100)%Z
    [1; 2; 3; 4; 5; 6]%Z [10; 20]%Z [11; 21]%Z [12; 22]%Z [0; 1] [50; 60; 70]%Z [] [0; 1; 2; 3; 4; 5; 6; 7; 8; 9; 10; 11]%Z true true 2 2
  = Ok (bu_headers0 ++ bu_headers_chn "<0,0,0,0,1|U|0,1>" ++ bu_headers_chn "<0,0,0,0,1|U|2,3>" ++ bu_headers_chn "<0,1,1,0,1|U|0,1>" ++ bu_headers_chn "<0,1,1,0,1|U|2,3>",
        [10; 11; 12; 50; 60;  1; 50; 60;   0; 100;  4; 50; 60;   0; 100;  0; 0; 0; 0; 0;  0; 0; 0; 0; 0;
         20; 21; 22; 60; 70;  2; 50; 60; 100; 200;  5; 50; 60; 100; 200;  3; 60; 70; 600; 700;  6; 60; 70; 600; 700]%Z, 2, 25).
Proof. vm_compute. reflexivity. Qed.

(* The labels name the states when isospin breaking is off (two_T_3N = 1), for states of one channel. *)
Theorem C56_partial (c c' r r' : pw) : physical c -> physical c' -> two_T_3N c = 1%Z -> two_T_3N c' = 1%Z -> chn_of c = chn_of c' ->
  physical r -> physical r' -> is_deuteron r -> is_deuteron r' -> two_T_3N r = 1%Z -> two_T_3N r' = 1%Z -> chn_of r = chn_of r' ->
  breakup_title c r = breakup_title c' r' -> c = c' /\ r = r'.
Proof.
  intros Pc Pc' Tc Tc' Ec Pr Pr' Dr Dr' Tr Tr' Er H. rewrite <- !title_eq in H. apply label_inj in H. destruct H as [[= H1 H2 H3 H4 H5] [= H6 H7]]. unfold chn_of in *. injection Ec as E1 E2. injection Er as E3 E4.
  split.
  - destruct Pc as [_ cT _ _ _ _ cP _], Pc' as [_ cT' _ _ _ _ cP' _]. unfold couples in cT, cT'.
    assert (T_2N c = T_2N c'). { assert (B : (0 <= T_2N c <= 1)%Z) by lia. assert (B' : (0 <= T_2N c' <= 1)%Z) by lia. rewrite H1, H2 in cP. destruct cP as [x Hx], cP' as [y Hy]. lia. }
    destruct c, c'; cbn in *; congruence.
  - destruct Dr as (D1 & D2 & D3 & D4), Dr' as (D1' & D2' & D3' & D4'). destruct r, r'; cbn in *; congruence.
Qed.
Print Assumptions C56_partial.
(* With isospin breaking two different columns can carry the same label. *)
Theorem C56_refuted :
  ~ forall (J_2N_max two_J_3N_max : Z) c c' r, physical c -> physical c' -> in_model_space J_2N_max two_J_3N_max true c -> in_model_space J_2N_max two_J_3N_max true c' ->
      chn_of c = chn_of c' -> physical r -> is_deuteron r -> breakup_title c r = breakup_title c' r -> c = c'.
Proof.
  intros H. assert (E : ex_s 1 = ex_s 3); [ | discriminate E ].
  assert (P : forall t, t = 1%Z \/ t = 3%Z -> physical (ex_s t)).
  { intros t Ht. split; unfold couples, ex_s; cbn; try lia; try reflexivity; repeat split; try lia; try (exists 1%Z; lia); try (exists 0%Z; lia); try (exists 2%Z; lia).
    destruct Ht as [->| ->]; [ exists 2%Z | exists 3%Z ]; reflexivity. }
  apply (H 1%Z 1%Z (ex_s 1) (ex_s 3) (ex_d 0 1)); try (apply P; lia); try reflexivity.
  - split; cbn; try lia.
  - split; cbn; try lia.
  - split; unfold couples, ex_d; cbn; try lia; try reflexivity; repeat split; try lia; try (exists 1%Z; lia); try (exists 2%Z; lia); try (exists 0%Z; lia).
  - repeat split.
Qed.
Print Assumptions C56_refuted.
