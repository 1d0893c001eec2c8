From Coq Require Import String Reals Sorted Lra.
From Verif Require Import Common ArrayLib NameModel NameProofs PWModel PWSpec SwpModel ResolventModel GridModel OnShellModel OutputModel OutputSpec OutputProofs OutputBreakupProofs.
Open Scope list_scope.
Open Scope nat_scope.

(* the table of breakup cells has the layout the output routine expects *)
Lemma per_energy_of_cells tensor iso Np Nq e_unco e_coup q states Eb Es cells ends : StronglySorted Rle Es ->
  breakup_cells tensor iso Np Nq e_unco e_coup q states Eb Es = Ok (cells, ends) -> per_energy (length Es) (length cells) ends.
Proof.
  intros HS. unfold breakup_cells.
  set (step := fun (st : list (Z * Z * Z) * list nat) (E0 : R) => let '(acc, ends0) := st in
      if Rltb (E0 + Eb) 0 then Ok (acc, ends0 ++ [length acc]) else
      do new <- breakup_energy tensor iso Np Nq e_unco e_coup q states E0;
      match new with [] => Err | _ => Ok (acc ++ new, ends0 ++ [length (acc ++ new)]) end).
  assert (G : forall l d acc en, StronglySorted Rle (d ++ l) -> per_energy (length d) (length acc) en ->
     (forall k, k < length d -> nth k en 0 < nth (k + 1) en 0 <-> Rltb (nth k d 0%R + Eb) 0 = false) ->
     forall cells ends, ofold step l (acc, en) = Ok (cells, ends) -> per_energy (length (d ++ l)) (length cells) ends).
  { clear HS cells ends. induction l as [|E0 l IH]; intros d acc en HS HP Hch cells ends; cbn [ofold].
    - intros [= <- <-]. rewrite app_nil_r. exact HP.
    - replace (d ++ E0 :: l) with ((d ++ [E0]) ++ l) in * by (rewrite <- app_assoc; reflexivity). intros H.
      assert (Hn : exists new, step (acc, en) E0 = Ok (acc ++ new, en ++ [length (acc ++ new)]) /\ (new <> [] <-> Rltb (E0 + Eb) 0 = false)).
      { unfold step in *. destruct (Rltb (E0 + Eb) 0) eqn:Er.
        - exists []. rewrite app_nil_r. split; [ reflexivity | split; [ congruence | discriminate ] ].
        - destruct (breakup_energy tensor iso Np Nq e_unco e_coup q states E0) as [[|t new]| | |]; cbn [obind] in *; try discriminate.
          exists (t :: new). split; [ reflexivity | split; [ reflexivity | discriminate ] ]. }
      destruct Hn as (new & Es' & Hne). rewrite Es' in H. cbn [obind] in H. destruct HP as (L & P0 & P1 & P2 & P3).
      assert (Hold : forall k, k <= length d -> nth k (en ++ [length (acc ++ new)]) 0 = nth k en 0) by (intros; apply app_nth1; lia).
      assert (Hlast : nth (length d + 1) (en ++ [length (acc ++ new)]) 0 = length (acc ++ new)) by (rewrite app_nth2 by lia; replace (length d + 1 - length en) with 0 by lia; reflexivity).
      assert (HchE : forall k, k < length (d ++ [E0]) -> nth k (en ++ [length (acc ++ new)]) 0 < nth (k + 1) (en ++ [length (acc ++ new)]) 0 <-> Rltb (nth k (d ++ [E0]) 0%R + Eb) 0 = false).
      { intros k Hk. rewrite app_length in Hk. cbn in Hk. destruct (Nat.eq_dec k (length d)) as [->|Hkd].
        - rewrite Hlast, Hold, P1, app_nth2, Nat.sub_diag by lia. cbn [nth]. rewrite <- Hne, app_length. destruct new; cbn [length]; split; intros; try congruence; try lia.
        - rewrite !Hold, app_nth1 by lia. apply Hch. lia. }
      apply (IH (d ++ [E0]) (acc ++ new) (en ++ [length (acc ++ new)])); [ exact HS | | exact HchE | exact H ].
      rewrite app_length. cbn [length]. split; [ rewrite app_length; cbn; lia | ]. split; [ rewrite Hold by lia; exact P0 | ]. split; [ exact Hlast | ]. split.
      + intros k Hk. destruct (Nat.eq_dec k (length d)) as [->|Hkd]; [ rewrite Hlast, Hold, P1, app_length by lia; lia | ]. rewrite !Hold by lia. apply P2. lia.
      + intros k k' Hkk Hk' Hlt. apply HchE in Hlt; [ | rewrite app_length; cbn; lia ]. apply HchE; [ rewrite app_length; cbn; lia | ].
        destruct (Nat.eq_dec k k') as [<-|Hneq]; [ exact Hlt | ].
        assert (Hle : (nth k (d ++ [E0]) 0 <= nth k' (d ++ [E0]) 0)%R).
        { assert (HS' : StronglySorted Rle (d ++ [E0])).
          { clear -HS. induction (d ++ [E0]) as [|x m IHm]; [ constructor | ]. cbn in HS. inversion HS as [|? ? S1 S2]; subst. constructor; [ apply IHm, S1 | ].
            rewrite Forall_app in S2. apply S2. }
          assert (Hl : k' < length (d ++ [E0])) by (rewrite app_length; cbn; lia). clear -HS' Hkk Hneq Hl. revert k k' Hkk Hneq Hl.
          induction HS' as [|x m S1 IHm S2]; intros k k' Hkk Hneq Hl; [ cbn in Hl; lia | ]. destruct k' as [|k']; [ lia | ]. destruct k as [|k].
          - cbn [nth]. rewrite Forall_forall in S2. apply S2, nth_In. cbn in Hl. lia.
          - cbn [nth]. apply IHm; cbn in Hl; lia. }
        unfold Rltb in *. destruct (Rlt_dec (nth k (d ++ [E0]) 0%R + Eb) 0); [ discriminate | ]. destruct (Rlt_dec (nth k' (d ++ [E0]) 0%R + Eb) 0); [ lra | reflexivity ]. }
  intros H. apply (G Es [] [] [0] HS) in H; [ exact H | | cbn; lia ].
  split; [ reflexivity | split; [ reflexivity | split; [ reflexivity | split; cbn; intros; lia ] ] ].
Qed.

Lemma breakup_table {V} states deut cells ends nq (zero : V) pmom U T E qcm q_com_idx qWP e_unco e_coup tensor iso Np :
  NoDup deut -> (forall k, In k deut -> k < length states) -> per_energy nq (length cells) ends ->
  (forall t, In t cells -> exists ql qu el eu, bins_of states qWP e_unco e_coup tensor iso Np t ql qu el eu) ->
  length deut * length cells <= length U -> length T = nq -> length E = nq -> length qcm = nq -> length q_com_idx = nq ->
  (forall i, In i q_com_idx -> i + 1 < length qWP) ->
  exists headers data rows cols (row : nat -> nat -> nat) (col : nat -> nat -> nat),
   restructure_breakup_data V states deut cells ends zero pmom U T E qcm q_com_idx qWP e_unco e_coup tensor iso Np nq = Ok (headers, data, rows, cols) /\
   length headers = cols /\ length data = cols * rows /\ firstn 5 headers = bu_headers0 /\
   (forall q d bu, q < nq -> d < length deut -> nth q ends 0 <= bu < nth (q + 1) ends 0 ->
      exists t a iq ip sc sr ql qu el eu u, nth_error cells bu = Some t /\ t = (a, iq, ip) /\ zread states a = Ok sc /\ nth_error states (nth d deut 0) = Some sr /\
        bins_of states qWP e_unco e_coup tensor iso Np t ql qu el eu /\ nth_error U (d * length cells + bu) = Some u /\
        5 <= col d bu /\
        firstn 5 (skipn (col d bu) headers) = bu_headers_chn (bu_label sc sr) /\
        map (entry data cols (row d bu)) (seq (col d bu) 5) = map Some [u; ql; qu; pmom el; pmom eu] /\
        map (entry data cols (row d bu)) (seq 0 5)
          = [nth_error T q; nth_error E q; nth_error qcm q; nth_error qWP (nth q q_com_idx 0); nth_error qWP (nth q q_com_idx 0 + 1)]) /\
   (forall d bu d' bu', d < length deut -> bu < length cells -> d' < length deut -> bu' < length cells ->
      row d bu = row d' bu' -> col d bu = col d' bu' -> d = d' /\ bu = bu') /\
   (forall d bu d' bu', d < length deut -> bu < length cells -> d' < length deut -> bu' < length cells ->
      (col d bu = col d' bu' <-> d = d' /\ fst (fst (nth bu cells (0, 0, 0)%Z)) = fst (fst (nth bu' cells (0, 0, 0)%Z)))) /\
   (forall r c, r < rows -> 5 <= c < cols ->
      (forall d bu, d < length deut -> bu < length cells -> ~ (r = row d bu /\ col d bu <= c < col d bu + 5)) -> entry data cols r c = Some zero) /\
   (forall r, r < rows -> exists q, q < nq /\ map (entry data cols r) (seq 0 5)
          = [nth_error T q; nth_error E q; nth_error qcm q; nth_error qWP (nth q q_com_idx 0); nth_error qWP (nth q q_com_idx 0 + 1)]).
Proof.
  intros Hnd Hd He Hb HU HT HE Hk Hqi Hqi2.
  assert (Hcells : forall t, In t cells -> (0 <= fst (fst t) < Z.of_nat (length states))%Z).
  { intros [[a iq] ip] Ht. destruct (Hb _ Ht) as (ql & qu & el & eu & s & coup & off & Hs & _). cbn [fst]. unfold zread in Hs. destruct (Z.ltb_spec a 0); [ discriminate | ].
    unfold aread in Hs. destruct (nth_error states (Z.to_nat a)) eqn:En; [ | discriminate ]. assert (Z.to_nat a < length states) by (apply nth_error_Some; congruence). lia. }
  assert (Hbf : exists bins : Z * Z * Z -> V * V * V * V, forall t, In t cells -> let '(ql, qu, el, eu) := bins t in bins_of states qWP e_unco e_coup tensor iso Np t ql qu el eu).
  { set (rd := fun (l : list V) i => match zread l i with Ok v => v | _ => zero end).
    exists (fun t => let '(a, iq, ip) := t in match zread states a with Ok s => match e_block tensor iso (Z.of_nat Np) s with
              Ok (coup, off) => (rd qWP iq, rd qWP (iq + 1)%Z, rd (if coup then e_coup else e_unco) (off + ip)%Z, rd (if coup then e_coup else e_unco) (off + ip + 1)%Z) | _ => (zero, zero, zero, zero) end | _ => (zero, zero, zero, zero) end).
    intros [[a iq] ip] Ht. destruct (Hb _ Ht) as (ql & qu & el & eu & s & coup & off & H1 & H2 & H3 & H4 & H5 & H6).
    rewrite H1, H2. unfold rd. rewrite H3, H4, H5, H6. exists s, coup, off. auto 10. }
  destruct Hbf as (bins & Hbins).
  pose (s0 := mkpw 0 0 0 0 0 0 0 0 0).
  destruct (pass1_main states deut cells ends nq Hnd Hd Hcells He s0 nq (le_n _)) as (p & nrv & E1 & HP).
  edestruct (@second_pass V states deut cells ends nq) with (s0 := s0) (zero := zero) (pmom := pmom) (U := U) (T := T) (E := E) (qcm := qcm) (q_com_idx := q_com_idx)
    (qWP := qWP) (e_unco := e_unco) (e_coup := e_coup) (tensor := tensor) (iso := iso) (Np := Np) (bins := bins) (p := p) (nrv := nrv) as (data & E2 & DL & D1 & D2 & D3);
    try eassumption.
  assert (CB : forall q x, q < nq -> In x (items deut ends q) -> colf states deut cells p x + 5 <= length (p_head p) /\ exists c, fget (p_alpha p) (akey states deut cells x) = Some c /\ colf states deut cells p x = 5 * c + 5).
  { intros. eapply (@col_bound V states deut cells ends nq) with (s0 := s0) (U := U) (T := T) (E := E) (qcm := qcm) (q_com_idx := q_com_idx) (qWP := qWP) (nrv := nrv); eassumption. }
  assert (SP : forall q q' x y, q < nq -> q' < nq -> In x (items deut ends q) -> In y (items deut ends q') -> row states deut p x = row states deut p y -> colf states deut cells p x = colf states deut cells p y -> q = q' /\ x = y).
  { intros. eapply (@same_place V states deut cells ends nq) with (s0 := s0) (U := U) (T := T) (E := E) (qcm := qcm) (q_com_idx := q_com_idx) (qWP := qWP) (nrv := nrv); eassumption. }
  set (cols := length (p_head p)) in *. set (rows := nth nq nrv 0) in *.
  pose proof HP as (HCols & NL & _).
  assert (Hq_of : forall bu, bu < length cells -> exists q, q < nq /\ nth q ends 0 <= bu < nth (q + 1) ends 0).
  { intros bu Hbu. destruct He as (_ & P0 & Pn & _). clear -Hbu P0 Pn. 
    assert (G : forall n, bu < nth n ends 0 -> exists q, q < n /\ nth q ends 0 <= bu < nth (q + 1) ends 0).
    { induction n as [|n IH]; intros H; [ lia | ]. destruct (Nat.lt_ge_cases bu (nth n ends 0)) as [L|L].
      - destruct (IH L) as (q & Hq & Hr). exists q. split; [ lia | exact Hr ].
      - exists n. rewrite Nat.add_1_r. split; [ lia | lia ]. }
    apply G. lia. }
  assert (Hit : forall q d bu, q < nq -> d < length deut -> nth q ends 0 <= bu < nth (q + 1) ends 0 -> In (d, bu) (items deut ends q)).
  { intros q d bu Hq Hd' Hbu. unfold items. apply (in_bu_items states deut Hd). cbn [fst snd]. split; assumption. }
  exists (p_head p), data, rows, cols, (fun d bu => row states deut p (d, bu)), (fun d bu => colf states deut cells p (d, bu)).
  split; [ | split; [ reflexivity | split; [ exact DL | split; [ apply HCols | split; [ | split; [ | split; [ | split ] ] ] ] ] ] ].
  - unfold restructure_breakup_data, pass1_all. rewrite E1. cbn [obind]. rewrite (aread_some nrv _ rows).
    2:{ replace (length nrv - 1) with nq by lia. apply nth_error_nth'. lia. }
    cbn [obind]. fold cols. destruct (ofold _ (seq 0 nq) []) as [w| | |]; cbn [obind] in E2 |- *; try discriminate. rewrite E2. reflexivity.
  - intros q d bu Hq Hd' Hbu. pose proof (Hit q d bu Hq Hd' Hbu) as Hin. pose proof (in_items states deut cells ends nq Hd He q (d, bu) Hq Hin) as Hv.
    assert (Hbl : bu < length cells) by apply Hv.
    destruct (nth bu cells (0, 0, 0)%Z) as [[a iq] ip] eqn:Ec. pose proof (Hbins _ (nth_In cells (0, 0, 0)%Z Hbl)) as B. rewrite Ec in B.
    destruct (bins (a, iq, ip)) as [[[ql qu] el] eu] eqn:Eb. destruct (reads states deut cells Hd Hcells s0 (d, bu) Hv) as (_ & R2 & _ & R4). cbn [fst snd] in *.
    rewrite Ec in R4. cbn [fst] in R4.
    exists (a, iq, ip), a, iq, ip, (nth (acol cells (d, bu)) states s0), (nth (nth d deut 0) states s0), ql, qu, el, eu, (nth (d * length cells + bu) U zero).
    split; [ rewrite <- Ec; apply nth_error_nth', Hbl | ]. split; [ reflexivity | ]. split; [ exact R4 | ]. split; [ apply nth_error_nth', Hd, nth_In, Hd' | ].
    split; [ exact B | ]. split; [ apply nth_error_nth'; apply (Nat.lt_le_trans _ (length deut * length cells)); [ apply rm_lt; assumption | exact HU ] | ].
    destruct (CB q (d, bu) Hq Hin) as (Hcb & c & Hc & Ecf). fold cols in Hcb.
    split; [ rewrite Ecf; lia | ]. split.
    { destruct HCols as (_ & C2 & _). destruct (C2 _ _ Hc) as (_ & x & Hx & Ek & F). rewrite Ecf, F. unfold label. f_equal.
      apply (in_all_items states deut ends Hd) in Hx. destruct Hx as (q' & Hq' & Hx'). pose proof (in_items states deut cells ends nq Hd He q' x Hq' Hx') as Hvx.
      unfold akey in Ek. apply rm_inj in Ek; [ | apply (arow_lt states deut cells Hd x Hvx) | apply (arow_lt states deut cells Hd (d, bu) Hv) ]. destruct Ek as [-> ->]. reflexivity. }
    assert (HF : forall j, j < 5 -> entry data cols (row states deut p (d, bu)) (colf states deut cells p (d, bu) + j) = Some (five cells zero pmom U bins (d, bu) j)).
    { intros j Hj. unfold entry. destruct (Nat.ltb_spec (colf states deut cells p (d, bu) + j) cols); [ | lia ]. apply (D2 q); assumption. }
    assert (HG : forall j, j < 5 -> entry data cols (row states deut p (d, bu)) j = Some (first_five zero T E qcm q_com_idx qWP q j)).
    { intros j Hj. unfold entry. destruct (Nat.ltb_spec j cols); [ | lia ]. apply (D1 q); [ exact Hq | | exact Hj ]. apply HP; assumption. }
    split.
    + replace (seq (colf states deut cells p (d, bu)) 5) with (map (fun j => colf states deut cells p (d, bu) + j) (seq 0 5)).
      2:{ cbn [seq map]. rewrite !Nat.add_0_r. repeat f_equal; lia. }
      cbn [seq map]. rewrite !HF by lia. unfold five, cell_of. cbn [fst snd]. rewrite Ec, Eb. reflexivity.
    + cbn [seq map]. rewrite !HG by lia. cbn [first_five]. assert (Hi : nth q q_com_idx 0 + 1 < length qWP) by (apply Hqi2, nth_In; lia).
      rewrite (nth_error_nth' T zero), (nth_error_nth' E zero), (nth_error_nth' qcm zero), !(nth_error_nth' qWP zero) by lia. reflexivity.
  - intros d bu d' bu' H1 H2 H3 H4 Hr Hc. destruct (Hq_of bu H2) as (q & Hq & Hb1). destruct (Hq_of bu' H4) as (q' & Hq' & Hb2).
    destruct (SP q q' (d, bu) (d', bu') Hq Hq' (Hit q d bu Hq H1 Hb1) (Hit q' d' bu' Hq' H3 Hb2) Hr Hc) as [_ [= -> ->]]. split; reflexivity.
  - intros d bu d' bu' H1 H2 H3 H4. destruct (Hq_of bu H2) as (q & Hq & Hb1). destruct (Hq_of bu' H4) as (q' & Hq' & Hb2).
    destruct (CB q (d, bu) Hq (Hit q d bu Hq H1 Hb1)) as (_ & c & Hc & Ecf).
    destruct (CB q' (d', bu') Hq' (Hit q' d' bu' Hq' H3 Hb2)) as (_ & c' & Hc' & Ecf').
    pose proof (in_items states deut cells ends nq Hd He q _ Hq (Hit q d bu Hq H1 Hb1)) as Hv. pose proof (in_items states deut cells ends nq Hd He q' _ Hq' (Hit q' d' bu' Hq' H3 Hb2)) as Hv'.
    pose proof (Hcells _ (nth_In cells (0, 0, 0)%Z H2)). pose proof (Hcells _ (nth_In cells (0, 0, 0)%Z H4)).
    rewrite Ecf, Ecf'. split.
    + intros Ecc. assert (c = c') as <- by lia. destruct HCols as (_ & _ & C3 & _). pose proof (C3 _ _ _ Hc Hc') as Ek.
      unfold akey in Ek. apply rm_inj in Ek; [ | apply (arow_lt states deut cells Hd _ Hv) | apply (arow_lt states deut cells Hd _ Hv') ]. destruct Ek as [Ea Er].
      unfold acol, arow in *. cbn [fst snd] in *. split; [ apply (proj1 (NoDup_nth deut 0) Hnd); assumption | lia ].
    + intros [<- Ea]. assert (akey states deut cells (d, bu) = akey states deut cells (d, bu')) as Ek by (unfold akey, acol, arow; cbn [fst snd]; rewrite Ea; reflexivity).
      rewrite Ek, Hc' in Hc. injection Hc as <-. reflexivity.
  - intros r c Hr Hc Hnone. unfold entry. destruct (Nat.ltb_spec c cols); [ | lia ]. apply D3; [ exact Hr | exact Hc | ].
    intros q [d bu] Hq Hx. pose proof (in_items states deut cells ends nq Hd He q _ Hq Hx) as [Hv1 Hv2]. apply (Hnone d bu); assumption.
  - intros r Hr. destruct HP as (_ & _ & N0 & _).
    assert (G : forall n, r < nth n nrv 0 -> exists q, q < n /\ nth q nrv 0 <= r < nth (q + 1) nrv 0).
    { clear -N0. induction n as [|n IH]; intros H; [ lia | ]. destruct (Nat.lt_ge_cases r (nth n nrv 0)) as [L|L].
      - destruct (IH L) as (q & Hq & Hb). exists q. split; [ lia | exact Hb ].
      - exists n. rewrite Nat.add_1_r. split; [ lia | lia ]. }
    destruct (G nq Hr) as (q & Hq & Hb'). exists q. split; [ exact Hq | ].
    assert (C5 : 5 <= cols) by (destruct HCols as (_ & _ & _ & C4 & _); unfold cols; lia).
    assert (HG : forall j, j < 5 -> entry data cols r j = Some (first_five zero T E qcm q_com_idx qWP q j)).
    { intros j Hj. unfold entry. destruct (Nat.ltb_spec j cols); [ | lia ]. apply (D1 q); assumption. }
    cbn [seq map]. rewrite !HG by lia. cbn [first_five]. assert (Hi : nth q q_com_idx 0 + 1 < length qWP) by (apply Hqi2, nth_In; lia).
    rewrite (nth_error_nth' T zero), (nth_error_nth' E zero), (nth_error_nth' qcm zero), !(nth_error_nth' qWP zero) by lia. reflexivity.
Qed.

(* labels *)
Open Scope string_scope.
Lemma label_inj c r c' r' : bu_label c r = bu_label c' r' ->
  (L_2N c, S_2N c, J_2N c, L_1N c, two_J_1N c) = (L_2N c', S_2N c', J_2N c', L_1N c', two_J_1N c') /\ (L_1N r, two_J_1N r) = (L_1N r', two_J_1N r').
Proof.
  unfold bu_label. intros H. apply app_inj_l in H. cbn [append] in H.
  apply num_split in H; [ | reflexivity ]. destruct H as [-> H].
  apply num_split in H; [ | reflexivity ]. destruct H as [-> H].
  apply num_split in H; [ | reflexivity ]. destruct H as [-> H].
  apply num_split in H; [ | reflexivity ]. destruct H as [-> H].
  apply num_split in H; [ | reflexivity ]. destruct H as [-> H]. injection H as H.
  apply num_split in H; [ | reflexivity ]. destruct H as [-> H].
  apply num_split in H; [ | reflexivity ]. destruct H as [-> _]. split; reflexivity.
Qed.

Lemma title_eq c r : bu_label c r = breakup_title c r.
Proof. unfold bu_label, breakup_title. cbn [map String.concat]. rewrite !NameProofs.str_app_assoc. reflexivity. Qed.
Lemma columns_eq c r : bu_headers_chn (bu_label c r) = state_columns c r.
Proof. unfold bu_headers_chn, state_columns. rewrite title_eq. reflexivity. Qed.
Lemma energy_columns_eq : bu_headers0 = energy_columns.
Proof. reflexivity. Qed.
