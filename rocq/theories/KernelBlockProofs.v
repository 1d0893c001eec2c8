(* Which block belongs to a pair of partial waves. *)
From Coq Require Import Reals Lra ZifyBool.
From Verif Require Import Common ArrayLib PWModel PWSpec PWChnProofs SwpModel SparseModel GridSpec GridPropsLemmas PermPropsLemmas
  PotentialSpec PotentialProofs PotentialMatProofs PotentialPropsLemmas KernelModel KernelSpec KernelProofs.
Open Scope nat_scope.

Section Chan.
Variables (tensor iso : bool) (Jm mx : Z) (key : Z * Z) (Np : nat) (states : list pw).
Hypothesis Hst : forall s, In s states <-> (physical s /\ in_model_space Jm mx iso s) /\ chn_of s = key.
Hypothesis Hnd : NoDup states.
Hypothesis Hcfg : tensor = true \/ (tensor = false /\ iso = false /\ (Jm <= 1)%Z).

Lemma in_phys s : In s states -> physical s /\ in_model_space Jm mx iso s.
Proof. intros H. apply Hst in H. exact (proj1 H). Qed.

Let pchan := pair_channel tensor iso Jm mx states in_phys Hcfg.
Let cnum := chan_num tensor iso Jm mx states in_phys.
Let cdiag := cm_diag tensor iso Jm mx states in_phys.
Let t3c := t3_cases tensor iso Jm mx states in_phys.
Let mrange := mat_range tensor iso Jm mx states in_phys Hcfg.
Let minj := mat_inj tensor iso Jm mx states in_phys Hcfg.

Lemma connects_iff r c : connects tensor r c = true <->
  same_2N_channel tensor r c /\ L_1N r = L_1N c /\ two_J_1N r = two_J_1N c.
Proof.
  unfold connects, same_2N_channel. rewrite <- Z.even_spec. rewrite !andb_true_iff, !orb_true_iff, andb_true_iff. rewrite !Z.eqb_eq.
  tauto.
Qed.

Lemma allowed_connects r c : physical r -> physical c -> interaction_allowed tensor r c = connects tensor r c.
Proof.
  intros Hr Hc. apply eq_true_iff_eq. rewrite connects_iff. unfold interaction_allowed, same_spectator.
  rewrite !andb_true_iff, !Z.eqb_eq. split.
  - intros (H1 & H2 & H3). split; [ apply pchan; assumption | auto ].
  - intros (H & H2 & H3). split; [ | auto ].
    destruct (cnum r c Hr Hc H) as (E1 & E2 & E3 & _ & E5).
    apply phys_cases in Hr, Hc. unfold same_2N. rewrite E1, E2, E3, !Z.eqb_refl. cbn [andb].
    destruct E5 as [->|(-> & E5)]; [ rewrite Z.eqb_refl; apply orb_true_r | ].
    cbn [andb]. clear -Hr Hc E1 E2 E3 E5. lia.
Qed.

(* The chosen block, in terms of the channel's matrix and the positions of the two partial waves in it. *)
Lemma block_ptr_spec r c : In r states -> In c states ->
  block_ptr tensor iso Np r c =
    if connects tensor r c then
      match matrix_of tensor iso r with
      | (true, Ok z) => Ok (Some (true, (z * (4 * zn Np * zn Np) + Z.of_nat (block r * 2 + block c) * (zn Np * zn Np))%Z))
      | (false, Ok z) => Ok (Some (false, (z * (zn Np * zn Np))%Z))
      | _ => Err
      end
    else Ok None.
Proof.
  intros Hr Hc. destruct (in_phys r Hr) as [Pr Mr]. destruct (in_phys c Hc) as [Pc Mc].
  unfold block_ptr. rewrite allowed_connects by assumption.
  destruct (connects tensor r c) eqn:Ec; [ | reflexivity ]. apply connects_iff in Ec. destruct Ec as (Ec & _ & _).
  destruct (cdiag r c Pr Pc Ec) as (C1 & C2 & C3 & _).
  destruct (mrange r Pr (ms_J _ _ _ _ Mr)) as (z & Ez & Bz).
  rewrite Ez. unfold matrix_of in Ez. injection Ez as Ez. rewrite C3.
  change (coupled_via_L_2N tensor r c || coupled_via_T_3N iso r)%bool with (coupled_matrix tensor iso r c). rewrite C1.
  destruct (cnum r c Pr Pc Ec) as (N1 & N2 & N3 & N4 & N5).
  destruct (coupled_matrix tensor iso r r) eqn:Ecm.
  - rewrite Ez. cbn [obind]. unfold coupled_matrix in Ecm.
    pose proof (t3c r Pr) as T3r. pose proof (t3c c Pc) as T3c.
    destruct (coupled_via_T_3N iso r) eqn:EvT.
    + (* 1S0 with isospin breaking *)
      rewrite andb_true_r in C3. rewrite C3. cbn [andb orb].
      unfold coupled_via_T_3N in EvT. apply andb_true_iff in EvT. destruct EvT as [EvT Ei].
      rewrite !andb_true_iff, !Z.eqb_eq in EvT. destruct EvT as ((S0 & J0) & L0).
      unfold block. rewrite <- N1, <- N2, S0, J0. cbn [Z.eqb andb].
      destruct T3r as [-> | ->], T3c as [-> | ->]; cbn [Z.ltb Z.gtb Z.compare Pos.compare Pos.compare_cont Z.eqb Pos.eqb];
        f_equal; f_equal; f_equal; cbn [Z.of_nat Nat.mul Nat.add Pos.of_succ_nat Pos.succ]; ring.
    + rewrite orb_false_r in Ecm. rewrite C2, Ecm. cbn [andb orb]. rewrite !orb_false_r.
      unfold coupled_via_L_2N in Ecm. rewrite Z.eqb_refl in Ecm. cbn [negb orb andb] in Ecm.
      rewrite !andb_true_iff, !negb_true_iff, !Z.eqb_neq in Ecm. destruct Ecm as (Et & LJ & J0).
      assert (S1 : S_2N r = 1%Z) by (apply phys_cases in Pr; lia).
      assert (LJc : L_2N c <> J_2N c) by lia.
      pose proof (block_L (J_2N r) r Pr S1 eq_refl LJ) as Br.
      pose proof (block_L (J_2N r) c Pc ltac:(congruence) ltac:(congruence) ltac:(congruence)) as Bc.
      assert (Hb : (block r < 2)%nat /\ (block c < 2)%nat).
      { unfold block. split; repeat match goal with |- context [if ?b then _ else _] => destruct b end; lia. }
      rewrite <- N2. clear -Br Bc Hb N1 N2 LJ LJc S1 J0.
      destruct (block r) as [|[|br]]; [ | | lia ]; (destruct (block c) as [|[|bc]]; [ | | lia ]);
      repeat match goal with |- context [if ?b then _ else _] => destruct b eqn:?; try lia end;
        f_equal; f_equal; f_equal; cbn [Z.of_nat Nat.mul Nat.add Pos.of_succ_nat Pos.succ]; ring.
  - rewrite Ez. cbn [obind]. f_equal. f_equal. f_equal. ring.
Qed.

Lemma block_lt s : (block s < 2)%nat.
Proof. unfold block. repeat match goal with |- context [if ?b then _ else _] => destruct b end; lia. Qed.

Lemma connects_sym r c : connects tensor r c = connects tensor c r.
Proof.
  apply eq_true_iff_eq. rewrite !connects_iff. unfold same_2N_channel. rewrite (Z.add_comm (L_2N r)). 
  split; intros ((A & B & C & D) & E & F); repeat split; try (symmetry; assumption);
    (destruct D as [D|D]; [ left; symmetry; exact D | right; exact D ]).
Qed.

Lemma connects_matrix r c : In r states -> In c states -> connects tensor r c = true ->
  matrix_of tensor iso r = matrix_of tensor iso c.
Proof.
  intros Hr Hc H. apply connects_iff in H. destruct (in_phys r Hr) as [Pr Mr]. destruct (in_phys c Hc) as [Pc Mc].
  apply (minj r c Pr Pc). apply H.
Qed.

Lemma mat_of r : In r states -> exists z, matrix_of tensor iso r = (coupled_matrix tensor iso r r, Ok (Z.of_nat z)) /\
  z < if coupled_matrix tensor iso r r then Z.to_nat (num_2N_coup_states tensor iso Jm) else Z.to_nat (num_2N_unco_states tensor iso Jm).
Proof.
  intros Hr. destruct (in_phys r Hr) as [Pr Mr].
  destruct (mrange r Pr (ms_J _ _ _ _ Mr)) as (z & Ez & Bz). exists (Z.to_nat z).
  rewrite Z2Nat.id by (destruct (coupled_matrix tensor iso r r); lia). split; [ exact Ez | ].
  destruct (coupled_matrix tensor iso r r); lia.
Qed.

Lemma elem2_eq (M : list R * list R) r c i j z : mats_ok tensor iso Jm Np M -> In r states -> In c states ->
  matrix_of tensor iso r = (coupled_matrix tensor iso r r, Ok (Z.of_nat z)) -> i < Np -> j < Np ->
  elem2 tensor iso Np M r c i j =
    if coupled_matrix tensor iso r r then melem (snd M) (2 * Np) z (block r * Np + i) (block c * Np + j)
    else melem (fst M) Np z i j.
Proof.
  intros [L1 L2] Hr Hc Ez Hi Hj. unfold elem2, entry. rewrite Ez. pose proof (block_lt r). pose proof (block_lt c).
  destruct (mat_of r Hr) as (z' & Ez' & Bz). rewrite Ez in Ez'. injection Ez' as Ez'. assert (z' = z) by lia. subst z'.
  destruct (coupled_matrix tensor iso r r); rewrite Nat2Z.id.
  - unfold melem, coup_addr. rewrite (nth_error_nth' (snd M) 0%R); [ reflexivity | ].
    rewrite L2. assert ((block r * Np + i) * (2 * Np) + (block c * Np + j) < 2 * Np * (2 * Np)) by (apply rm_lt; nia). nia.
  - unfold melem, unco_addr. rewrite (nth_error_nth' (fst M) 0%R); [ reflexivity | ]. rewrite L1.
    assert (i * Np + j < Np * Np) by (apply rm_lt; assumption). nia.
Qed.


(* ---------- the table of pointers ---------- *)
Lemma block_ptr_ok r c : In r states -> In c states -> exists p, block_ptr tensor iso Np r c = Ok p.
Proof.
  intros Hr Hc. rewrite block_ptr_spec by assumption. destruct (mat_of r Hr) as (z & -> & _).
  destruct (connects tensor r c); [ destruct (coupled_matrix tensor iso r r) | ]; eauto.
Qed.

Lemma block_table_ok init : length init = length states * length states ->
  exists t, block_table tensor iso Np states init = Ok t /\ length t = length states * length states /\
    forall a b, a < length states -> b < length states ->
      exists p, aread t (a * length states + b) = Ok p /\
        block_ptr tensor iso Np (nth a states dummy_pw) (nth b states dummy_pw) = Ok p.
Proof.
  intros Hl. unfold block_table. set (N := length states) in *.
  set (cs := combine (seq 0 N) states).
  assert (Hcs : forall k s, In (k, s) cs <-> nth_error states k = Some s).
  { intros k s. unfold cs, N. rewrite in_combine_seq. rewrite Nat.sub_0_r. split; [ tauto | ]. split; [ lia | assumption ]. }
  set (val := fun x : (nat * pw) * (nat * pw) => match block_ptr tensor iso Np (snd (fst x)) (snd (snd x)) with Ok p => p | _ => None end).
  set (prs := flat_map (fun r => map (fun c => (r, c)) cs) cs).
  assert (Hin : forall k s, In (k, s) cs -> k < N /\ In s states).
  { intros k s H. apply Hcs in H. split; [ apply nth_error_Some; congruence | eapply nth_error_In; exact H ]. }
  destruct (scatter (fun x : (nat * pw) * (nat * pw) => fst (fst x) * N + fst (snd x)) val prs init) as (t & E & L & W & _).
  - intros [[k s] [k' s']] Hx. apply in_flat_map in Hx. destruct Hx as (r & Hr & Hx). apply in_map_iff in Hx.
    destruct Hx as (c & Ec & Hc). injection Ec as -> ->. cbn [fst snd]. rewrite Hl. apply Hin in Hr, Hc. apply rm_lt; tauto.
  - intros [[k s] [k' s']] [[m u] [m' u']] Hx Hy Ee. cbn [fst snd] in Ee.
    apply in_flat_map in Hx. destruct Hx as (r & Hr & Hx). apply in_map_iff in Hx. destruct Hx as (c & Ec & Hc). injection Ec as -> ->.
    apply in_flat_map in Hy. destruct Hy as (r & Hr' & Hy). apply in_map_iff in Hy. destruct Hy as (c & Ec & Hc'). injection Ec as -> ->.
    apply rm_inj in Ee; [ | apply (Hin _ _ Hc) | apply (Hin _ _ Hc') ]. destruct Ee as [-> ->].
    apply Hcs in Hr, Hc, Hr', Hc'. rewrite Hr in Hr'. rewrite Hc in Hc'. injection Hr' as <-. injection Hc' as <-. reflexivity.
  - exists t. split; [ | split; [ rewrite <- Hl; exact L | ] ].
    + rewrite <- E. unfold prs. apply ofold_flat. intros [k s] arr Hr. rewrite ofold_map. apply ofold_ext.
      intros [k' s'] arr' Hc. cbn [fst snd]. unfold val. cbn [fst snd].
      destruct (block_ptr_ok s s') as (p & Ep); [ eapply Hin; eassumption.. | ]. rewrite Ep. reflexivity.
    + intros a b Ha Hb.
      pose proof (nth_error_nth' states dummy_pw Ha) as Na. pose proof (nth_error_nth' states dummy_pw Hb) as Nb.
      destruct (block_ptr_ok (nth a states dummy_pw) (nth b states dummy_pw)) as (p & Ep); [ apply nth_In; assumption.. | ].
      exists p. split; [ | exact Ep ]. apply aread_some.
      specialize (W ((a, nth a states dummy_pw), (b, nth b states dummy_pw))). cbn [fst snd] in W. rewrite W; [ unfold val; cbn [fst snd]; rewrite Ep; reflexivity | ].
      apply in_flat_map. exists (a, nth a states dummy_pw). split; [ apply Hcs; exact Na | ]. apply in_map_iff.
      exists (b, nth b states dummy_pw). split; [ reflexivity | apply Hcs; exact Nb ].
Qed.

(* reading through the pointers *)
Definition reads_as (o : kop) (m : nat -> nat -> nat -> nat -> R) : Prop :=
  forall a b, a < length states -> b < length states -> exists p, aread (k_ptr o) (a * length states + b) = Ok p /\
    (connects tensor (nth a states dummy_pw) (nth b states dummy_pw) = false -> p = None) /\
    (connects tensor (nth a states dummy_pw) (nth b states dummy_pw) = true -> p <> None /\
       forall x y, x < Np -> y < Np -> kread o p (x * Np + y) = Ok (m a b x y)).

Lemma zread_nth (l : list R) z n : z = Z.of_nat n -> n < length l -> zread l z = Ok (nth n l 0%R).
Proof.
  intros -> Hn. unfold zread. replace (Z.of_nat n <? 0)%Z with false by lia. rewrite Nat2Z.id. apply areadn. exact Hn.
Qed.

Lemma op_reads u c t Mu Mc m :
  unco_has u Np (Z.to_nat (num_2N_unco_states tensor iso Jm)) Mu ->
  coup_has c Np (Z.to_nat (num_2N_coup_states tensor iso Jm)) Mc ->
  (forall a b, a < length states -> b < length states ->
      exists p, aread t (a * length states + b) = Ok p /\
        block_ptr tensor iso Np (nth a states dummy_pw) (nth b states dummy_pw) = Ok p) ->
  (forall a b z x y, a < length states -> b < length states -> x < Np -> y < Np ->
     let r := nth a states dummy_pw in let s := nth b states dummy_pw in
     connects tensor r s = true -> matrix_of tensor iso r = (coupled_matrix tensor iso r r, Ok (Z.of_nat z)) ->
     m a b x y = if coupled_matrix tensor iso r r then Mc z (block r * Np + x) (block s * Np + y) else Mu z x y) ->
  reads_as (mkkop u c t) m.
Proof.
  intros [Lu Hu] [Lc Hc] Ht Hm a b Ha Hb. cbn [k_ptr]. destruct (Ht a b Ha Hb) as (p & Ep & Bp). exists p. split; [ exact Ep | ].
  specialize (Hm a b). cbv zeta in Hm. set (r := nth a states dummy_pw) in *. set (s := nth b states dummy_pw) in *.
  assert (Ir : In r states) by (apply nth_In; assumption). assert (Is : In s states) by (apply nth_In; assumption).
  rewrite block_ptr_spec in Bp by assumption. destruct (mat_of r Ir) as (z & Ez & Bz). rewrite Ez in Bp.
  destruct (connects tensor r s) eqn:Ec; (split; [ intros Hx | intros Hx ]); try discriminate.
  2:{ injection Bp as <-. reflexivity. }
  pose proof (block_lt r) as B1. pose proof (block_lt s) as B2.
  destruct (coupled_matrix tensor iso r r) eqn:Ecm; match type of Bp with Ok ?q = Ok p => assert (Hq : p = q) by congruence; rewrite Hq; clear Bp Hq end; (split; [ discriminate | ]); intros x y Hx' Hy;
    cbn [kread k_coup k_unco].
  - rewrite (Hm z x y Ha Hb Hx' Hy eq_refl Ez).
    assert (Hxy : x * Np + y < Np * Np) by (apply rm_lt; assumption).
    rewrite (zread_nth c _ (z * (2 * Np * (2 * Np)) + (block r * 2 + block s) * (Np * Np) + x * Np + y)).
    + f_equal. apply Hc; assumption.
    + unfold zn. rewrite ?Nat2Z.inj_add, ?Nat2Z.inj_mul, ?Nat2Z.inj_add. rewrite ?Nat2Z.inj_mul. change (Z.of_nat 2) with 2%Z. ring.
    + rewrite Lc. replace (2 * Np * (2 * Np)) with (4 * (Np * Np)) by ring.
      assert (Hb3 : block r * 2 + block s <= 3) by lia. clear -Hxy Hb3 Bz.
      set (Q := Np * Np) in *. set (bb := block r * 2 + block s) in *. rewrite <- Nat.add_assoc.
      set (w := x * Np + y) in *. set (nc := Z.to_nat _) in *.
      assert (bb * Q <= 3 * Q) by (apply Nat.mul_le_mono_r; lia).
      assert ((z + 1) * (4 * Q) <= nc * (4 * Q)) by (apply Nat.mul_le_mono_r; lia). lia.
  - rewrite (Hm z x y Ha Hb Hx' Hy eq_refl Ez).
    assert (Hxy : x * Np + y < Np * Np) by (apply rm_lt; assumption).
    rewrite (zread_nth u _ (z * (Np * Np) + x * Np + y)).
    + f_equal. apply Hu; assumption.
    + unfold zn. rewrite ?Nat2Z.inj_add, ?Nat2Z.inj_mul, ?Nat2Z.inj_add. rewrite ?Nat2Z.inj_mul. change (Z.of_nat 2) with 2%Z. ring.
    + rewrite Lu. nia.
Qed.

Lemma create_CT_ok C iu ic ip : mats_ok tensor iso Jm Np C -> mats_ok tensor iso Jm Np (iu, ic) ->
  length ip = length states * length states ->
  exists o, create_CT tensor iso Jm Np states (fst C) (snd C) iu ic ip = Ok o /\
    reads_as o (fun a b x y => elem2 tensor iso Np C (nth b states dummy_pw) (nth a states dummy_pw) y x).
Proof.
  intros HC [Li1 Li2] Lp. pose proof HC as [LC1 LC2]. unfold create_CT. cbn [fst snd] in *.
  destruct (ct_matrices_ok false (Z.to_nat (num_2N_unco_states tensor iso Jm)) Np (fst C) iu LC1 Li1) as (u & Eu & Hu).
  destruct (ct_matrices_ok true (Z.to_nat (num_2N_coup_states tensor iso Jm)) Np (snd C) ic LC2 Li2) as (c & Ec & Hc).
  destruct (block_table_ok ip Lp) as (t & Et & Lt & Ht).
  rewrite Eu. cbn [obind]. rewrite Ec. cbn [obind]. rewrite Et. cbn [obind]. eexists. split; [ reflexivity | ].
  eapply op_reads; [ exact Hu | exact Hc | exact Ht | ].
  intros a b z x y Ha Hb Hx Hy r s Hcon Ez.
  assert (Ir : In r states) by (apply nth_In; assumption). assert (Is : In s states) by (apply nth_In; assumption).
  assert (Ez' : matrix_of tensor iso s = (coupled_matrix tensor iso s s, Ok (Z.of_nat z))).
  { pose proof (connects_matrix r s Ir Is Hcon) as E. rewrite Ez in E. rewrite <- E. unfold matrix_of in E. injection E as E _. rewrite E. reflexivity. }
  assert (Ecm : coupled_matrix tensor iso r r = coupled_matrix tensor iso s s).
  { pose proof (connects_matrix r s Ir Is Hcon) as E. rewrite Ez, Ez' in E. injection E as E. exact E. }
  fold r s. rewrite (elem2_eq C s r y x z HC Is Ir Ez' Hy Hx). rewrite Ecm. reflexivity.
Qed.

(* ---------- partial waves connected to a given one ---------- *)
Fixpoint lsum (F : pw -> R) (l : list pw) : R := match l with [] => 0%R | s :: r => (F s + lsum F r)%R end.
Lemma sum_shift (f : nat -> R) n : sum f (S n) = (f 0%nat + sum (fun i => f (S i)) n)%R.
Proof. unfold sum. cbn [seq map fold_right]. f_equal. rewrite <- seq_shift, map_map. reflexivity. Qed.
Lemma sum_lsum F l : sum (fun a => F (nth a l dummy_pw)) (length l) = lsum F l.
Proof. induction l as [|s l IH]; [ reflexivity | ]. cbn [length lsum]. rewrite sum_shift. cbn [nth]. rewrite IH. reflexivity. Qed.
Lemma lsum_zero F l : (forall s, In s l -> F s = 0%R) -> lsum F l = 0%R.
Proof. induction l as [|s l IH]; intros H; [ reflexivity | ]. cbn. rewrite H, IH by (intros; try apply H; cbn; auto). lra. Qed.
Lemma lsum_one F l s0 : NoDup l -> In s0 l -> (forall s, In s l -> s <> s0 -> F s = 0%R) -> lsum F l = F s0.
Proof.
  induction l as [|s l IH]; intros Hn Hi H; [ destruct Hi | ]. inversion Hn; subst. cbn [lsum].
  destruct Hi as [->|Hi].
  - rewrite lsum_zero; [ lra | ]. intros s Hs. apply H; [ right; exact Hs | congruence ].
  - rewrite IH; [ | assumption.. | intros; apply H; [ right; assumption | assumption ] ].
    rewrite H; [ lra | left; reflexivity | congruence ].
Qed.
Lemma lsum_two F l s0 s1 : NoDup l -> In s0 l -> In s1 l -> s0 <> s1 -> (forall s, In s l -> s <> s0 -> s <> s1 -> F s = 0%R) ->
  lsum F l = (F s0 + F s1)%R.
Proof.
  induction l as [|s l IH]; intros Hn H0 H1 Hne H; [ destruct H0 | ]. inversion Hn; subst. cbn [lsum].
  destruct H0 as [->|H0], H1 as [->|H1]; try congruence.
  - rewrite (lsum_one F l s1); [ reflexivity | assumption.. | ]. intros s Hs Hne'. apply H; [ right; exact Hs | congruence | exact Hne' ].
  - rewrite (lsum_one F l s0); [ lra | assumption.. | ]. intros s Hs Hne'. apply H; [ right; exact Hs | exact Hne' | congruence ].
  - rewrite IH; [ | assumption.. | intros; apply H; [ right; assumption | assumption | assumption ] ].
    rewrite (H s); [ lra | left; reflexivity | congruence | congruence ].
Qed.


Lemma pw_eq r c : L_2N r = L_2N c -> S_2N r = S_2N c -> J_2N r = J_2N c -> T_2N r = T_2N c -> L_1N r = L_1N c ->
  two_J_1N r = two_J_1N c -> two_J_3N r = two_J_3N c -> two_T_3N r = two_T_3N c -> P_3N r = P_3N c -> r = c.
Proof. destruct r, c; cbn. intros; congruence. Qed.
Lemma connects_refl r : connects tensor r r = true.
Proof. apply connects_iff. unfold same_2N_channel. tauto. Qed.
Lemma connects_trans r s c : connects tensor r s = true -> connects tensor s c = true -> connects tensor r c = true.
Proof.
  rewrite !connects_iff. unfold same_2N_channel. intros ((A1 & A2 & A3 & A4) & A5 & A6) ((B1 & B2 & B3 & B4) & B5 & B6).
  repeat split; try congruence. destruct A4 as [A4|[At A4]], B4 as [B4|[Bt B4]].
  - left; congruence.
  - right. rewrite A4. auto.
  - right. rewrite <- B4. auto.
  - right. split; [ exact At | ]. destruct A4 as [u Hu], B4 as [v Hv]. exists (u + v - L_2N s)%Z. lia.
Qed.

Let t3p := t3_plain tensor iso Jm mx states in_phys Hcfg.
Let vTc := viaT_chan tensor iso Jm mx states in_phys.

Lemma chn_eq r c : In r states -> In c states -> two_J_3N r = two_J_3N c /\ P_3N r = P_3N c.
Proof.
  intros Hr Hc. apply Hst in Hr, Hc. destruct Hr as [_ Hr], Hc as [_ Hc]. unfold chn_of in *. rewrite <- Hc in Hr.
  injection Hr as -> ->. auto.
Qed.

Lemma alone r c : In r states -> In c states -> coupled_matrix tensor iso r r = false -> connects tensor r c = true -> c = r.
Proof.
  intros Hr Hc Hcm H. destruct (in_phys r Hr) as [Pr Mr]. destruct (in_phys c Hc) as [Pc Mc].
  apply connects_iff in H. destruct H as (H & H5 & H6).
  destruct (cnum r c Pr Pc H) as (H1 & H2 & H3 & _ & H4). destruct (chn_eq r c Hr Hc) as [H7 H8].
  unfold coupled_matrix in Hcm. apply orb_false_iff in Hcm. destruct Hcm as [HcL HcT].
  pose proof (t3p r Hr HcT) as T1.
  assert (T2 : two_T_3N c = 1%Z) by (apply t3p; [ exact Hc | rewrite <- (vTc r c Pr Pc H); exact HcT ]).
  destruct H4 as [H4|(Et & S1 & J0 & LJ & LJ')].
  - symmetry. apply pw_eq; congruence.
  - exfalso. unfold coupled_via_L_2N in HcL. rewrite Et, Z.eqb_refl in HcL. clear -HcL LJ J0. cbn [andb negb orb] in HcL. lia.
Qed.

Lemma partners r : In r states -> coupled_matrix tensor iso r r = true ->
  exists s0 s1, In s0 states /\ In s1 states /\ connects tensor r s0 = true /\ connects tensor r s1 = true /\
    block s0 = 0 /\ block s1 = 1 /\ forall a, In a states -> connects tensor r a = true -> a = s0 \/ a = s1.
Proof.
  intros Hr Hcm. destruct (in_phys r Hr) as [Pr Mr].
  destruct (coupled_via_T_3N iso r) eqn:EvT.
  - (* 1S0, isospin breaking *)
    pose proof EvT as EvT'. unfold coupled_via_T_3N in EvT. apply andb_true_iff in EvT. destruct EvT as [EvT Ei].
    rewrite !andb_true_iff, !Z.eqb_eq in EvT. destruct EvT as ((S0 & J0) & L0).
    assert (T1 : T_2N r = 1%Z).
    { pose proof (phys_cases r Pr) as Q. rewrite odd_mod in Q. rewrite S0, L0 in Q. clear -Q. lia. }
    set (sb := fun t => mkpw 0 0 0 1 (L_1N r) (two_J_1N r) (two_J_3N r) t (P_3N r)).
    assert (Hin : forall t, t = 1%Z \/ t = 3%Z -> In (sb t) states).
    { intros t Ht. pose proof (proj1 (Hst r) Hr) as [[Q1 Q2] Q3]. apply Hst. split; [ split | exact Q3 ].
      - destruct Pr as [A1 A2 A3 A4 A5 A6 A7 A8]. rewrite S0, J0, L0, T1 in *. constructor; cbn; try assumption.
        unfold couples. clear -Ht. split; [ lia | ]. split; [ lia | ]. split; [ lia | ].
        destruct Ht as [-> | ->]; [ exists 2%Z | exists 3%Z ]; reflexivity.
      - destruct Q2 as [B1 B2 B3]. constructor; cbn; [ lia | assumption | tauto ]. }
    assert (Hc : forall t, connects tensor r (sb t) = true).
    { intros t. apply connects_iff. unfold same_2N_channel. cbn. rewrite S0, J0, L0, T1. tauto. }
    exists (sb 1%Z), (sb 3%Z). repeat split; try (apply Hin; tauto); try apply Hc.
    intros a Ha Hca. destruct (in_phys a Ha) as [Pa Ma]. apply connects_iff in Hca. destruct Hca as (H & H5 & H6).
    destruct (cnum r a Pr Pa H) as (H1 & H2 & H3 & _ & H4). destruct (chn_eq r a Hr Ha) as [H7 H8].
    assert (HL : L_2N a = 0%Z) by (clear -H4 L0 S0; lia).
    destruct (t3c a Pa) as [Ht|Ht]; [ left | right ]; apply pw_eq; cbn; congruence.
  - unfold coupled_matrix in Hcm. rewrite EvT, orb_false_r in Hcm.
    pose proof (t3p r Hr EvT) as T3.
    unfold coupled_via_L_2N in Hcm. rewrite Z.eqb_refl in Hcm. cbn [negb orb andb] in Hcm.
    rewrite !andb_true_iff, !negb_true_iff, !Z.eqb_neq in Hcm. destruct Hcm as (Et & LJ & J0).
    pose proof (phys_cases r Pr) as Q.
    assert (S1 : S_2N r = 1%Z) by (clear -Q LJ; lia).
    assert (JL : L_2N r = (J_2N r - 1)%Z \/ L_2N r = (J_2N r + 1)%Z) by (clear -Q LJ S1; lia).
    set (sb := fun L => mkpw L 1 (J_2N r) (T_2N r) (L_1N r) (two_J_1N r) (two_J_3N r) 1 (P_3N r)).
    assert (Hev : forall L, L = (J_2N r - 1)%Z \/ L = (J_2N r + 1)%Z -> exists d, (L = L_2N r + 2 * d)%Z).
    { clear -JL. intros L HL. destruct HL as [-> | ->], JL as [-> | ->]; [ exists 0%Z | exists (-1)%Z | exists 1%Z | exists 0%Z ]; ring. }
    assert (Hin : forall L, L = (J_2N r - 1)%Z \/ L = (J_2N r + 1)%Z -> In (sb L) states).
    { intros L HL. destruct (Hev L HL) as [d Hd]. pose proof (proj1 (Hst r) Hr) as [[Q1 Q2] Q3]. apply Hst. split; [ split | exact Q3 ].
      - destruct Pr as [A1 A2 A3 A4 A5 A6 A7 A8]. rewrite S1, T3 in *. constructor; unfold sb; cbn [L_2N S_2N J_2N T_2N L_1N two_J_1N two_J_3N two_T_3N P_3N]; try assumption.
        + destruct A3 as (_ & _ & A3 & _). unfold couples. clear -HL J0 Q. split; [ lia | ]. split; [ lia | ]. split; [ lia | ].
          exists (L + 1 + J_2N r)%Z. ring.
        + destruct A7 as [u Hu]. exists (u + d)%Z. rewrite Hd. clear -Hu. lia.
        + rewrite A8, Hd. replace (L_2N r + 2 * d + L_1N r)%Z with (L_2N r + L_1N r + 2 * d)%Z by ring.
          rewrite Z.even_add_mul_2. reflexivity.
      - destruct Q2 as [B1 B2 B3]. constructor; cbn; [ assumption | assumption | ]. intros Hx. discriminate Hx. }
    assert (Hc : forall L, L = (J_2N r - 1)%Z \/ L = (J_2N r + 1)%Z -> connects tensor r (sb L) = true).
    { intros L HL. destruct (Hev L HL) as [d Hd]. apply connects_iff. unfold same_2N_channel. cbn. repeat split; try congruence.
      right. split; [ exact Et | ]. exists (L_2N r + d)%Z. rewrite Hd. ring. }
    exists (sb (J_2N r - 1)%Z), (sb (J_2N r + 1)%Z).
    split; [ apply Hin; tauto | ]. split; [ apply Hin; tauto | ]. split; [ apply Hc; tauto | ]. split; [ apply Hc; tauto | ].
    split; [ unfold block, sb; cbn [S_2N J_2N L_2N]; destruct (_ <? _)%Z eqn:E; [ exfalso; clear -E; lia | reflexivity ] | ].
    split; [ unfold block, sb; cbn [S_2N J_2N L_2N]; destruct (_ <? _)%Z eqn:E; [ reflexivity | exfalso; clear -E; lia ] | ].
    intros a Ha Hca. destruct (in_phys a Ha) as [Pa Ma]. apply connects_iff in Hca. destruct Hca as (H & H5 & H6).
    destruct (cnum r a Pr Pa H) as (H1 & H2 & H3 & H9 & H4). destruct (chn_eq r a Hr Ha) as [H7 H8].
    assert (T3a : two_T_3N a = 1%Z) by (apply t3p; [ exact Ha | rewrite <- (vTc r a Pr Pa H); exact EvT ]).
    pose proof (phys_cases a Pa) as Qa.
    assert (JLa : L_2N a = (J_2N r - 1)%Z \/ L_2N a = (J_2N r + 1)%Z) by (clear -Qa H9 H1 H2 LJ S1; lia).
    destruct JLa as [E|E]; [ left | right ]; apply pw_eq; cbn; congruence.
Qed.

(* A two-nucleon product, block by block, is the product of the three-nucleon operators. *)
Lemma product_blocks V C r c z i j : mats_ok tensor iso Jm Np V -> mats_ok tensor iso Jm Np C -> In r states -> In c states ->
  connects tensor r c = true -> matrix_of tensor iso r = (coupled_matrix tensor iso r r, Ok (Z.of_nat z)) -> i < Np -> j < Np ->
  (if coupled_matrix tensor iso r r
   then sum (fun y => melem (snd V) (2 * Np) z (block r * Np + i) y * melem (snd C) (2 * Np) z y (block c * Np + j)) (2 * Np)
   else sum (fun y => melem (fst V) Np z i y * melem (fst C) Np z y j) Np)%R
  = lsum (fun a => if connects tensor r a && connects tensor a c
                   then sum (fun y => elem2 tensor iso Np V r a i y * elem2 tensor iso Np C a c y j)%R Np else 0%R) states.
Proof.
  intros HV HC Hr Hc Hcon Ez Hi Hj.
  assert (Hmat : forall a, In a states -> connects tensor r a = true -> matrix_of tensor iso a = (coupled_matrix tensor iso a a, Ok (Z.of_nat z))
     /\ coupled_matrix tensor iso a a = coupled_matrix tensor iso r r).
  { intros a Ha Hra. pose proof (connects_matrix r a Hr Ha Hra) as E. rewrite Ez in E.
    assert (E' : coupled_matrix tensor iso a a = coupled_matrix tensor iso r r) by (unfold matrix_of in E; congruence).
    rewrite E'. auto. }
  destruct (coupled_matrix tensor iso r r) eqn:Ecm.
  - destruct (partners r Hr Ecm) as (s0 & s1 & I0 & I1 & C0 & C1 & B0 & B1 & Hall).
    rewrite (lsum_two _ states s0 s1 Hnd I0 I1).
    + assert (K0 : connects tensor s0 c = true) by (apply connects_trans with r; [ rewrite connects_sym; exact C0 | exact Hcon ]).
      assert (K1 : connects tensor s1 c = true) by (apply connects_trans with r; [ rewrite connects_sym; exact C1 | exact Hcon ]).
      rewrite C0, C1, K0, K1. cbn [andb].
      match goal with |- sum ?f (2 * Np) = _ => replace (sum f (2 * Np)) with (sum f (Np + Np)) by (f_equal; lia) end.
      assert (Hsplit : forall f n m, sum f (n + m) = (sum f n + sum (fun k => f (n + k)%nat) m)%R).
      { intros f n m. induction m as [|m IH]; [ rewrite Nat.add_0_r; unfold sum at 3; cbn; lra | ].
        rewrite Nat.add_succ_r, !sum_S, IH. lra. }
      rewrite Hsplit. destruct (Hmat s0 I0 C0) as [Z0 M0]. destruct (Hmat s1 I1 C1) as [Z1 M1]. f_equal.
      * apply sum_ext. intros y Hy. rewrite (elem2_eq V r s0 i y z), (elem2_eq C s0 c y j z) by (try assumption; rewrite Ecm; assumption).
        rewrite Ecm, M0, B0. cbn [Nat.mul Nat.add]. reflexivity.
      * apply sum_ext. intros y Hy. rewrite (elem2_eq V r s1 i y z), (elem2_eq C s1 c y j z) by (try assumption; rewrite Ecm; assumption).
        rewrite Ecm, M1, B1. rewrite Nat.mul_1_l. reflexivity.
    + intros ->. congruence.
    + intros s Hs N0 N1. destruct (connects tensor r s) eqn:E; [ | reflexivity ]. destruct (Hall s Hs E); contradiction.
  - rewrite (lsum_one _ states r Hnd Hr).
    + rewrite connects_refl, Hcon. cbn [andb]. apply sum_ext. intros y Hy.
      rewrite (elem2_eq V r r i y z), (elem2_eq C r c y j z) by (try assumption; rewrite Ecm; assumption). rewrite Ecm. reflexivity.
    + intros s Hs Hne. destruct (connects tensor r s) eqn:E; [ | reflexivity ]. exfalso. apply Hne. exact (alone r s Hr Hs Ecm E).
Qed.

(* the product of two-nucleon operators between partial waves a, b *)
Definition prod2 (V C : list R * list R) (r c : pw) (i j : nat) : R :=
  lsum (fun a => if connects tensor r a && connects tensor a c
                 then sum (fun y => elem2 tensor iso Np V r a i y * elem2 tensor iso Np C a c y j)%R Np else 0%R) states.

Lemma create_VC_ok V C iu ic ip : mats_ok tensor iso Jm Np V -> mats_ok tensor iso Jm Np C -> mats_ok tensor iso Jm Np (iu, ic) ->
  length ip = length states * length states ->
  exists o, create_VC tensor iso Jm Np states (fst V) (snd V) (fst C) (snd C) iu ic ip = Ok o /\
    reads_as o (fun a b x y => prod2 V C (nth b states dummy_pw) (nth a states dummy_pw) y x).
Proof.
  intros HV HC [Li1 Li2] Lp. pose proof HC as [LC1 LC2]. pose proof HV as [LV1 LV2]. unfold create_VC. cbn [fst snd] in *.
  destruct (vc_matrices_ok false (Z.to_nat (num_2N_unco_states tensor iso Jm)) Np (fst V) (fst C) iu LV1 LC1 Li1) as (u & Eu & Hu).
  destruct (vc_matrices_ok true (Z.to_nat (num_2N_coup_states tensor iso Jm)) Np (snd V) (snd C) ic LV2 LC2 Li2) as (c & Ec & Hc).
  destruct (block_table_ok ip Lp) as (t & Et & Lt & Ht).
  rewrite Eu. cbn [obind]. rewrite Ec. cbn [obind]. rewrite Et. cbn [obind]. eexists. split; [ reflexivity | ].
  eapply op_reads; [ exact Hu | exact Hc | exact Ht | ].
  intros a b z x y Ha Hb Hx Hy r s Hcon Ez.
  assert (Ir : In r states) by (apply nth_In; assumption). assert (Is : In s states) by (apply nth_In; assumption).
  pose proof (connects_matrix r s Ir Is Hcon) as Em.
  assert (Ecm : coupled_matrix tensor iso s s = coupled_matrix tensor iso r r) by (unfold matrix_of in Em; congruence).
  rewrite Ez, <- Ecm in Em. symmetry in Em.
  fold r s. unfold prod2. rewrite <- (product_blocks V C s r z y x HV HC Is Ir ltac:(rewrite connects_sym; exact Hcon) Em Hy Hx).
  rewrite Ecm. reflexivity.
Qed.

End Chan.
