From Coq Require Import Reals Lra Sorted.
From Verif Require Import Common ArrayLib PWModel PWSpec PWChnProofs PWPropsLemmas SwpModel SwpProofs ResolventModel ResolventSpec ResolventArrayProofs
  GridModel GridSpec GridProofs GridPropsLemmas OnShellModel OnShellSpec OnShellProofs.
Open Scope nat_scope.

Lemma ofold_append {X Y} (f : list Y -> X -> outcome (list Y)) (g : X -> list Y) l :
  (forall x acc, In x l -> f acc x = Ok (acc ++ g x)) -> forall acc, ofold f l acc = Ok (acc ++ flat_map g l).
Proof.
  induction l as [|x l IH]; intros H acc; [ cbn; rewrite app_nil_r; reflexivity | ]. cbn [ofold flat_map].
  rewrite H by (left; reflexivity). cbn [obind]. rewrite IH by (intros; apply H; right; assumption). rewrite <- app_assoc. reflexivity.
Qed.

Section BU.
Variables (iso : bool) (Jm : Z) (Np Nq : nat) (e_unco e_coup q : list R) (states : list pw) (Eb : R).
Hypothesis Hstates : forall s, In s states -> physical s /\ (J_2N s <= Jm)%Z.
Hypothesis Lunco : Z.of_nat (length e_unco) = (num_2N_unco_states true iso Jm * Z.of_nat (Np + 1))%Z.
Hypothesis Lcoup : Z.of_nat (length e_coup) = (num_2N_coup_states true iso Jm * Z.of_nat (2 * (Np + 1)))%Z.
Hypothesis Lq : length q = Nq + 1.

(* the boundaries of the p bins of a state *)
Definition e_bound_of (s : pw) (k : nat) : R :=
  match matrix_of true iso s with (coup, Ok i) => nth (e_offset Np coup i s + k) (if coup then e_coup else e_unco) 0%R | _ => 0%R end.

Definition cell_list (E : R) (a : nat) (s : pw) (iq ip : nat) : list (Z * Z * Z) :=
  cell_triples E a iq ip (e_bound_of s ip) (e_bound_of s (ip + 1)) (E_free (nth iq q 0%R)) (E_free (nth (iq + 1) q 0%R)).
Definition energy_list (E : R) : list (Z * Z * Z) :=
  flat_map (fun sa => flat_map (fun iq => flat_map (fun ip => cell_list E (fst sa) (snd sa) iq ip) (seq 0 Np)) (seq 0 Nq))
    (combine (seq 0 (length states)) states).

Lemma energy_ok E : breakup_energy true iso Np Nq e_unco e_coup q states E = Ok (energy_list E).
Proof.
  unfold breakup_energy. rewrite (ofold_append _ (fun sa => flat_map (fun iq => flat_map (fun ip => cell_list E (fst sa) (snd sa) iq ip) (seq 0 Np)) (seq 0 Nq))); [ reflexivity | ].
  intros [a s] acc Hin. cbn [fst snd]. pose proof (in_combine_r _ _ _ _ Hin) as Hs. destruct (Hstates s Hs) as [Hp HJ].
  destruct (e_block_spec iso Np Jm s Hp HJ (phys_T3 s Hp)) as (coup & i & Hm & Hi & Hb). rewrite Hb. cbn [obind].
  rewrite (ofold_append _ (fun iq => flat_map (fun ip => cell_list E a s iq ip) (seq 0 Np))); [ reflexivity | ].
  intros iq acc1 Hq. apply in_seq in Hq. rewrite (aread_nth q iq 0%R), (aread_nth q (iq + 1) 0%R) by lia. cbn [obind].
  rewrite (ofold_append _ (fun ip => cell_list E a s iq ip)); [ reflexivity | ].
  intros ip acc2 Hip. apply in_seq in Hip.
  assert (Ho : e_offset Np coup i s + ip + 1 < length (if coup then e_coup else e_unco)).
  { eapply offset_bound; try eassumption. lia. }
  rewrite (zread_ok _ (Z.of_nat (e_offset Np coup i s) + zn ip) 0%R) by (unfold zn; lia). cbn [obind].
  rewrite (zread_ok _ (Z.of_nat (e_offset Np coup i s) + zn ip + 1) 0%R) by (unfold zn; lia). cbn [obind].
  unfold cell_list, e_bound_of. rewrite Hm.
  replace (Z.to_nat (Z.of_nat (e_offset Np coup i s) + zn ip)) with (e_offset Np coup i s + ip) by (unfold zn; lia).
  replace (Z.to_nat (Z.of_nat (e_offset Np coup i s) + zn ip + 1)) with (e_offset Np coup i s + (ip + 1)) by (unfold zn; lia).
  reflexivity.
Qed.

Lemma in_energy E t : In t (energy_list E) <-> exists a s iq ip, nth_error states a = Some s /\ iq < Nq /\ ip < Np /\ In t (cell_list E a s iq ip).
Proof.
  unfold energy_list. rewrite in_flat_map. split.
  - intros ([a s] & Ha & H). apply in_combine_seq in Ha. rewrite Nat.sub_0_r in Ha. apply in_flat_map in H. destruct H as (iq & Hq & H).
    apply in_flat_map in H. destruct H as (ip & Hp & H). apply in_seq in Hq, Hp. exists a, s, iq, ip. repeat split; try tauto; lia.
  - intros (a & s & iq & ip & Ha & Hq & Hp & H). exists (a, s). split; [ apply in_combine_seq; rewrite Nat.sub_0_r; split; [ lia | exact Ha ] | ].
    apply in_flat_map. exists iq. split; [ apply in_seq; lia | ]. apply in_flat_map. exists ip. split; [ apply in_seq; lia | exact H ].
Qed.

(* ---------- all energies ---------- *)
Definition chunk (E : R) : list (Z * Z * Z) := if Rltb (E + Eb) 0 then [] else energy_list E.
Definition ends_of (cs : list (list (Z * Z * Z))) : list nat := map (fun k => length (concat (firstn k cs))) (seq 0 (length cs + 1)).

Lemma ends_snoc cs c : ends_of (cs ++ [c]) = ends_of cs ++ [length (concat cs ++ c)].
Proof.
  unfold ends_of. rewrite app_length. cbn [length]. rewrite (Nat.add_1_r (length cs + 1)), seq_S, map_app. cbn [map plus]. f_equal.
  - apply map_ext_in. intros k Hk. apply in_seq in Hk. f_equal. f_equal. rewrite firstn_app.
    replace (k - length cs) with 0 by lia. cbn. rewrite app_nil_r. reflexivity.
  - rewrite firstn_all2 by (rewrite app_length; cbn; lia). rewrite concat_app. cbn. rewrite app_nil_r. reflexivity.
Qed.

Lemma cells_ok Es : breakup_cells true iso Np Nq e_unco e_coup q states Eb Es =
  if forallb (fun E => Rltb (E + Eb) 0 || match energy_list E with [] => false | _ => true end) Es
  then Ok (concat (map chunk Es), ends_of (map chunk Es)) else Err.
Proof.
  unfold breakup_cells.
  match goal with |- ofold ?f _ _ = _ => set (body := f) end.
  assert (G : forall l pre, ofold body l (concat (map chunk pre), ends_of (map chunk pre)) =
    if forallb (fun E => Rltb (E + Eb) 0 || match energy_list E with [] => false | _ => true end) l
    then Ok (concat (map chunk (pre ++ l)), ends_of (map chunk (pre ++ l))) else Err).
  { induction l as [|E l IH]; intros pre; [ cbn; rewrite app_nil_r; reflexivity | ]. cbn [ofold forallb]. unfold body at 1.
    assert (Hsnoc : forall c, c = chunk E -> (concat (map chunk pre) ++ c, ends_of (map chunk pre) ++ [length (concat (map chunk pre) ++ c)])
      = (concat (map chunk (pre ++ [E])), ends_of (map chunk (pre ++ [E])))).
    { intros c ->. rewrite map_app. cbn [map]. rewrite ends_snoc, concat_app. cbn [concat]. rewrite app_nil_r. reflexivity. }
    destruct (Rltb (E + Eb) 0) eqn:El; cbn [orb andb].
    - specialize (Hsnoc []). rewrite app_nil_r in Hsnoc. rewrite Hsnoc by (unfold chunk; rewrite El; reflexivity). cbn [obind].
      rewrite (IH (pre ++ [E])). rewrite <- app_assoc. reflexivity.
    - rewrite energy_ok. cbn [obind]. destruct (energy_list E) as [|t new] eqn:En; [ reflexivity | ]. cbn [andb].
      rewrite Hsnoc by (unfold chunk; rewrite El; symmetry; exact En). cbn [obind]. rewrite (IH (pre ++ [E])). rewrite <- app_assoc. reflexivity. }
  exact (G Es []).
Qed.

End BU.

Lemma chunk_slice cs k c : nth_error cs k = Some c ->
  nth (k + 1) (ends_of cs) 0 = nth k (ends_of cs) 0 + length c /\
  firstn (length c) (skipn (nth k (ends_of cs) 0) (concat cs)) = c.
Proof.
  intros Hk. assert (Lk : k < length cs) by (apply nth_error_Some; congruence). unfold ends_of.
  rewrite !nth_map_seq by lia.
  assert (Hs : cs = firstn k cs ++ c :: skipn (k + 1) cs).
  { rewrite <- (firstn_skipn k cs) at 1. f_equal. clear Lk. revert k Hk. induction cs as [|x cs IH]; intros [|k] Hk; try discriminate.
    - cbn in Hk. injection Hk as ->. reflexivity.
    - cbn. apply IH, Hk. }
  assert (Hf : firstn (k + 1) cs = firstn k cs ++ [c]).
  { clear Hs Lk. revert k Hk. induction cs as [|x cs IH]; intros [|k] Hk; try discriminate.
    - cbn in Hk. injection Hk as ->. reflexivity.
    - cbn [plus firstn app]. f_equal. apply IH, Hk. }
  rewrite Hf, concat_app, app_length. cbn [concat]. rewrite app_nil_r. split; [ reflexivity | ].
  rewrite Hs at 2. rewrite concat_app. cbn [concat]. rewrite skipn_app, Nat.sub_diag, skipn_all. cbn [skipn app].
  rewrite firstn_app, Nat.sub_diag, firstn_all. cbn. apply app_nil_r.
Qed.

(* ---------- neighbours ---------- *)
Lemma in_square plo phi qlo qhi p q x : In x (square plo phi qlo qhi p q) ->
  (plo <= snd x <= phi)%Z /\ (qlo <= fst x <= qhi)%Z /\ x <> (q, p).
Proof.
  unfold square. rewrite in_flat_map. intros (pi & Hpi & H). apply in_flat_map in H. destruct H as (qj & Hqj & H).
  apply in_for_range1 in Hpi, Hqj. destruct (negb (pi =? p) || negb (qj =? q))%Z eqn:E; [ | contradiction ].
  destruct H as [<-|[]]. cbn [fst snd]. repeat split; try lia. intros X. injection X as -> ->. rewrite !Z.eqb_refl in E. discriminate.
Qed.
Lemma in_neighbours E el eu kl ku p q x : In x (neighbours E el eu kl ku p q) ->
  (p - 1 <= snd x <= p + 1)%Z /\ (q - 1 <= fst x <= q + 1)%Z /\ x <> (q, p).
Proof.
  unfold neighbours. intros H.
  repeat match type of H with In _ (if ?b then _ else _) => destruct b end; try contradiction; apply in_square in H; destruct H as (H1 & H2 & H3);
    (split; [ lia | split; [ lia | exact H3 ] ]).
Qed.
Lemma in_cell E a iq ip el eu kl ku t : In t (cell_triples E a iq ip el eu kl ku) ->
  (el + kl <= E <= eu + ku)%R /\ (0 <= el)%R /\ (0 <= eu)%R /\
  fst (fst t) = Z.of_nat a /\ (Z.of_nat iq - 1 <= snd (fst t) <= Z.of_nat iq + 1)%Z /\ (Z.of_nat ip - 1 <= snd t <= Z.of_nat ip + 1)%Z.
Proof.
  unfold cell_triples. destruct (Rleb (el + kl) E && Rleb E (eu + ku) && Rleb 0 el && Rleb 0 eu) eqn:C; [ | intros [] ].
  rewrite !andb_true_iff, !Rleb_true in C. intros H. split; [ tauto | ]. split; [ tauto | ]. split; [ tauto | ].
  destruct H as [<-|H]; [ unfold zn; cbn [fst snd]; lia | ].
  apply in_map_iff in H. destruct H as (x & <- & H). apply in_neighbours in H. unfold zn in *. cbn [fst snd]. lia.
Qed.
