From Coq Require Import String.
From Verif Require Import Common ArrayLib NameModel PWModel SwpModel ResolventModel OutputModel OutputSpec.
Open Scope list_scope.
Open Scope nat_scope.

Lemma ofold_append {X A} (f : X -> outcome (list A)) (g : X -> list A) l : forall acc,
  (forall x, In x l -> f x = Ok (g x)) -> ofold (fun acc x => do y <- f x; Ok (acc ++ y)) l acc = Ok (acc ++ flat_map g l).
Proof.
  induction l as [|x l IH]; intros acc H; cbn; [ rewrite app_nil_r; reflexivity | ].
  rewrite (H x (or_introl eq_refl)). cbn [obind]. rewrite IH by (intros; apply H; right; assumption). rewrite <- app_assoc. reflexivity.
Qed.
Lemma ofold_append' {X A} (f : list A -> X -> outcome (list A)) (g : X -> list A) l : forall acc,
  (forall acc x, In x l -> f acc x = Ok (acc ++ g x)) -> ofold f l acc = Ok (acc ++ flat_map g l).
Proof.
  induction l as [|x l IH]; intros acc H; cbn; [ rewrite app_nil_r; reflexivity | ].
  rewrite (H acc x (or_introl eq_refl)). cbn [obind]. rewrite IH by (intros; apply H; right; assumption). rewrite <- app_assoc. reflexivity.
Qed.
Lemma nth_flat_rows {A} (g : nat -> nat -> A) n m i j : i < n -> j < m ->
  nth_error (flat_map (fun r => flat_map (fun c => [g r c]) (seq 0 m)) (seq 0 n)) (i * m + j) = Some (g i j).
Proof.
  assert (Hin : forall r, flat_map (fun c => [g r c]) (seq 0 m) = map (g r) (seq 0 m)).
  { intros r. induction (seq 0 m) as [|c l IH]; cbn; [ reflexivity | rewrite IH; reflexivity ]. }
  rewrite (flat_map_ext _ (fun r => map (g r) (seq 0 m)) Hin). clear Hin.
  assert (G : forall n a i, i < n -> j < m -> nth_error (flat_map (fun r => map (g r) (seq 0 m)) (seq a n)) (i * m + j) = Some (g (a + i) j)).
  { induction n0 as [|n0 IH]; intros a i0 Hi Hj; [ lia | ]. cbn [seq flat_map]. destruct i0 as [|i0].
    - rewrite nth_error_app1 by (rewrite map_length, seq_length; lia). rewrite nth_error_map, (nth_error_nth' _ 0) by (rewrite seq_length; lia).
      rewrite seq_nth by lia. cbn. rewrite Nat.add_0_r. reflexivity.
    - rewrite nth_error_app2 by (rewrite map_length, seq_length; lia). rewrite map_length, seq_length.
      replace (S i0 * m + j - m) with (i0 * m + j) by lia. rewrite IH by lia. rewrite <- plus_n_Sm. reflexivity. }
  intros Hi Hj. apply (G n 0 i Hi Hj).
Qed.
Lemma length_flat_const {X A} (f : X -> list A) m l : (forall x, In x l -> length (f x) = m) -> length (flat_map f l) = length l * m.
Proof.
  induction l as [|x l IH]; intros H; [ reflexivity | ]. cbn [flat_map length]. rewrite app_length, (H x (or_introl eq_refl)), IH by (intros; apply H; right; assumption). lia.
Qed.
Lemma length_flat_rows {A} (g : nat -> nat -> A) n m :
  length (flat_map (fun r => flat_map (fun c => [g r c]) (seq 0 m)) (seq 0 n)) = n * m.
Proof.
  rewrite (length_flat_const _ m); [ rewrite seq_length; reflexivity | ]. intros x _. rewrite (length_flat_const _ 1) by reflexivity. rewrite seq_length. lia.
Qed.

Section E.
Context {V : Type}.
Definition t1_of (states : list pw) (deut : list nat) (d : pw) (r c : nat) : t1_line :=
  let st k := nth (nth k deut 0) states d in
  mkt1 ("U" ++ str_of_nat r ++ str_of_nat c) r c (L_1N (st r)) (two_J_1N (st r)) (L_1N (st c)) (two_J_1N (st c)).
Lemma table1_ok states deut d : (forall k, In k deut -> k < length states) ->
  table1 states deut = Ok (flat_map (fun r => flat_map (fun c => [t1_of states deut d r c]) (seq 0 (length deut))) (seq 0 (length deut))).
Proof.
  intros H. unfold table1.
  assert (R : forall r, r < length deut -> aread deut r = Ok (nth r deut 0) /\ aread states (nth r deut 0) = Ok (nth (nth r deut 0) states d)).
  { intros r Hr. split; apply aread_some, nth_error_nth'; [ exact Hr | ]. apply H, nth_In, Hr. }
  rewrite (ofold_append' _ (fun r => flat_map (fun c => [t1_of states deut d r c]) (seq 0 (length deut)))); [ reflexivity | ].
  intros acc r Hr. apply in_seq in Hr. destruct (R r) as [R1 R2]; [ lia | ]. rewrite R1. cbn [obind]. rewrite R2. cbn [obind]. apply ofold_append'. intros acc' c Hc. apply in_seq in Hc.
  destruct (R c) as [R3 R4]; [ lia | ]. rewrite R3. cbn [obind]. rewrite R4. reflexivity.
Qed.
Lemma table2_ok nd nq (U T E : list V) qi v0 : length U = nd * nd * nq -> length T = nq -> length E = nq -> length qi = nq ->
  table2 V nd nq U T E qi = Ok (flat_map (fun q => [mkt2 V (nth q T v0) (nth q E v0) (nth q qi 0)
     (flat_map (fun r => flat_map (fun c => [nth ((r * nd + c) * nq + q) U v0]) (seq 0 nd)) (seq 0 nd))]) (seq 0 nq)).
Proof.
  intros HU HT HE Hq. unfold table2. match goal with |- _ = Ok (flat_map ?g _) => rewrite (ofold_append' _ g); [ reflexivity | ] end. intros acc q Hin. apply in_seq in Hin.
  rewrite (aread_some qi q (nth q qi 0)) by (apply nth_error_nth'; lia). cbn [obind]. rewrite (aread_some T q (nth q T v0)) by (apply nth_error_nth'; lia). cbn [obind]. rewrite (aread_some E q (nth q E v0)) by (apply nth_error_nth'; lia). cbn [obind].
  rewrite (ofold_append' _ (fun r => flat_map (fun c => [nth ((r * nd + c) * nq + q) U v0]) (seq 0 nd))); [ reflexivity | ].
  intros acc' r Hr. apply in_seq in Hr. apply ofold_append'. intros acc'' c Hc. apply in_seq in Hc.
  rewrite (aread_some U _ (nth ((r * nd + c) * nq + q) U v0)); [ reflexivity | ].
  replace (r * nd * nq + c * nq + q) with ((r * nd + c) * nq + q) by lia. apply nth_error_nth'. rewrite HU.
  assert (r * nd + c < nd * nd) by (apply rm_lt; lia). apply rm_lt; lia.
Qed.

Lemma nth_flat_single {A} (g : nat -> A) n i : i < n -> nth_error (flat_map (fun q => [g q]) (seq 0 n)) i = Some (g i).
Proof.
  intros H. assert (E : flat_map (fun q => [g q]) (seq 0 n) = map g (seq 0 n)) by (induction (seq 0 n) as [|x l IH]; cbn; congruence).
  rewrite E, nth_error_map, (nth_error_nth' _ 0) by (rewrite seq_length; lia). rewrite seq_nth by lia. reflexivity.
Qed.
Lemma store_main states deut nq (U T E : list V) qi : let nd := length deut in
  (exists s0, nth_error states 0 = Some s0 /\ (P_3N s0 = 1 \/ P_3N s0 = -1)%Z) -> (forall k, In k deut -> k < length states) ->
  length U = nd * nd * nq -> length T = nq -> length E = nq -> length qi = nq ->
  exists t1 t2, store_U V states deut nq U T E qi = Ok (t1, headers2, t2) /\ length t1 = nd * nd /\ length t2 = nq /\
   (forall i j, i < nd -> j < nd -> exists si sj, nth_error states (nth i deut 0) = Some si /\ nth_error states (nth j deut 0) = Some sj /\
      nth_error t1 (i * nd + j) = Some (mkt1 ("U" ++ str_of_nat i ++ str_of_nat j) i j (L_1N si) (two_J_1N si) (L_1N sj) (two_J_1N sj))) /\
   (forall q, q < nq -> exists line, nth_error t2 q = Some line /\
      nth_error T q = Some (t2_T V line) /\ nth_error E q = Some (t2_E V line) /\ nth_error qi q = Some (t2_q V line) /\
      length (t2_U V line) = nd * nd /\
      forall i j, i < nd -> j < nd -> nth_error (t2_U V line) (i * nd + j) = amplitude nd nq U i j q).
Proof.
  intros nd (s0 & H0 & HP) Hd HU HT HE Hq. unfold store_U. rewrite (aread_some states 0 s0 H0). cbn [obind].
  replace (negb ((P_3N s0 =? 1) || (P_3N s0 =? -1))%Z) with false by (symmetry; apply negb_false_iff; lia).
  rewrite (table1_ok states deut s0 Hd). cbn [obind].
  assert (HV : nq = 0 \/ exists v0 : V, True) by (destruct T as [|v T]; [ left; cbn in HT; lia | right; exists v; exact I ]).
  destruct HV as [->|[v0 _]].
  - cbn [table2 seq ofold obind]. do 2 eexists. split; [ reflexivity | ]. split; [ apply length_flat_rows | ]. split; [ reflexivity | ]. split; [ | intros; lia ].
    intros i j Hi Hj. exists (nth (nth i deut 0) states s0), (nth (nth j deut 0) states s0).
    split; [ apply nth_error_nth', Hd, nth_In, Hi | ]. split; [ apply nth_error_nth', Hd, nth_In, Hj | ].
    exact (nth_flat_rows (t1_of states deut s0) _ _ i j Hi Hj).
  - change (table2 V (length deut)) with (table2 V nd). rewrite (table2_ok nd nq U T E qi v0 HU HT HE Hq). cbn [obind]. do 2 eexists. split; [ reflexivity | ]. split; [ apply length_flat_rows | ].
    split; [ rewrite (length_flat_const _ 1) by reflexivity; rewrite seq_length; lia | ]. split.
    + intros i j Hi Hj. exists (nth (nth i deut 0) states s0), (nth (nth j deut 0) states s0).
      split; [ apply nth_error_nth', Hd, nth_In, Hi | ]. split; [ apply nth_error_nth', Hd, nth_In, Hj | ].
      exact (nth_flat_rows (t1_of states deut s0) _ _ i j Hi Hj).
    + intros q Hlt. eexists. split; [ rewrite nth_flat_single by exact Hlt; reflexivity | ]. cbn [t2_T t2_E t2_q t2_U].
      split; [ apply nth_error_nth'; lia | ]. split; [ apply nth_error_nth'; lia | ]. split; [ apply nth_error_nth'; lia | ].
      split; [ apply length_flat_rows | ]. intros i j Hi Hj. rewrite (nth_flat_rows (fun r c => nth ((r * nd + c) * nq + q) U v0) _ _ i j Hi Hj).
      symmetry. apply nth_error_nth'. rewrite HU. assert (i * nd + j < nd * nd) by (apply rm_lt; lia). apply rm_lt; lia.
Qed.

(* the fixed header is that of a 3x3 table *)
Lemma header_at i j k : i < 3 -> j < 3 -> nth_error headers2 (3 + k) = Some (U_header i j) <-> k = i * 3 + j.
Proof.
  intros Hi Hj. destruct i as [|[|[|i]]]; [ | | | lia ]; (destruct j as [|[|[|j]]]; [ | | | lia ]);
  (split; [ intros H; do 12 (destruct k as [|k]; [ first [ reflexivity | vm_compute in H; discriminate ] | ]); vm_compute in H; destruct k; discriminate | intros ->; vm_compute; reflexivity ]).
Qed.
End E.
