(* Small systems that meet the hypotheses of the theorems of FaddeevProps. *)
From Coq Require Import Reals Lra.
From Verif Require Import Common ArrayLib PWModel PWSpec SwpModel ResolventModel GridSpec GridPropsLemmas PotentialSpec
  KernelModel KernelSpec KernelProofs KernelColProofs KernelPropsLemmas FaddeevModel FaddeevSpec FaddeevLink.
Open Scope nat_scope.

(* two-nucleon matrices equal to the unit matrix, one p bin *)
Definition unit_mats (nu nc : nat) : list R * list R := (repeat 1%R nu, concat (repeat [1; 0; 0; 1]%R nc)).
Definition ex_sys (N : nat) (CT VC : kop) (P : csc) (G : list cdouble) (q d : list nat) (b : bool) (ends : list nat) (cells : list (nat * nat * nat)) : fsys :=
  mkfsys N 1 1 CT VC P G q d b ends cells.

Lemma sum_unit f n a : a < n -> sum (fun k => (if k =? a then 1 else 0) * f k)%R n = f a.
Proof.
  intros Ha. induction n as [|n IH]; [ lia | ]. rewrite PermPropsLemmas.sum_S. destruct (Nat.eqb_spec n a) as [->|Hn].
  - rewrite Rmult_1_l. rewrite (PermPropsLemmas.sum_zero _ a); [ ring | ]. intros k Hk. replace (k =? a) with false by (symmetry; apply Nat.eqb_neq; lia). ring.
  - rewrite IH by lia. ring.
Qed.
Section Ex.
Variables (J : Z) (states : list pw) (nu nc : nat) (ss : statespace).
Hypothesis Hss : construct_symmetric_pw_states_g 0 J 1 false = Ok ss.
Hypothesis Hch : (0 < ss_N_chn ss)%Z.
Hypothesis Hst : channel_slice ss 0 = Ok states.
Hypothesis Hnu : Z.to_nat (num_2N_unco_states true false J) = nu.
Hypothesis Hnc : Z.to_nat (num_2N_coup_states true false J) = nc.
Let E := unit_mats nu nc.
Let N := length states.
Hypothesis Hid : forall a b, a < N -> b < N -> op3 true false 1 states E (a, 0, 0) (b, 0, 0) = if a =? b then 1%R else 0%R.

Lemma unit_ok : mats_ok true false J 1 E.
Proof.
  unfold mats_ok. rewrite Hnu, Hnc. cbn [E unit_mats fst snd]. rewrite repeat_length. split; [ lia | ].
  clear. induction nc as [|n IH]; [ reflexivity | ]. cbn [repeat concat]. rewrite app_length, IH. cbn [length]. lia.
Qed.
Lemma ex_system P G q d b ends cells :
  csc_ok N P -> length G = length q * N -> (forall x, In x q -> x < 1) -> (forall x, In x d -> x < N) ->
  (b = true -> length ends = length q + 1 /\ (forall x, x < length q -> nth x ends 0 <= nth (x + 1) ends 0) /\
     nth (length q) ends 0 <= length cells /\ forall x, In x cells -> valid3 N 1 1 x) ->
  exists CT VC, channel_system (ex_sys N CT VC P G q d b ends cells) true false J 1 0 states E E.
Proof.
  intros HP HG Hq Hd Hb. pose proof unit_ok as HE.
  destruct (blocks 0%Z J 1%Z false ss 0%Z states true 1 1 E E ltac:(lia) ltac:(exists 0%Z; reflexivity) Hss ltac:(lia) Hst (or_introl eq_refl) HE HE
    (repeat 0%R (length (fst E))) (repeat 0%R (length (snd E))) (repeat None (N * N)) (repeat 0%R (length (fst E))) (repeat 0%R (length (snd E))) (repeat None (N * N)))
    as (CT & VC & E1 & E2 & _).
  - unfold mats_ok in *. cbn [fst snd]. rewrite !repeat_length. exact HE.
  - apply repeat_length.
  - unfold mats_ok in *. cbn [fst snd]. rewrite !repeat_length. exact HE.
  - apply repeat_length.
  - exists CT, VC. split.
    + lia.
    + exists 0%Z; reflexivity.
    + exists 0%Z, ss. split; [ exact Hss | ]. split; [ lia | exact Hst ].
    + left; reflexivity.
    + exact HE.
    + exact HE.
    + cbn. split; [ reflexivity | ]. split.
      * do 3 eexists. split; [ | split; [ | exact E1 ] ]; [ | apply repeat_length ]. unfold mats_ok in *. cbn [fst snd]. rewrite !repeat_length. exact HE.
      * do 3 eexists. split; [ | split; [ | exact E2 ] ]; [ | apply repeat_length ]. unfold mats_ok in *. cbn [fst snd]. rewrite !repeat_length. exact HE.
    + unfold inputs_ok, s_D, s_nq, s_nBU. cbn [ex_sys s_Np s_Nq s_N s_P s_G s_q s_d s_breakup s_ends s_cells]. rewrite !Nat.mul_1_r.
      split; [ lia | ]. split; [ lia | ]. split; [ exact HP | ]. split; [ exact HG | ]. split; [ exact Hq | ]. split; [ exact Hd | exact Hb ].
Qed.

Lemma sum_1 f : sum f 1 = f 0. Proof. unfold sum. cbn. ring. Qed.
Lemma sum3_1 f : sum3 N 1 1 f = sum (fun a => f (a, 0, 0)) N.
Proof. unfold sum3. apply sum_ext. intros a Ha. rewrite sum_1, sum_1. reflexivity. Qed.
Lemma state_1 i : state_of 1 1 i = (i, 0, 0).
Proof. unfold state_of. rewrite Nat.mul_1_r, Nat.mod_1_r, !Nat.div_1_r. reflexivity. Qed.
Lemma ex_kernel CT VC P G q d b ends cells i j : i < N -> j < N ->
  kernel_matrix (ex_sys N CT VC P G q d b ends cells) true false states E E i j = (2 * csc_elem P i j)%R.
Proof.
  intros Hi Hj. unfold kernel_matrix. cbn [ex_sys s_Np s_Nq s_N s_P]. rewrite !state_1. unfold kernel. rewrite sum3_1.
  rewrite (sum_ext _ (fun a => ((if a =? i then 1 else 0) * (2 * csc_elem P a j))%R)).
  - rewrite (sum_unit (fun a => 2 * csc_elem P a j)%R) by exact Hi. reflexivity.
  - intros a Ha. rewrite sum3_1. rewrite Hid by assumption.
    rewrite (sum_ext _ (fun b0 => ((if b0 =? j then 1 else 0) * ((if a =? i then 1 else 0) * (2 * csc_elem P a b0)))%R)).
    + rewrite (sum_unit (fun b0 => ((if a =? i then 1 else 0) * (2 * csc_elem P a b0))%R)) by exact Hj. reflexivity.
    + intros b0 Hb0. rewrite sum3_1.
      rewrite (sum_ext _ (fun k => ((if k =? b0 then 1 else 0) * (if k =? j then 1 else 0))%R)).
      * rewrite (sum_unit (fun k => (if k =? j then 1 else 0)%R)) by exact Hb0. unfold idx3. rewrite !Nat.mul_1_r, !Nat.add_0_r. ring.
      * intros k Hk. rewrite !Hid by assumption. rewrite (Nat.eqb_sym b0 k). reflexivity.
Qed.
End Ex.

(* ---------- J_2N_max = 1: the ten partial waves of J = 1/2+; the deuteron is in states 4 and 5 ---------- *)
Definition no_space : statespace := mkss [] [] 0.
Definition ss_of (J : Z) : statespace := match construct_symmetric_pw_states_g 0 J 1 false with Ok x => x | _ => no_space end.
Definition states_of (J : Z) : list pw := match channel_slice (ss_of J) 0 with Ok l => l | _ => [] end.
Lemma ss10_ok : construct_symmetric_pw_states_g 0 1 1 false = Ok (ss_of 1) /\ channel_slice (ss_of 1) 0 = Ok (states_of 1) /\ length (states_of 1) = 10.
Proof. split; [ | split ]; vm_compute; reflexivity. Qed.
Lemma ss2_ok : construct_symmetric_pw_states_g 0 0 1 false = Ok (ss_of 0) /\ channel_slice (ss_of 0) 0 = Ok (states_of 0) /\ length (states_of 0) = 2.
Proof. split; [ | split ]; vm_compute; reflexivity. Qed.
Definition deuteron_wave (x : pw) : bool := ((L_2N x =? 0) && (S_2N x =? 1) && (J_2N x =? 1) && (T_2N x =? 0))%Z%bool.
Lemma deuterons_10 : filter (fun a => deuteron_wave (nth a (states_of 1) dummy_pw)) (seq 0 10) = [4; 5].
Proof. vm_compute. reflexivity. Qed.
Lemma id10 a b : a < length (states_of 1) -> b < length (states_of 1) ->
  op3 true false 1 (states_of 1) (unit_mats 4 1) (a, 0, 0) (b, 0, 0) = if a =? b then 1%R else 0%R.
Proof.
  rewrite (proj2 (proj2 ss10_ok)). intros Ha Hb.
  do 10 (destruct a as [|a]; [ do 10 (destruct b as [|b]; [ vm_compute; reflexivity | ]); lia | ]). lia.
Qed.
Lemma id2 a b : a < length (states_of 0) -> b < length (states_of 0) ->
  op3 true false 1 (states_of 0) (unit_mats 2 0) (a, 0, 0) (b, 0, 0) = if a =? b then 1%R else 0%R.
Proof.
  rewrite (proj2 (proj2 ss2_ok)). intros Ha Hb.
  do 2 (destruct a as [|a]; [ do 2 (destruct b as [|b]; [ vm_compute; reflexivity | ]); lia | ]). lia.
Qed.

(* a kernel with the two diagonal elements al (state 4) and be (state 5) *)
Definition P10 (al be : R) : csc := mkcsc [al / 2; be / 2]%R [4; 5] [0; 0; 0; 0; 0; 1; 2; 2; 2; 2; 2].
Lemma P10_ok al be : csc_ok 10 (P10 al be).
Proof.
  unfold csc_ok. cbn [P10 c_row c_val c_col length]. split; [ reflexivity | ]. split; [ reflexivity | ]. split.
  - intros [|[|k]] H; cbn; lia.
  - intros j H. do 10 (destruct j as [|j]; [ cbn; lia | ]). lia.
Qed.
Lemma P10_elem al be i j : i < 10 -> j < 10 -> csc_elem (P10 al be) i j = if i =? j then (if i =? 4 then al / 2 else if i =? 5 then be / 2 else 0)%R else 0%R.
Proof.
  intros Hi Hj.
  do 10 (destruct i as [|i]; [ do 10 (destruct j as [|j]; [ cbv -[Rplus Rdiv IZR]; lra | ]); lia | ]). lia.
Qed.
(* resolvents g4 and g5 of these two states *)
Definition G10 (g4 g5 : R) : list cdouble := [c0; c0; c0; c0; rc g4; rc g5; c0; c0; c0; c0].
Definition sys10 CT VC al be g4 g5 b ends cells : fsys := ex_sys 10 CT VC (P10 al be) (G10 g4 g5) [0] [4; 5] b ends cells.
Notation E10 := (unit_mats 4 1).
Notation A10 CT VC al be g4 g5 b ends cells := (kernel_matrix (sys10 CT VC al be g4 g5 b ends cells) true false (states_of 1) E10 E10).
Lemma sys10_ok al be g4 g5 b ends cells :
  (b = true -> length ends = 2 /\ nth 0 ends 0 <= nth 1 ends 0 /\ nth 1 ends 0 <= length cells /\ forall x, In x cells -> valid3 10 1 1 x) ->
  exists CT VC, channel_system (sys10 CT VC al be g4 g5 b ends cells) true false 1 1 0 (states_of 1) E10 E10.
Proof.
  intros Hb. destruct ss10_ok as (S1 & S2 & S3).
  assert (HN : 10 = length (states_of 1)) by (symmetry; exact S3). unfold sys10.
  destruct (ex_system 1 (states_of 1) 4 1 (ss_of 1) S1 ltac:(vm_compute; reflexivity) S2 eq_refl eq_refl id10 (P10 al be) (G10 g4 g5) [0] [4; 5] b ends cells) as (CT & VC & H).
  - rewrite <- HN. apply P10_ok.
  - rewrite <- HN. reflexivity.
  - intros x [<-|[]]; lia.
  - rewrite <- HN. intros x [<-|[<-|[]]]; lia.
  - intros Ht. destruct (Hb Ht) as (H1 & H2 & H3 & H4). cbn [length]. split; [ exact H1 | ]. split; [ | split; [ exact H3 | rewrite <- HN; exact H4 ] ].
    intros x Hx. assert (x = 0) by lia. subst x. exact H2.
  - exists CT, VC. rewrite S3 in H. exact H.
Qed.
Lemma A10_elem CT VC al be g4 g5 b ends cells i j : i < 10 -> j < 10 ->
  A10 CT VC al be g4 g5 b ends cells i j = if i =? j then (if i =? 4 then al else if i =? 5 then be else 0)%R else 0%R.
Proof.
  intros Hi Hj. destruct ss10_ok as (S1 & S2 & S3). unfold sys10. pose proof (ex_kernel (states_of 1) 4 1 id10 CT VC (P10 al be) (G10 g4 g5) [0] [4; 5] b ends cells i j) as H.
  rewrite S3 in H. rewrite H by assumption. rewrite P10_elem by assumption. destruct (i =? j); [ | lra ]. destruct (i =? 4); [ lra | ]. destruct (i =? 5); lra.
Qed.

(* ---------- J_2N_max = 0: two partial waves, a full two by two kernel ---------- *)
Definition P2 (a b c d : R) : csc := mkcsc [a / 2; c / 2; b / 2; d / 2]%R [0; 1; 0; 1] [0; 2; 4].
Definition sys2 CT VC a b c d g : fsys := ex_sys 2 CT VC (P2 a b c d) [rc g; rc g] [0] [0; 1] false [] [].
Notation E2 := (unit_mats 2 0).
Lemma sys2_ok a b c d g : exists CT VC, channel_system (sys2 CT VC a b c d g) true false 0 1 0 (states_of 0) E2 E2.
Proof.
  destruct ss2_ok as (S1 & S2 & S3). assert (HN : 2 = length (states_of 0)) by (symmetry; exact S3). unfold sys2.
  destruct (ex_system 0 (states_of 0) 2 0 (ss_of 0) S1 ltac:(vm_compute; reflexivity) S2 eq_refl eq_refl id2 (P2 a b c d) [rc g; rc g] [0] [0; 1] false [] []) as (CT & VC & H).
  - rewrite <- HN. unfold csc_ok. cbn [P2 c_row c_val c_col length]. split; [ reflexivity | ]. split; [ reflexivity | ]. split.
    + intros [|[|[|[|k]]]] H; cbn; lia.
    + intros [|[|j]] H; cbn; lia.
  - rewrite <- HN. reflexivity.
  - intros x [<-|[]]; lia.
  - rewrite <- HN. intros x [<-|[<-|[]]]; lia.
  - discriminate.
  - exists CT, VC. rewrite S3 in H. exact H.
Qed.
Lemma A2_elem CT VC a b c d g i j : i < 2 -> j < 2 ->
  kernel_matrix (sys2 CT VC a b c d g) true false (states_of 0) E2 E2 i j = match i, j with O, O => a | O, _ => b | _, O => c | _, _ => d end.
Proof.
  intros Hi Hj. destruct ss2_ok as (S1 & S2 & S3). unfold sys2. pose proof (ex_kernel (states_of 0) 2 0 id2 CT VC (P2 a b c d) [rc g; rc g] [0] [0; 1] false [] [] i j) as H.
  rewrite S3 in H. rewrite H by assumption.
  destruct i as [|[|i]]; [ | | lia ]; (destruct j as [|[|j]]; [ | | lia ]); cbv -[Rplus Rdiv Rmult IZR]; lra.
Qed.
