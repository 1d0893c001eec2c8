From Coq Require Import ZifyBool.
From Verif Require Import Common PWModel PWSpec.
Ltac Zify.zify_post_hook ::= Z.div_mod_to_equations.

Ltac pws := cbn [L_2N S_2N J_2N T_2N L_1N two_J_1N two_J_3N two_T_3N P_3N fst snd] in *.

Lemma divide2_Even z : (2 | z) <-> Z.Even z.
Proof. split; intros [k Hk]; exists k; lia. Qed.

Lemma in_chn_states Jmax iso twoJ3 prem s :
  0 < twoJ3 -> Z.Odd twoJ3 -> (prem = 0 \/ prem = 1) ->
  In s (chn_states Jmax iso twoJ3 prem) <->
  (physical s /\ (J_2N s <= Jmax /\
    (two_T_3N s = 3 -> iso = true /\ L_2N s = 0 /\ S_2N s = 0 /\ J_2N s = 0)) /\
   two_J_3N s = twoJ3 /\ P_3N s = 1 - 2 * prem).
Proof.
  intros Hpos Hodd Hprem. unfold chn_states. rewrite in_flat_map. split.
  - intros (twoT3 & HT3 & H).
    apply in_flat_map in H. destruct H as (J & HJ & H).
    apply in_flat_map in H. destruct H as (S & HS & H).
    apply in_flat_map in H. destruct H as (L & HL & H).
    apply in_flat_map in H. destruct H as (T & HT & H).
    destruct (negb ((L + S + T) mod 2 =? 0)) eqn:Hpauli; [ | contradiction ].
    apply in_flat_map in H. destruct H as (twoj & Hj & H).
    apply in_flat_map in H. destruct H as (l & Hl & H).
    destruct ((L + l) mod 2 =? prem) eqn:Hpar; [ | contradiction ].
    destruct ((twoT3 =? 3) && negb ((S =? 0) && (L =? 0) && (J =? 0))) eqn:HT3r; [ contradiction | ].
    destruct H as [<-|[]].
    apply in_for_range in HT3; [ | lia ]. destruct HT3 as [HT3 HT3d].
    apply in_for_range1 in HJ, HS, HL, HT, Hl.
    apply in_for_range in Hj; [ | lia ]. destruct Hj as [Hj Hjd].
    destruct HT3d as [q1 Hq1]. destruct Hjd as [q2 Hq2]. destruct Hodd as [q3 Hq3].
    assert (HT3v : twoT3 = 1 \/ (twoT3 = 3 /\ iso = true))
      by (unfold two_T_3N_max in HT3; destruct iso; lia).
    assert (HTv : (0 <= T <= 1 /\ twoT3 = 1) \/ (T = 1 /\ twoT3 = 3)).
    { destruct HT3v as [->|[-> _]]; cbn in HT; lia. }
    clear HT. unfold couples.
    split; [ constructor; pws; unfold couples | ].
    + split; [ lia | split; [ lia | split; [ lia | ] ] ]. exists (1 + S). lia.
    + split; [ lia | split; [ lia | split; [ lia | ] ] ]. exists (1 + T). lia.
    + split; [ lia | split; [ lia | split; [ lia | ] ] ]. exists (L + S + J). lia.
    + assert (twoj = 2 * l + 1 \/ twoj = 2 * l - 1) by lia.
      split; [ lia | split; [ lia | split; [ lia | ] ] ].
      destruct H as [->| ->]; [ exists (2 * l + 1) | exists (2 * l) ]; lia.
    + split; [ lia | split; [ lia | split; [ lia | ] ] ].
      destruct (Z.abs_spec (twoJ3 - 2 * J)) as [[? Ha]|[? Ha]]; rewrite Ha in *;
      [ exists (q2 + twoJ3) | exists (2 * J + q2) ]; lia.
    + destruct HTv as [[? ->]|[-> ->]]; [ | split; [ lia | split; [ lia | split; [ lia | exists 3; lia ] ] ] ].
      assert (T = 0 \/ T = 1) as [-> | ->] by lia;
      (split; [ lia | split; [ lia | split; [ lia | ] ] ]); [ exists 1 | exists 2 ]; lia.
    + apply Z.odd_spec. rewrite Zmod_odd in Hpauli. destruct (Z.odd (L + S + T)); [ reflexivity | discriminate ].
    + rewrite Zmod_even in Hpar. destruct (Z.even (L + l)) eqn:He; lia.
    + pws. split; [ split; [ lia | ] | split; lia ].
      intros ->. destruct HT3v as [|[_ ->]]; [ lia | ]. split; [ reflexivity | lia ].
  - intros (Hph & (HJm & HT3r) & H3 & HP). destruct s as [L S J T l twoj tJ3 tT3 P]. pws. subst tJ3 P.
    destruct Hph as [HS HT HJ Hj HJ3 HT3 Hpauli HP]; pws; unfold couples in *.
    assert (HSv : 0 <= S <= 1) by lia. assert (HTv : 0 <= T <= 1) by lia.
    assert (Htj : twoj = 2 * l + 1 \/ twoj = 2 * l - 1).
    { destruct Hj as (_ & _ & Hj & [k Hk]). lia. }
    assert (HtT : tT3 = 1 \/ (tT3 = 3 /\ T = 1)).
    { destruct HT3 as (_ & _ & HT3 & [k Hk]). lia. }
    exists tT3. split.
    { apply in_for_range; [ lia | ]. unfold two_T_3N_max.
      destruct HtT as [->|[-> _]]; [ split; [ destruct iso; lia | exists 0; lia ] | ].
      destruct HT3r as [-> _]; [ reflexivity | ]. split; [ lia | exists 1; lia ]. }
    apply in_flat_map. exists J. split; [ apply in_for_range1; lia | ].
    apply in_flat_map. exists S. split; [ apply in_for_range1; lia | ].
    apply in_flat_map. exists L. split; [ apply in_for_range1; lia | ].
    apply in_flat_map. exists T. split.
    { apply in_for_range1. destruct HtT as [->|[-> ->]]; cbn; lia. }
    replace (negb ((L + S + T) mod 2 =? 0)) with true.
    2:{ apply Z.odd_spec in Hpauli. rewrite Zmod_odd, Hpauli. reflexivity. }
    apply in_flat_map. exists twoj. split.
    { apply in_for_range; [ lia | ]. split; [ lia | ].
      destruct HJ3 as (_ & _ & _ & [k Hk]).
      destruct (Z.abs_spec (twoJ3 - 2 * J)) as [[? Ha]|[? Ha]]; rewrite Ha in *.
      - exists (k - twoJ3). lia.
      - exists (k - 2 * J). lia. }
    apply in_flat_map. exists l. split; [ apply in_for_range1; lia | ].
    replace ((L + l) mod 2 =? prem) with true.
    2:{ rewrite Zmod_even. destruct (Z.even (L + l)); lia. }
    replace ((tT3 =? 3) && negb ((S =? 0) && (L =? 0) && (J =? 0))) with false by lia.
    left. reflexivity.
Qed.

Lemma NoDup_chn_states Jmax iso twoJ3 prem : NoDup (chn_states Jmax iso twoJ3 prem).
Proof.
  unfold chn_states.
  apply NoDup_flat_map; [ apply NoDup_for_range; lia | intros twoT3 _ | ].
  2:{ intros x y b _ _ Hx Hy.
      apply in_flat_map in Hx. destruct Hx as (? & _ & Hx).
      apply in_flat_map in Hx. destruct Hx as (? & _ & Hx).
      apply in_flat_map in Hx. destruct Hx as (? & _ & Hx).
      apply in_flat_map in Hx. destruct Hx as (? & _ & Hx).
      destruct (negb _) in Hx; [ | contradiction ].
      apply in_flat_map in Hx. destruct Hx as (? & _ & Hx).
      apply in_flat_map in Hx. destruct Hx as (? & _ & Hx).
      destruct (_ =? prem) in Hx; [ | contradiction ].
      destruct (_ && _) in Hx; [ contradiction | ]. destruct Hx as [<-|[]].
      apply in_flat_map in Hy. destruct Hy as (? & _ & Hy).
      apply in_flat_map in Hy. destruct Hy as (? & _ & Hy).
      apply in_flat_map in Hy. destruct Hy as (? & _ & Hy).
      apply in_flat_map in Hy. destruct Hy as (? & _ & Hy).
      destruct (negb _) in Hy; [ | contradiction ].
      apply in_flat_map in Hy. destruct Hy as (? & _ & Hy).
      apply in_flat_map in Hy. destruct Hy as (? & _ & Hy).
      destruct (_ =? prem) in Hy; [ | contradiction ].
      destruct (_ && _) in Hy; [ contradiction | ]. destruct Hy as [Heq|[]].
      injection Heq; intros; congruence. }
  apply NoDup_flat_map; [ apply NoDup_for_range; lia | intros J _ | ].
  2:{ intros x y b _ _ Hx Hy.
      apply in_flat_map in Hx. destruct Hx as (? & _ & Hx).
      apply in_flat_map in Hx. destruct Hx as (? & _ & Hx).
      apply in_flat_map in Hx. destruct Hx as (? & _ & Hx).
      destruct (negb _) in Hx; [ | contradiction ].
      apply in_flat_map in Hx. destruct Hx as (? & _ & Hx).
      apply in_flat_map in Hx. destruct Hx as (? & _ & Hx).
      destruct (_ =? prem) in Hx; [ | contradiction ].
      destruct (_ && _) in Hx; [ contradiction | ]. destruct Hx as [<-|[]].
      apply in_flat_map in Hy. destruct Hy as (? & _ & Hy).
      apply in_flat_map in Hy. destruct Hy as (? & _ & Hy).
      apply in_flat_map in Hy. destruct Hy as (? & _ & Hy).
      destruct (negb _) in Hy; [ | contradiction ].
      apply in_flat_map in Hy. destruct Hy as (? & _ & Hy).
      apply in_flat_map in Hy. destruct Hy as (? & _ & Hy).
      destruct (_ =? prem) in Hy; [ | contradiction ].
      destruct (_ && _) in Hy; [ contradiction | ]. destruct Hy as [Heq|[]].
      injection Heq; intros; congruence. }
  apply NoDup_flat_map; [ apply NoDup_for_range; lia | intros S _ | ].
  2:{ intros x y b _ _ Hx Hy.
      apply in_flat_map in Hx. destruct Hx as (? & _ & Hx).
      apply in_flat_map in Hx. destruct Hx as (? & _ & Hx).
      destruct (negb _) in Hx; [ | contradiction ].
      apply in_flat_map in Hx. destruct Hx as (? & _ & Hx).
      apply in_flat_map in Hx. destruct Hx as (? & _ & Hx).
      destruct (_ =? prem) in Hx; [ | contradiction ].
      destruct (_ && _) in Hx; [ contradiction | ]. destruct Hx as [<-|[]].
      apply in_flat_map in Hy. destruct Hy as (? & _ & Hy).
      apply in_flat_map in Hy. destruct Hy as (? & _ & Hy).
      destruct (negb _) in Hy; [ | contradiction ].
      apply in_flat_map in Hy. destruct Hy as (? & _ & Hy).
      apply in_flat_map in Hy. destruct Hy as (? & _ & Hy).
      destruct (_ =? prem) in Hy; [ | contradiction ].
      destruct (_ && _) in Hy; [ contradiction | ]. destruct Hy as [Heq|[]].
      injection Heq; intros; congruence. }
  apply NoDup_flat_map; [ apply NoDup_for_range; lia | intros L _ | ].
  2:{ intros x y b _ _ Hx Hy.
      apply in_flat_map in Hx. destruct Hx as (? & _ & Hx).
      destruct (negb _) in Hx; [ | contradiction ].
      apply in_flat_map in Hx. destruct Hx as (? & _ & Hx).
      apply in_flat_map in Hx. destruct Hx as (? & _ & Hx).
      destruct (_ =? prem) in Hx; [ | contradiction ].
      destruct (_ && _) in Hx; [ contradiction | ]. destruct Hx as [<-|[]].
      apply in_flat_map in Hy. destruct Hy as (? & _ & Hy).
      destruct (negb _) in Hy; [ | contradiction ].
      apply in_flat_map in Hy. destruct Hy as (? & _ & Hy).
      apply in_flat_map in Hy. destruct Hy as (? & _ & Hy).
      destruct (_ =? prem) in Hy; [ | contradiction ].
      destruct (_ && _) in Hy; [ contradiction | ]. destruct Hy as [Heq|[]].
      injection Heq; intros; congruence. }
  apply NoDup_flat_map; [ apply NoDup_for_range; lia | intros T _ | ].
  2:{ intros x y b _ _ Hx Hy.
      destruct (negb _) in Hx; [ | contradiction ].
      apply in_flat_map in Hx. destruct Hx as (? & _ & Hx).
      apply in_flat_map in Hx. destruct Hx as (? & _ & Hx).
      destruct (_ =? prem) in Hx; [ | contradiction ].
      destruct (_ && _) in Hx; [ contradiction | ]. destruct Hx as [<-|[]].
      destruct (negb _) in Hy; [ | contradiction ].
      apply in_flat_map in Hy. destruct Hy as (? & _ & Hy).
      apply in_flat_map in Hy. destruct Hy as (? & _ & Hy).
      destruct (_ =? prem) in Hy; [ | contradiction ].
      destruct (_ && _) in Hy; [ contradiction | ]. destruct Hy as [Heq|[]].
      injection Heq; intros; congruence. }
  destruct (negb _); [ | constructor ].
  apply NoDup_flat_map; [ apply NoDup_for_range; lia | intros twoj _ | ].
  2:{ intros x y b _ _ Hx Hy.
      apply in_flat_map in Hx. destruct Hx as (? & _ & Hx).
      destruct (_ =? prem) in Hx; [ | contradiction ].
      destruct (_ && _) in Hx; [ contradiction | ]. destruct Hx as [<-|[]].
      apply in_flat_map in Hy. destruct Hy as (? & _ & Hy).
      destruct (_ =? prem) in Hy; [ | contradiction ].
      destruct (_ && _) in Hy; [ contradiction | ]. destruct Hy as [Heq|[]].
      injection Heq; intros; congruence. }
  apply NoDup_flat_map; [ apply NoDup_for_range; lia | intros l _ | ].
  - destruct (_ =? prem); [ | constructor ]. destruct (_ && _); [ constructor | ].
    constructor; [ intros [] | constructor ].
  - intros x y b _ _ Hx Hy.
    destruct (_ =? prem) in Hx; [ | contradiction ].
    destruct (_ && _) in Hx; [ contradiction | ]. destruct Hx as [<-|[]].
    destruct (_ =? prem) in Hy; [ | contradiction ].
    destruct (_ && _) in Hy; [ contradiction | ]. destruct Hy as [Heq|[]].
    injection Heq; intros; congruence.
Qed.
