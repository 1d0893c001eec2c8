From Coq Require Import String Ascii DecimalString DecimalZ Decimal DecimalFacts.
From Verif Require Import Common NameModel.
Open Scope string_scope.

Lemma to_string_inj a b : to_string a = to_string b -> a = b.
Proof.
  unfold to_string. intros H. assert (G : NilZero.int_of_string (NilZero.string_of_int (Z.to_int a)) = NilZero.int_of_string (NilZero.string_of_int (Z.to_int b))) by (rewrite H; reflexivity).
  rewrite !NilZero.isi in G by (destruct a as [|p|p], b as [|p'|p']; cbn; intros Hc; inversion Hc; 
     first [ now apply DecimalPos.Unsigned.to_uint_nonnil in H1 | idtac ]).
  injection G as G. apply (f_equal Z.of_int) in G. rewrite !DecimalZ.of_to in G. exact G.
Qed.

(* characters of a decimal numeral *)
Fixpoint no_char (c : ascii) (s : string) : Prop :=
  match s with EmptyString => True | String d r => d <> c /\ no_char c r end.
Definition numeral_char (c : ascii) : bool :=
  match uint_of_char c (Some Decimal.Nil) with Some _ => true | None => Ascii.eqb c "-"%char end.

Lemma no_char_app c a b : no_char c (a ++ b) <-> no_char c a /\ no_char c b.
Proof. induction a as [|d a IH]; cbn; [ tauto | rewrite IH; tauto ]. Qed.
Lemma uint_no_char c u : numeral_char c = false -> no_char c (NilEmpty.string_of_uint u).
Proof.
  intros H. induction u; cbn; try exact I; (split; [ intros <-; discriminate H | exact IHu ]).
Qed.
Lemma zuint_no_char c u : numeral_char c = false -> no_char c (NilZero.string_of_uint u).
Proof.
  intros H. destruct u; try (apply (uint_no_char c _ H)). cbn. split; [ intros <-; discriminate H | exact I ].
Qed.
Lemma to_string_no_char c z : numeral_char c = false -> no_char c (to_string z).
Proof.
  intros H. unfold to_string. destruct (Z.to_int z); cbn [NilZero.string_of_int].
  - apply zuint_no_char, H.
  - cbn. split; [ intros <-; discriminate H | apply zuint_no_char, H ].
Qed.

(* a separator character that occurs in neither prefix splits uniquely *)
Lemma split_unique c a b x y : no_char c a -> no_char c b ->
  a ++ String c x = b ++ String c y -> a = b /\ x = y.
Proof.
  revert b; induction a as [|d a IH]; intros [|e b] Ha Hb H; cbn in *.
  - injection H as H. auto.
  - injection H as -> H. destruct Hb as [Hb _]; congruence.
  - injection H as -> H. destruct Ha as [Ha _]; congruence.
  - injection H as -> H. destruct (IH b) as [-> ->]; tauto.
Qed.
Lemma num_split c a b x y : numeral_char c = false ->
  to_string a ++ String c x = to_string b ++ String c y -> a = b /\ x = y.
Proof.
  intros Hc H. apply split_unique in H; try (apply to_string_no_char, Hc).
  destruct H as [H ->]. split; [ apply to_string_inj, H | reflexivity ].
Qed.
Lemma app_inj_l (p a b : string) : p ++ a = p ++ b -> a = b.
Proof. induction p as [|c p IH]; cbn; intros H; [ exact H | injection H; exact IH ]. Qed.

Lemma subarray_name_inj folder twoJ P Np Nq J2 t k t' k' :
  subarray_file_name folder twoJ P Np Nq J2 t k = subarray_file_name folder twoJ P Np Nq J2 t' k' -> t = t' /\ k = k'.
Proof.
  unfold subarray_file_name. intros H. repeat apply app_inj_l in H.
  cbn [append] in H. apply num_split in H; [ | reflexivity ]. destruct H as [-> H]. split; [ reflexivity | ].
  cbn [append] in H. apply num_split in H; [ | reflexivity ]. tauto.
Qed.

Lemma str_app_assoc (a b c : string) : (a ++ b) ++ c = a ++ (b ++ c).
Proof. induction a as [|d a IH]; cbn; [ reflexivity | rewrite IH; reflexivity ]. Qed.

(* the name determines every number in it *)
Lemma P123_name_inj folder J P Np Nq J2 J' P' Np' Nq' J2' :
  P123_file_name folder J P Np Nq J2 = P123_file_name folder J' P' Np' Nq' J2' ->
  (J, P, Np, Nq, J2) = (J', P', Np', Nq', J2').
Proof.
  unfold P123_file_name. intros H. do 3 apply app_inj_l in H. cbn [append] in H.
  apply num_split in H; [ | reflexivity ]. destruct H as [-> H].
  apply num_split in H; [ | reflexivity ]. destruct H as [-> H]. injection H as H.
  apply num_split in H; [ | reflexivity ]. destruct H as [-> H]. injection H as H.
  apply num_split in H; [ | reflexivity ]. destruct H as [-> H]. injection H as H.
  apply num_split in H; [ | reflexivity ]. destruct H as [-> _]. reflexivity.
Qed.
