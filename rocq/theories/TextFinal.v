From Coq Require Import String Ascii Reals Psatz.
From Flocq Require Import Core.
From Verif Require Import Common ArrayLib NameModel PWModel SwpModel OutputModel OutputSpec OutputProofs OutputPropsLemmas TextModel TextSpec TextNum TextProofs TextLines TextFileProofs.
Open Scope string_scope.
Open Scope list_scope.
Open Scope nat_scope.

Lemma one_line_iff s : one_line s -> oneline s.
Proof.
  unfold one_line, oneline. induction s as [|c s IH]; intros H; [ reflexivity | ]. cbn [allc]. apply andb_true_iff. split.
  - apply negb_true_iff. destruct (Ascii.eqb_spec c "010") as [->|]; [ | reflexivity ]. exfalso. exact (H 0 _ eq_refl eq_refl).
  - apply IH. intros i d Hd. exact (H (S i) d Hd).
Qed.

Lemma plain_iff x : no_minus_zero x -> plain x. Proof. exact (fun H => H). Qed.
Lemma unsigned_iff x : nonnegative x -> unsigned x.
Proof. intros [F H]. split; [ exact F | ]. destruct x; try contradiction; exact H. Qed.
Lemma unsigned_plain x : unsigned x -> plain x.
Proof. intros [F H]. split; [ exact F | ]. intros ->. discriminate H. Qed.
Lemma shows_real_sci x : finite x -> shows_real (Some (sci 16 x)) x.
Proof.
  intros F. destruct (read_real_sci 16 x F) as (v & H1 & H2). exists (sci 16 x), v. split; [ reflexivity | ]. split; [ exact H1 | ]. split; [ exact H2 | ].
  apply rounded_identifies; assumption.
Qed.
Lemma shows_complex_text u : plain (fst u) -> plain (snd u) -> shows_complex (Some (complex_text (fst u) (snd u))) u.
Proof.
  intros A B. destruct (read_complex_text _ _ A B) as (v & w & H1 & H2 & H3). exists (complex_text (fst u) (snd u)), v, w. split; [ reflexivity | ].
  split; [ exact H1 | ]. destruct A as [A _], B as [B _]. repeat (split; [ assumption || (apply rounded_identifies; assumption) | ]). apply rounded_identifies; assumption.
Qed.

(* ---------- elastic ---------- *)
Notation cplx := (double * double)%type.
Lemma small_name i j : (Z.of_nat i < 10000)%Z -> (Z.of_nat j < 10000)%Z -> clean ("U" ++ str_of_nat i ++ str_of_nat j)%string /\ 0 < String.length ("U" ++ str_of_nat i ++ str_of_nat j)%string < 10.
Proof.
  intros Hi Hj. unfold str_of_nat. split.
  - apply clean_app. split; [ reflexivity | ]. apply clean_app. split; apply to_string_clean.
  - rewrite !slength_app. pose proof (to_string_length (Z.of_nat i) 4 ltac:(change (10 ^ Z.of_nat 4)%Z with 10000%Z; lia) ltac:(lia)) as A.
    pose proof (to_string_length (Z.of_nat j) 4 ltac:(change (10 ^ Z.of_nat 4)%Z with 10000%Z; lia) ltac:(lia)) as B.
    replace (Z.of_nat i <? 0)%Z with false in A by (symmetry; apply Z.ltb_ge; lia). replace (Z.of_nat j <? 0)%Z with false in B by (symmetry; apply Z.ltb_ge; lia).
    cbn [String.length]. lia.
Qed.
Lemma nth_error_map' {A B} (f : A -> B) l i x : nth_error l i = Some x -> nth_error (map f l) i = Some (f x).
Proof. intros H. now rewrite nth_error_map, H. Qed.
Definition small (z : Z) : Prop := (- 10 ^ 8 < z < 10 ^ 8)%Z.
Lemma elastic_readable states deut nq (U : list cplx) (T E : list double) qi twoJ P model Np Nq Eb : let nd := length deut in
  (exists s0, nth_error states 0 = Some s0 /\ (P_3N s0 = 1 \/ P_3N s0 = -1)%Z) -> (forall k, In k deut -> k < length states) ->
  length U = nd * nd * nq -> length T = nq -> length E = nq -> length qi = nq ->
  (Z.of_nat nd <= 10000)%Z -> (forall s, In s states -> small (L_1N s) /\ small (two_J_1N s)) -> (forall k, In k qi -> small (Z.of_nat k)) ->
  Forall nonnegative T -> Forall nonnegative E -> Forall (fun u => no_minus_zero (fst u) /\ no_minus_zero (snd u)) U -> one_line model -> one_line Eb ->
  exists t1 h t2, store_U cplx states deut nq U (map creal T) (map creal E) qi = Ok (t1, h, t2) /\
   let tab := table (elastic_file cplx fst snd twoJ P model Np Nq Eb t1 h t2) in
   length tab = nd * nd + nq /\
   (forall i j, i < nd -> j < nd -> exists row si sj, nth_error tab (i * nd + j) = Some row /\ length row = 7 /\
      nth_error states (nth i deut 0) = Some si /\ nth_error states (nth j deut 0) = Some sj /\
      nth_error row 0 = Some ("U" ++ str_of_nat i ++ str_of_nat j)%string /\
      shows_int (nth_error row 1) (Z.of_nat i) /\ shows_int (nth_error row 2) (Z.of_nat j) /\
      shows_int (nth_error row 3) (L_1N si) /\ shows_int (nth_error row 4) (two_J_1N si) /\
      shows_int (nth_error row 5) (L_1N sj) /\ shows_int (nth_error row 6) (two_J_1N sj)) /\
   (forall q, q < nq -> exists row t e k, nth_error tab (nd * nd + q) = Some row /\ length row = 3 + nd * nd /\
      nth_error T q = Some t /\ nth_error E q = Some e /\ nth_error qi q = Some k /\
      shows_real (nth_error row 0) t /\ shows_real (nth_error row 1) e /\ shows_int (nth_error row 2) (Z.of_nat k) /\
      (forall i j, i < nd -> j < nd -> exists u, amplitude nd nq U i j q = Some u /\ shows_complex (nth_error row (3 + (i * nd + j))) u)).
Proof.
  intros nd H0 Hd HU HT HE Hq Hnd Hsm Hqs FT FE FU HM HEb.
  destruct (store_main states deut nq U (map creal T) (map creal E) qi H0 Hd HU) as (t1 & t2 & E1 & L1 & L2 & A1 & A2); try (rewrite map_length); try assumption. fold nd in L1, A1, A2.
  exists t1, headers2, t2. split; [ exact E1 | ]. cbn zeta.
  rewrite (elastic_table cplx fst snd twoJ P model Np Nq Eb t1 t2 (one_line_iff _ HM) (one_line_iff _ HEb)).
  - rewrite app_length, !map_length, L1, L2. split; [ reflexivity | ]. split.
    + intros i j Hi Hj. destruct (A1 i j Hi Hj) as (si & sj & B1 & B2 & B3). pose proof (rm_lt _ _ _ _ Hi Hj).
      eexists _, si, sj. split; [ rewrite nth_error_app1 by (rewrite map_length, L1; assumption); rewrite (nth_error_map' _ _ _ _ B3); reflexivity | ].
      split; [ reflexivity | ]. split; [ exact B1 | ]. split; [ exact B2 | ]. cbn. repeat split.
    + intros q Hlt. destruct (A2 q Hlt) as (line & B1 & B2 & B3 & B4 & B5 & B6).
      rewrite nth_error_map in B2, B3. destruct (nth_error T q) as [t|] eqn:ET; [ | discriminate ]. destruct (nth_error E q) as [e|] eqn:EE; [ | discriminate ].
      cbn [option_map] in B2, B3. injection B2 as B2. injection B3 as B3.
      eexists _, t, e, (t2_q cplx line). split; [ rewrite nth_error_app2 by (rewrite map_length, L1; lia); rewrite map_length, L1; replace (nd * nd + q - nd * nd) with q by lia; rewrite (nth_error_map' _ _ _ _ B1); reflexivity | ].
      split; [ rewrite map_length; unfold t2_cells; cbn [length]; rewrite map_length, B5; reflexivity | ]. split; [ reflexivity | ]. split; [ reflexivity | ]. split; [ exact B4 | ].
      rewrite Forall_forall in FT, FE, FU. unfold t2_cells. cbn [map snd nth_error Nat.add]. rewrite <- B2, <- B3. cbn [creal fst].
      split; [ apply shows_real_sci, FT, (nth_error_In _ _ ET) | ]. split; [ apply shows_real_sci, FE, (nth_error_In _ _ EE) | ]. split; [ reflexivity | ].
      intros i j Hi Hj. specialize (B6 i j Hi Hj). pose proof (rm_lt _ _ _ _ Hi Hj).
      destruct (nth_error (t2_U cplx line) (i * nd + j)) as [u|] eqn:Eu; [ | apply nth_error_None in Eu; lia ]. exists u. split; [ symmetry; exact B6 | ].
      rewrite map_map. cbn [snd]. rewrite (nth_error_map' _ _ _ _ Eu). symmetry in B6. unfold amplitude in B6. apply nth_error_In, FU in B6. apply shows_complex_text; apply B6.
  - rewrite Forall_forall. intros l Hl. apply In_nth_error in Hl. destruct Hl as (k & Hk).
    assert (Hlt : k < nd * nd) by (rewrite <- L1; apply nth_error_Some; congruence).
    assert (N0 : nd <> 0) by (intros N; rewrite N in Hlt; lia).
    assert (Hi : k / nd < nd) by (apply Nat.div_lt_upper_bound; lia). assert (Hj : k mod nd < nd) by (apply Nat.mod_upper_bound; exact N0).
    destruct (A1 _ _ Hi Hj) as (si & sj & B1 & B2 & B3). replace (k / nd * nd + k mod nd) with k in B3 by (rewrite (Nat.div_mod_eq k nd) at 1; lia).
    rewrite Hk in B3. injection B3 as ->. unfold t1_fits. cbn [t1_name t1_row t1_col t1_lp t1_jp t1_l t1_j].
    destruct (small_name (k / nd) (k mod nd) ltac:(lia) ltac:(lia)) as [C1 C2].
    assert (P8 : Z.of_nat (10 ^ 8) = (10 ^ 8)%Z) by (rewrite Nat2Z.inj_pow; reflexivity).
    assert (B : (10000 < Z.of_nat (10 ^ 8))%Z) by (rewrite P8; reflexivity).
    split; [ exact C1 | ]. split; [ exact C2 | ]. split; [ lia | ]. split; [ lia | ].
    destruct (Hsm si (nth_error_In _ _ B1)) as [S1 S2]. destruct (Hsm sj (nth_error_In _ _ B2)) as [S3 S4]. repeat constructor; try apply S1; try apply S2; try apply S3; apply S4.
  - rewrite Forall_forall. intros l Hl. apply In_nth_error in Hl. destruct Hl as (q & Hk).
    assert (Hlt : q < nq) by (rewrite <- L2; apply nth_error_Some; congruence).
    destruct (A2 q Hlt) as (line & B1 & B2 & B3 & B4 & B5 & B6). rewrite Hk in B1. injection B1 as <-.
    rewrite nth_error_map in B2, B3. destruct (nth_error T q) as [t|] eqn:ET; [ | discriminate ]. destruct (nth_error E q) as [e|] eqn:EE; [ | discriminate ].
    cbn [option_map] in B2, B3. injection B2 as B2. injection B3 as B3. rewrite Forall_forall in FT, FE, FU.
    unfold t2_fits. rewrite <- B2, <- B3. cbn [creal fst]. split; [ apply unsigned_iff, FT, (nth_error_In _ _ ET) | ]. split; [ apply unsigned_iff, FE, (nth_error_In _ _ EE) | ].
    split; [ apply Hqs, (nth_error_In _ _ B4) | ]. rewrite Forall_forall. intros u Hu. apply In_nth_error in Hu. destruct Hu as (k & Eu).
    assert (Hl : k < nd * nd) by (rewrite <- B5; apply nth_error_Some; congruence). assert (N0 : nd <> 0) by (intros N; rewrite N in Hl; lia).
    assert (Hi : k / nd < nd) by (apply Nat.div_lt_upper_bound; lia). assert (Hj : k mod nd < nd) by (apply Nat.mod_upper_bound; exact N0).
    specialize (B6 _ _ Hi Hj). replace (k / nd * nd + k mod nd) with k in B6 by (rewrite (Nat.div_mod_eq k nd) at 1; lia).
    rewrite Eu in B6. symmetry in B6. apply nth_error_In, FU in B6. exact B6.
Qed.

(* ---------- breakup ---------- *)
Lemma zread_map {A B} (f : A -> B) l i x : zread l i = Ok x -> zread (map f l) i = Ok (f x).
Proof.
  unfold zread. destruct (i <? 0)%Z; [ discriminate | ]. unfold aread. rewrite nth_error_map. destruct (nth_error l (Z.to_nat i)); [ | discriminate ]. intros [= ->]. reflexivity.
Qed.
Lemma zread_map_inv {A B} (f : A -> B) l i y : zread (map f l) i = Ok y -> exists x, zread l i = Ok x /\ y = f x.
Proof.
  unfold zread. destruct (i <? 0)%Z; [ discriminate | ]. unfold aread. rewrite nth_error_map. destruct (nth_error l (Z.to_nat i)) as [x|]; [ | discriminate ]. intros [= <-]. exists x. split; reflexivity.
Qed.
Lemma zread_In {A} (l : list A) i x : zread l i = Ok x -> In x l.
Proof. unfold zread. destruct (i <? 0)%Z; [ discriminate | ]. unfold aread. destruct (nth_error l (Z.to_nat i)) eqn:E; [ | discriminate ]. intros [= <-]. exact (nth_error_In _ _ E). Qed.
Lemma bins_map {A B} (f : A -> B) states q e1 e2 tensor iso Np t a b c d :
  bins_of states q e1 e2 tensor iso Np t a b c d -> bins_of states (map f q) (map f e1) (map f e2) tensor iso Np t (f a) (f b) (f c) (f d).
Proof.
  destruct t as [[al iq] ip]. intros (s & coup & off & H1 & H2 & H3 & H4 & H5 & H6). exists s, coup, off. split; [ exact H1 | ]. split; [ exact H2 | ].
  replace (if coup then map f e2 else map f e1) with (map f (if coup then e2 else e1)) by (destruct coup; reflexivity).
  split; [ | split; [ | split ] ]; apply zread_map; assumption.
Qed.
Lemma bins_map_inv {A B} (f : A -> B) states q e1 e2 tensor iso Np t a b c d :
  bins_of states (map f q) (map f e1) (map f e2) tensor iso Np t a b c d -> exists a' b' c' d', bins_of states q e1 e2 tensor iso Np t a' b' c' d' /\ a = f a' /\ b = f b' /\ c = f c' /\ d = f d'.
Proof.
  destruct t as [[al iq] ip]. intros (s & coup & off & H1 & H2 & H3 & H4 & H5 & H6).
  replace (if coup then map f e2 else map f e1) with (map f (if coup then e2 else e1)) in H5, H6 by (destruct coup; reflexivity).
  apply zread_map_inv in H3, H4, H5, H6. destruct H3 as (a' & ? & ->), H4 as (b' & ? & ->), H5 as (c' & ? & ->), H6 as (d' & ? & ->).
  exists a', b', c', d'. split; [ | auto ]. exists s, coup, off. auto 8.
Qed.
Lemma in_five (x : nat) lo : lo <= x < lo + 5 -> exists j, j < 5 /\ x = lo + j.
Proof. intros H. exists (x - lo). lia. Qed.
(* the j-th of five consecutive headers / entries *)
Lemma five_head {A} (h : list A) c (l : list A) j : firstn 5 (skipn c h) = l -> j < 5 -> length l = 5 -> nth_error h (c + j) = nth_error l j.
Proof.
  intros E Hj HL. rewrite <- E. assert (G : forall n (k : list A) i, i < n -> nth_error (firstn n k) i = nth_error k i).
  { clear. induction n as [|n IH]; intros [|y k] [|i] H; try lia; try reflexivity. cbn. apply IH. lia. }
  rewrite G by exact Hj. clear. revert h. induction c as [|c IH]; intros h; [ reflexivity | ]. destruct h; [ destruct j; reflexivity | ]. cbn. apply IH.
Qed.
Lemma five_entry {V} (data : list V) cols r c (l : list (option V)) j : map (entry data cols r) (seq c 5) = l -> j < 5 -> entry data cols r (c + j) = nth j l None.
Proof.
  intros <- Hj. rewrite <- (nth_indep (map (entry data cols r) (seq c 5)) (entry data cols r 0)).
  - rewrite (map_nth (entry data cols r)), seq_nth by exact Hj. reflexivity.
  - rewrite map_length, seq_length. exact Hj.
Qed.

Section Breakup.
Variables (states : list pw) (deut : list nat) (cells : list (Z * Z * Z)) (ends : list nat) (nq : nat) (U : list cplx) (pm : double -> double)
  (T E qcm : list double) (qidx : list nat) (qWP e_unco e_coup : list double) (tensor iso : bool) (Np : nat).
Definition pmomc (v : cplx) : cplx := creal (pm (fst v)).
Hypothesis Hnd : NoDup deut.
Hypothesis Hd : forall k, In k deut -> k < length states.
Hypothesis He : per_energy nq (length cells) ends.
Hypothesis Hb : forall t, In t cells -> exists ql qu el eu, bins_of states qWP e_unco e_coup tensor iso Np t ql qu el eu.
Hypothesis HU : length deut * length cells <= length U.
Hypothesis HT : length T = nq.
Hypothesis HE : length E = nq.
Hypothesis Hk : length qcm = nq.
Hypothesis Hqi : length qidx = nq.
Hypothesis Hqi2 : forall i, In i qidx -> i + 1 < length qWP.
Hypothesis FU : Forall (fun u => no_minus_zero (fst u) /\ no_minus_zero (snd u)) U.
Hypothesis FT : Forall nonnegative (T ++ E ++ qcm ++ qWP).
Hypothesis Fe : Forall (fun x => nonnegative (pm x)) (e_unco ++ e_coup).

Lemma ft x : In x T \/ In x E \/ In x qcm \/ In x qWP -> unsigned x.
Proof. intros H. apply unsigned_iff. rewrite Forall_forall in FT. apply FT. rewrite !in_app_iff. tauto. Qed.
Lemma fe x : In x e_unco \/ In x e_coup -> unsigned (pm x).
Proof. intros H. apply unsigned_iff. rewrite Forall_forall in Fe. apply (Fe x). rewrite in_app_iff. tauto. Qed.
Lemma bins_in t a b c d : bins_of states qWP e_unco e_coup tensor iso Np t a b c d -> unsigned a /\ unsigned b /\ unsigned (pm c) /\ unsigned (pm d).
Proof.
  destruct t as [[al iq] ip]. intros (s & coup & off & _ & _ & H3 & H4 & H5 & H6). apply zread_In in H3, H4, H5, H6.
  split; [ apply ft; tauto | ]. split; [ apply ft; tauto | ]. split; apply fe; destruct coup; tauto.
Qed.

Lemma breakup_readable (twoJ P : Z) model (Npz Nqz : Z) Eb : one_line model -> one_line Eb ->
  exists headers data rows cols (row : nat -> nat -> nat) (col : nat -> nat -> nat) file,
   restructure_breakup_data cplx states deut cells ends (creal (Zer false)) pmomc U (map creal T) (map creal E) (map creal qcm) qidx
     (map creal qWP) (map creal e_unco) (map creal e_coup) tensor iso Np nq = Ok (headers, data, rows, cols) /\
   breakup_file cplx fst snd twoJ P model Npz Nqz Eb headers data rows cols = Ok file /\
   length (table file) = rows /\ (forall line, In line (table file) -> length line = cols) /\ length headers = cols /\
   (forall q d bu, q < nq -> d < length deut -> nth q ends 0 <= bu < nth (q + 1) ends 0 ->
      exists line t a iq ip sc sr ql qu el eu u, nth_error (table file) (row d bu) = Some line /\
        nth_error cells bu = Some t /\ t = (a, iq, ip) /\ zread states a = Ok sc /\ nth_error states (nth d deut 0) = Some sr /\
        bins_of states qWP e_unco e_coup tensor iso Np t ql qu el eu /\ nth_error U (d * length cells + bu) = Some u /\
        nth_error headers (col d bu) = Some ("comp", breakup_title sc sr) /\
        shows_complex (nth_error line (col d bu)) u /\
        shows_real (nth_error line (col d bu + 1)) ql /\ shows_real (nth_error line (col d bu + 2)) qu /\
        shows_real (nth_error line (col d bu + 3)) (pm el) /\ shows_real (nth_error line (col d bu + 4)) (pm eu) /\
        (exists x, nth_error T q = Some x /\ shows_real (nth_error line 0) x) /\
        (exists x, nth_error E q = Some x /\ shows_real (nth_error line 1) x) /\
        (exists x, nth_error qcm q = Some x /\ shows_real (nth_error line 2) x) /\
        (exists x, nth_error qWP (nth q qidx 0) = Some x /\ shows_real (nth_error line 3) x) /\
        (exists x, nth_error qWP (nth q qidx 0 + 1) = Some x /\ shows_real (nth_error line 4) x)) /\
   (forall d bu d' bu', d < length deut -> bu < length cells -> d' < length deut -> bu' < length cells ->
      row d bu = row d' bu' -> col d bu = col d' bu' -> d = d' /\ bu = bu').
Proof.
  intros HM HB.
  destruct (breakup_table states deut cells ends nq (creal (Zer false)) pmomc U (map creal T) (map creal E) (map creal qcm) qidx (map creal qWP) (map creal e_unco) (map creal e_coup) tensor iso Np)
    as (headers & data & rows & cols & row & col & A1 & A2 & A3 & A4 & A5 & A6 & _ & A8 & A9); try rewrite !map_length; try assumption.
  { intros t Ht. destruct (Hb t Ht) as (ql & qu & el & eu & B). exists (creal ql), (creal qu), (creal el), (creal eu). apply bins_map, B. }
  pose proof (breakup_headers_ok _ _ _ _ _ _ _ _ _ _ _ _ _ _ _ _ _ _ _ _ _ _ A1) as HH. unfold head_ok in HH.
  assert (Hq_of : forall bu, bu < length cells -> exists q, q < nq /\ nth q ends 0 <= bu < nth (q + 1) ends 0).
  { intros bu Hbu. destruct He as (_ & P0 & Pn & _). clear -Hbu P0 Pn. 
    assert (G : forall n, bu < nth n ends 0 -> exists q, q < n /\ nth q ends 0 <= bu < nth (q + 1) ends 0).
    { induction n as [|n IH]; intros H; [ lia | ]. destruct (Nat.lt_ge_cases bu (nth n ends 0)) as [L|L].
      - destruct (IH L) as (q & Hq & Hr). exists q. split; [ lia | exact Hr ].
      - exists n. rewrite Nat.add_1_r. split; [ lia | lia ]. }
    apply G. lia. }
  pose (dh := ("", "") : string * string). pose (dv := creal (Zer false)).
  assert (HN : headers <> []) by (intros ->; discriminate A4).
  assert (C5 : 5 <= cols). { rewrite <- A2. pose proof (f_equal (@length _) A4) as L5. rewrite firstn_length in L5. cbn [length bu_headers0] in L5. lia. }
  assert (KH : forall c, c < cols -> known_kind (nth c headers dh)). { intros c Hc. rewrite Forall_forall in HH. apply HH, nth_In. lia. }
  (* entries *)
  assert (HF : forall r c, r < rows -> c < cols -> bu_fits cplx fst snd (nth c headers dh) (nth (r * cols + c) data dv)).
  { intros r c Hr Hc. assert (HD : r * cols + c < length data) by (rewrite A3; nia).
    assert (EE : entry data cols r c = Some (nth (r * cols + c) data dv)). { unfold entry. destruct (Nat.ltb_spec c cols); [ | lia ]. apply nth_error_nth', HD. }
    set (v := nth (r * cols + c) data dv) in *.
    destruct (Nat.lt_ge_cases c 5) as [L5|L5].
    - destruct (A9 r Hr) as (q & Hq & Hrow). pose proof (five_entry data cols r 0 _ c Hrow L5) as F. cbn [Nat.add] in F. rewrite EE in F.
      assert (HR : nth_error headers c = nth_error bu_headers0 c) by (apply (five_head headers 0 _ c A4 L5 eq_refl)).
      rewrite !nth_error_map in F.
      assert (UV : unsigned (fst v)).
      { assert (G : exists x, (In x T \/ In x E \/ In x qcm \/ In x qWP) /\ v = creal x).
        { do 5 (destruct c as [|c]; [ cbn [nth] in F; match type of F with Some v = option_map creal ?o => destruct o as [x|] eqn:Ex; [ | discriminate F ]; apply nth_error_In in Ex; cbn [option_map] in F; exists x; split; [ tauto | congruence ] end | ]). lia. }
        destruct G as (x & Hx & ->). cbn [creal fst]. apply ft, Hx. }
      assert (KR : fst (nth c headers dh) = "real").
      { apply (nth_error_nth _ _ dh) in HR || idtac. rewrite (nth_error_nth' headers dh) in HR by lia. do 5 (destruct c as [|c]; [ injection HR as HR; cbn [nth_error bu_headers0] in HR; rewrite HR; reflexivity | ]). lia. }
      split; intros K; [ exact UV | rewrite KR in K; discriminate K ].
    - set (hit := fun d bu => (r =? row d bu) && (col d bu <=? c) && (c <? col d bu + 5)).
      destruct (existsb (fun d => existsb (hit d) (seq 0 (length cells))) (seq 0 (length deut))) eqn:EX.
      + apply existsb_exists in EX. destruct EX as (d & Hd1 & EX). apply existsb_exists in EX. destruct EX as (bu & Hbu & EX). apply in_seq in Hd1, Hbu.
        unfold hit in EX. rewrite !andb_true_iff in EX. destruct EX as [[X1 X2] X3]. apply Nat.eqb_eq in X1. apply Nat.leb_le in X2. apply Nat.ltb_lt in X3.
        destruct (Hq_of bu ltac:(lia)) as (q & Hq & Hb1). destruct (A5 q d bu Hq ltac:(lia) Hb1) as (t & a & iq & ip & sc & sr & ql & qu & el & eu & u & B1 & -> & B3 & B4 & B5 & B6 & B7 & B8 & B9 & _).
        apply bins_map_inv in B5. destruct B5 as (a' & b' & c' & d' & B5 & -> & -> & -> & ->). apply bins_in in B5. destruct B5 as (G1 & G2 & G3 & G4).
        destruct (in_five c (col d bu) ltac:(lia)) as (j & Hj & ->). pose proof (five_entry data cols (row d bu) (col d bu) _ j B9 Hj) as F. rewrite <- X1, EE in F.
        pose proof (five_head headers (col d bu) _ j B8 Hj eq_refl) as HR. rewrite (nth_error_nth' headers dh) in HR by lia.
        unfold bu_fits. destruct j as [|j].
        { cbn in F, HR. injection F as F. injection HR as HR. rewrite HR, F. split; [ intros K; discriminate K | ]. intros _. rewrite Forall_forall in FU. apply FU, (nth_error_In _ _ B6). }
        do 4 (destruct j as [|j]; [ cbn in F, HR; injection F as F; injection HR as HR; rewrite HR, F; split; [ intros _; assumption | intros K; discriminate K ] | ]). lia.
      + rewrite A8 in EE; [ | exact Hr | lia | ].
        * injection EE as EE. rewrite <- EE. split; intros _; cbn; (split; [ | ]); try split; try exact I; try reflexivity; try discriminate.
        * intros d bu Hd1 Hbu [X1 X2]. assert (existsb (fun d => existsb (hit d) (seq 0 (length cells))) (seq 0 (length deut)) = true); [ | congruence ].
          apply existsb_exists. exists d. split; [ apply in_seq; lia | ]. apply existsb_exists. exists bu. split; [ apply in_seq; lia | ].
          unfold hit. rewrite !andb_true_iff. split; [ split; [ apply Nat.eqb_eq; exact X1 | apply Nat.leb_le; lia ] | apply Nat.ltb_lt; lia ]. }
  subst cols.
  destruct (breakup_text_table cplx fst snd twoJ P model Npz Nqz Eb headers data rows dh dv (one_line_iff _ HM) (one_line_iff _ HB)) as (file & F1 & F2).
  { eapply Forall_impl; [ | exact HH ]. intros x [K _]. exact K. }
  { intros x Hx. rewrite Forall_forall in HH. apply HH, Hx. }
  { exact HN. } { exact A3. } { exact HF. }
  exists headers, data, rows, (length headers), row, col, file. split; [ exact A1 | ]. split; [ exact F1 | ]. rewrite F2.
  split; [ rewrite map_length, seq_length; reflexivity | ]. split; [ intros line Hl; apply in_map_iff in Hl; destruct Hl as (r & <- & _); rewrite map_length, seq_length; reflexivity | ].
  split; [ reflexivity | ]. split; [ | exact A6 ].
  intros q d bu Hq Hd1 Hb1. destruct (A5 q d bu Hq Hd1 Hb1) as (t & a & iq & ip & sc & sr & ql & qu & el & eu & u & B1 & -> & B3 & B4 & B5 & B6 & B7 & B8 & B9 & B10).
  apply bins_map_inv in B5. destruct B5 as (a' & b' & c' & d' & B5 & -> & -> & -> & ->). pose proof (bins_in _ _ _ _ _ B5) as (G1 & G2 & G3 & G4).
  set (r := row d bu) in *. set (cc := col d bu) in *.
  assert (HC : cc + 5 <= length headers). { pose proof (f_equal (@length _) B8) as L5. rewrite firstn_length, skipn_length in L5. cbn [length bu_headers_chn] in L5. lia. }
  assert (HR : r < rows). { pose proof (five_entry data _ r cc _ 0 B9 ltac:(lia)) as F. cbn [nth map] in F. unfold entry in F. rewrite Nat.add_0_r in F. destruct (Nat.ltb_spec cc (length headers)); [ | discriminate ].
    assert (r * length headers + cc < length data) by (apply nth_error_Some; congruence). nia. }
  assert (NF : forall c, c < length headers -> nth_error (map (fun c => snd (bu_cell2 cplx fst snd (nth c headers dh) (nth (r * length headers + c) data dv))) (seq 0 (length headers))) c
     = Some (snd (bu_cell2 cplx fst snd (nth c headers dh) (nth (r * length headers + c) data dv)))).
  { intros c Hc. rewrite nth_error_map. rewrite (nth_error_nth' (seq 0 (length headers)) 0) by (rewrite seq_length; exact Hc). rewrite seq_nth by exact Hc. reflexivity. }
  assert (EV : forall c v, c < length headers -> entry data (length headers) r c = Some v -> nth (r * length headers + c) data dv = v).
  { intros c v Hc Ev. unfold entry in Ev. destruct (Nat.ltb_spec c (length headers)); [ | lia ]. apply nth_error_nth, Ev. }
  assert (SR : forall c v, c < length headers -> fst (nth c headers dh) = "real" -> entry data (length headers) r c = Some (creal v) -> unsigned v ->
     shows_real (nth_error (map (fun c => snd (bu_cell2 cplx fst snd (nth c headers dh) (nth (r * length headers + c) data dv))) (seq 0 (length headers))) c) v).
  { intros c v Hc Hr Ev Uv. rewrite NF by exact Hc. rewrite (EV c _ Hc Ev). unfold bu_cell2. rewrite Hr. cbn [String.eqb Ascii.eqb Bool.eqb]. apply shows_real_sci, Uv. }
  assert (H5 : forall j, j < 5 -> nth (cc + j) headers dh = nth j (bu_headers_chn (bu_label sc sr)) dh).
  { intros j Hj. apply nth_error_nth. rewrite (five_head headers cc _ j B8 Hj eq_refl). apply nth_error_nth'. exact Hj. }
  assert (H05 : forall j, j < 5 -> nth j headers dh = nth j bu_headers0 dh).
  { intros j Hj. apply nth_error_nth. rewrite <- (five_head headers 0 _ j A4 Hj eq_refl) || idtac. pose proof (five_head headers 0 _ j A4 Hj eq_refl) as X. cbn [Nat.add] in X. rewrite X. apply nth_error_nth'. exact Hj. }
  assert (E5 : forall j, j < 5 -> entry data (length headers) r (cc + j) = nth j (map Some [u; creal a'; creal b'; pmomc (creal c'); pmomc (creal d')]) None) by (intros j Hj; apply (five_entry _ _ _ _ _ _ B9 Hj)).
  assert (E05 : forall j, j < 5 -> entry data (length headers) r j = nth j [nth_error (map creal T) q; nth_error (map creal E) q; nth_error (map creal qcm) q; nth_error (map creal qWP) (nth q qidx 0); nth_error (map creal qWP) (nth q qidx 0 + 1)] None) by (intros j Hj; apply (five_entry _ _ _ 0 _ _ B10 Hj)).
  eexists _, (a, iq, ip), a, iq, ip, sc, sr, a', b', c', d', u.
  split; [ rewrite nth_error_map, (nth_error_nth' (seq 0 rows) 0) by (rewrite seq_length; exact HR); rewrite seq_nth by exact HR; cbn [option_map Nat.add]; reflexivity | ].
  split; [ exact B1 | ]. split; [ reflexivity | ]. split; [ exact B3 | ]. split; [ exact B4 | ]. split; [ exact B5 | ]. split; [ exact B6 | ].
  split; [ pose proof (five_head headers cc _ 0 B8 ltac:(lia) eq_refl) as X; rewrite Nat.add_0_r in X; rewrite X; cbn [nth_error bu_headers_chn]; rewrite title_eq; reflexivity | ].
  split.
  { rewrite NF by lia. pose proof (E5 0 ltac:(lia)) as Ev. cbn [nth map] in Ev. rewrite Nat.add_0_r in Ev. rewrite (EV cc _ ltac:(lia) Ev).
    pose proof (H5 0 ltac:(lia)) as Hh. rewrite Nat.add_0_r in Hh. rewrite Hh. cbn [nth bu_headers_chn]. unfold bu_cell2. cbn [fst snd String.eqb Ascii.eqb Bool.eqb].
    rewrite Forall_forall in FU. pose proof (FU _ (nth_error_In _ _ B6)) as [P1 P2]. apply shows_complex_text; assumption. }
  assert (TR : forall (L : list double) i j, (forall x, In x L -> unsigned x) -> i < length L -> j < 5 ->
     nth j [nth_error (map creal T) q; nth_error (map creal E) q; nth_error (map creal qcm) q; nth_error (map creal qWP) (nth q qidx 0); nth_error (map creal qWP) (nth q qidx 0 + 1)] None = nth_error (map creal L) i ->
     exists x, nth_error L i = Some x /\ shows_real (nth_error (map (fun c => snd (bu_cell2 cplx fst snd (nth c headers dh) (nth (r * length headers + c) data dv))) (seq 0 (length headers))) j) x).
  { intros L i j UL Hi Hj EQ. destruct (nth_error L i) as [x|] eqn:Ex; [ | apply nth_error_None in Ex; lia ]. exists x. split; [ reflexivity | ].
    apply SR; [ lia | rewrite H05 by exact Hj; do 5 (destruct j as [|j]; [ reflexivity | ]); lia | | apply UL, (nth_error_In _ _ Ex) ].
    rewrite E05 by exact Hj. rewrite EQ, nth_error_map, Ex. reflexivity. }
  assert (Hi : nth q qidx 0 + 1 < length qWP) by (apply Hqi2, nth_In; lia).
  split; [ apply SR; [ lia | rewrite H5 by lia; reflexivity | rewrite E5 by lia; reflexivity | assumption ] | ].
  split; [ apply SR; [ lia | rewrite H5 by lia; reflexivity | rewrite E5 by lia; reflexivity | assumption ] | ].
  split; [ apply SR; [ lia | rewrite H5 by lia; reflexivity | rewrite E5 by lia; reflexivity | assumption ] | ].
  split; [ apply SR; [ lia | rewrite H5 by lia; reflexivity | rewrite E5 by lia; reflexivity | assumption ] | ].
  split; [ apply (TR T q 0); [ intros; apply ft; tauto | lia | lia | reflexivity ] | ].
  split; [ apply (TR E q 1); [ intros; apply ft; tauto | lia | lia | reflexivity ] | ].
  split; [ apply (TR qcm q 2); [ intros; apply ft; tauto | lia | lia | reflexivity ] | ].
  split; [ apply (TR qWP _ 3); [ intros; apply ft; tauto | lia | lia | reflexivity ] | ].
  apply (TR qWP _ 4); [ intros; apply ft; tauto | lia | lia | reflexivity ].
Qed.
End Breakup.
