From Coq Require Import Reals Lra String.
From Coquelicot Require Import Coquelicot.
From Verif Require Import Common ArrayLib SwpModel GridModel.
Open Scope nat_scope.

(* for (i=0;i<N;i++) a[i] = f(i) *)
Lemma fill_loop {A} N (f : nat -> A) (a : list A) (body : list A -> nat -> outcome (list A)) :
  length a = N -> (forall i s, i < N -> body s i = awrite s i (f i)) ->
  ofold body (seq 0 N) a = Ok (map f (seq 0 N)).
Proof.
  intros L Hb. rewrite (ofold_ext body (fun s i => awrite s i (f i))).
  2:{ intros i s Hi. apply in_seq in Hi. apply Hb. lia. }
  destruct (scatter (fun i : nat => i) f (seq 0 N) a) as (a' & E & L' & W & _).
  { intros i Hi. apply in_seq in Hi. lia. }
  { congruence. }
  rewrite E. f_equal. apply list_ext; [ rewrite map_length, seq_length; lia | ].
  intros i Hi. rewrite W by (apply in_seq; lia). symmetry.
  rewrite nth_error_map, nth_error_nth' with (d := 0) by (rewrite seq_length; lia). rewrite seq_nth by lia. reflexivity.
Qed.

Lemma nth_map_seq {A} (f : nat -> A) N i d : i < N -> nth i (map f (seq 0 N)) d = f i.
Proof.
  intros H. rewrite (nth_indep _ d (f 0)) by (rewrite map_length, seq_length; lia).
  rewrite map_nth, seq_nth by lia. reflexivity.
Qed.
Lemma nth_error_nth_lt {A} (l : list A) i d : i < length l -> nth_error l i = Some (nth i l d).
Proof. intros. apply nth_error_nth'. assumption. Qed.
Lemma aread_nth {A} (l : list A) i d : i < length l -> aread l i = Ok (nth i l d).
Proof. intros H. apply aread_some, nth_error_nth'. exact H. Qed.

Lemma nth_error_nth_lt_eq (a b : list R) j : nth_error a j = nth_error b j -> nth j a 0%R = nth j b 0%R.
Proof.
  intros H. destruct (nth_error b j) as [x|] eqn:En.
  - rewrite (nth_error_nth _ _ _ En), (nth_error_nth _ _ _ H). reflexivity.
  - apply nth_error_None in En, H. rewrite !nth_overflow by assumption. reflexivity.
Qed.

(* ---------- chebyshev ---------- *)
Definition cheb_list (N : nat) (s t : R) : list R :=
  map (fun i => if i =? 0 then 0%R else cheb_value N s t i) (seq 0 (N + 1)).

Lemma make_chebyshev_ok N b s t : length b = N + 1 -> make_chebyshev N b s t = Ok (cheb_list N s t).
Proof.
  intros L. unfold make_chebyshev.
  destruct (scatter (fun i : nat => i) (cheb_value N s t) (seq 1 N) b) as (b' & E & L' & W & Fr).
  { intros i Hi. apply in_seq in Hi. lia. }
  { congruence. }
  rewrite E. cbn [obind]. destruct (awrite_ok b' 0 0%R) as (b2 & E2 & L2 & H0 & Ho); [ lia | ].
  rewrite E2. f_equal. apply list_ext; [ unfold cheb_list; rewrite map_length, seq_length; lia | ].
  intros i Hi. unfold cheb_list. rewrite nth_error_map, nth_error_nth' with (l := seq 0 (N + 1)) (d := 0) by (rewrite seq_length; lia).
  rewrite seq_nth by lia. cbn [option_map]. change (0 + i) with i. destruct (Nat.eqb_spec i 0) as [->|Hn].
  - exact H0.
  - rewrite Ho by exact Hn. apply W. apply in_seq. lia.
Qed.

Open Scope R_scope.
Lemma cheb_angle N i : (1 <= i <= N)%nat -> 0 < (2 * INR i - 1) * PI / (4 * INR N) < PI / 2.
Proof.
  intros [H1 H2]. apply le_INR in H1, H2. change (INR 1) with 1 in H1. pose proof PI_RGT_0.
  assert (HN : 0 < 4 * INR N) by lra. split.
  - apply Rdiv_lt_0_compat; [ nra | exact HN ].
  - apply (Rmult_lt_reg_r (4 * INR N)); [ exact HN | ].
    unfold Rdiv. rewrite Rmult_assoc, Rinv_l, Rmult_1_r by lra. nra.
Qed.

Lemma cheb_pos N s t i : 0 < s -> (1 <= i <= N)%nat -> 0 < cheb_value N s t i.
Proof. intros Hs Hi. unfold cheb_value. apply Rmult_lt_0_compat; [ exact Hs | ]. unfold Rpower. apply exp_pos. Qed.

Lemma cheb_lt N s t i j : 0 < s -> 0 < t -> (1 <= i)%nat -> (i < j)%nat -> (j <= N)%nat -> cheb_value N s t i < cheb_value N s t j.
Proof.
  intros Hs Ht Hi Hij Hj. unfold cheb_value. apply Rmult_lt_compat_l; [ exact Hs | ].
  destruct (cheb_angle N i) as [A1 A2]; [ lia | ]. destruct (cheb_angle N j) as [B1 B2]; [ lia | ].
  apply Rlt_Rpower_l; [ exact Ht | ]. split; [ apply tan_gt_0; assumption | ].
  apply tan_increasing; try lra.
  assert (HN : 0 < / (4 * INR N)) by (apply Rinv_0_lt_compat; assert (1 <= INR N) by (change 1 with (INR 1); apply le_INR; lia); lra).
  unfold Rdiv. apply Rmult_lt_compat_r; [ exact HN | ]. pose proof PI_RGT_0.
  apply Rmult_lt_compat_r; [ assumption | ]. apply lt_INR in Hij. lra.
Qed.

Lemma cheb_list_len N s t : length (cheb_list N s t) = (N + 1)%nat.
Proof. unfold cheb_list. rewrite map_length, seq_length. reflexivity. Qed.
Lemma cheb_list_0 N s t : nth 0 (cheb_list N s t) 0 = 0.
Proof. unfold cheb_list. rewrite nth_map_seq by lia. reflexivity. Qed.
Lemma cheb_list_S N s t i : (1 <= i <= N)%nat -> nth i (cheb_list N s t) 0 = cheb_value N s t i.
Proof. intros H. unfold cheb_list. rewrite nth_map_seq by lia. destruct (Nat.eqb_spec i 0); [ lia | reflexivity ]. Qed.
Lemma cheb_list_lt N s t i j : 0 < s -> 0 < t -> (i < j <= N)%nat -> nth i (cheb_list N s t) 0 < nth j (cheb_list N s t) 0.
Proof.
  intros Hs Ht H. rewrite (cheb_list_S N s t j) by lia. destruct i.
  - rewrite cheb_list_0. apply cheb_pos; [ exact Hs | lia ].
  - rewrite cheb_list_S by lia. apply cheb_lt; try assumption; lia.
Qed.

Open Scope nat_scope.
(* ---------- reading a boundary file ---------- *)
Section File.
Variable parse : string -> option R.
Notation step := (fun '(b, k) l => match parse l with None => Err | Some v => do b <- awrite b k v; Ok (b, k + 1) end).

Lemma read_loop (ls : list string) : forall (pre post : list R),
  (forall vs, map parse ls = map Some vs -> length ls <= length post ->
     ofold step ls (pre ++ post, length pre) = Ok (pre ++ vs ++ skipn (length vs) post, length pre + length vs)) /\
  (length ls <= length post -> (exists l, In l ls /\ parse l = None) -> ofold step ls (pre ++ post, length pre) = Err) /\
  (length post < length ls ->
     ((exists l, In l (firstn (length post + 1) ls) /\ parse l = None) /\ ofold step ls (pre ++ post, length pre) = Err) \/
     ((forall l, In l (firstn (length post + 1) ls) -> parse l <> None) /\ ofold step ls (pre ++ post, length pre) = UB)).
Proof.
  induction ls as [|l ls IH]; intros pre post.
  - repeat split; cbn [length]; try lia.
    + intros vs Hv _. destruct vs; [ | discriminate ]. cbn [length app skipn ofold]. rewrite Nat.add_0_r. reflexivity.
    + intros _ (l & [] & _).
  - assert (Hw : forall v x post', post = x :: post' -> awrite (pre ++ post) (length pre) v = Ok ((pre ++ [v]) ++ post')).
    { intros v x post' ->. unfold awrite. rewrite app_length. cbn [length].
      destruct (Nat.ltb_spec (length pre) (length pre + S (length post'))); [ | lia ].
      rewrite firstn_app, firstn_all, Nat.sub_diag. cbn [firstn]. rewrite skipn_app.
      rewrite (skipn_all2 pre) by lia. replace (S (length pre) - length pre) with 1 by lia. cbn [skipn app].
      rewrite app_nil_r, <- app_assoc. reflexivity. }
    assert (Hl : forall v : R, length (pre ++ [v]) = length pre + 1) by (intros; rewrite app_length; reflexivity).
    destruct (parse l) as [v|] eqn:Ev; [ | clear IH; cbn [ofold]; rewrite Ev; cbn [obind] ].
    + destruct post as [|x post].
      * cbn [ofold]. rewrite Ev. unfold awrite at 1. rewrite app_nil_r.
        destruct (Nat.ltb_spec (length pre) (length pre)) as [?|_]; [ lia | ]. cbn [obind].
        repeat split; cbn [length]; try lia. intros _. right. split; [ | unfold awrite; rewrite Nat.ltb_irrefl; reflexivity ].
        cbn [length Nat.add firstn]. intros l' [<-|[]]. congruence.
      * cbn [ofold]. rewrite Ev, (Hw v x post eq_refl). cbn [obind].
        specialize (IH (pre ++ [v]) post). rewrite (Hl v) in IH. destruct IH as (I1 & I2 & I3).
        split; [ | split ].
        -- intros vs Hvs Hle. destruct vs as [|w vs]; [ discriminate | ]. cbn [map] in Hvs. injection Hvs as Hw' Hvs.
           assert (w = v) as -> by congruence. rewrite (I1 vs Hvs) by (cbn [length] in Hle; lia).
           cbn [length skipn app]. rewrite <- app_assoc. cbn [app]. do 2 f_equal. lia.
        -- intros Hle (l' & [<-|Hin] & Hn); [ congruence | ]. apply I2; [ cbn [length] in Hle; lia | exists l'; auto ].
        -- intros Hlt. cbn [length] in Hlt. destruct I3 as [[(l' & Hin & Hn) He]|[Hall He]]; [ lia | left | right ].
           ++ split; [ | exact He ]. exists l'. split; [ | exact Hn ]. cbn [length Nat.add firstn]. right. exact Hin.
           ++ split; [ | exact He ]. cbn [length Nat.add firstn]. intros l' [<-|Hin]; [ congruence | ]. apply Hall, Hin.
    + repeat split.
      * intros vs Hvs. destruct vs; [ discriminate | ]. cbn [map] in Hvs. injection Hvs as Hx _. congruence.
      * intros _. left. split; [ | reflexivity ]. exists l. split; [ | exact Ev ]. rewrite Nat.add_comm. cbn [Nat.add firstn]. left. reflexivity.
Qed.
End File.

Lemma read_spec lines parse b N file : length b = N + 1 ->
  let ls := lines file in
  (forall r, read_boundaries lines parse b N file = Ok r <-> length ls = N + 1 /\ map parse ls = map Some r) /\
  (read_boundaries lines parse b N file = UB <->
     N + 2 <= length ls /\ forall l, In l (firstn (N + 2) ls) -> parse l <> None) /\
  read_boundaries lines parse b N file <> Exc.
Proof.
  intros L ls. unfold read_boundaries. fold ls.
  destruct (read_loop parse ls [] b) as (H1 & H2 & H3). cbn [app length Nat.add] in H1, H2, H3.
  assert (Hp : (exists vs, map parse ls = map Some vs) \/ exists l, In l ls /\ parse l = None).
  { clear. induction ls as [|l ls IH]; [ left; exists []; reflexivity | ].
    destruct (parse l) as [v|] eqn:Ev; [ | right; exists l; split; [ left; reflexivity | exact Ev ] ].
    destruct IH as [[vs Hv]|(l' & Hi & Hn)]; [ left; exists (v :: vs); cbn; congruence | right; exists l'; split; [ right; exact Hi | exact Hn ] ]. }
  destruct (Nat.le_gt_cases (length ls) (length b)) as [Hle|Hgt].
  - destruct Hp as [[vs Hv]|Hbad].
    + rewrite (H1 vs Hv Hle). cbn [obind].
      assert (Lv : length vs = length ls) by (apply (f_equal (@length _)) in Hv; rewrite !map_length in Hv; lia).
      assert (inj : forall r, map parse ls = map Some r -> r = vs).
      { intros r Hr. rewrite Hv in Hr. clear -Hr. revert r Hr. induction vs as [|v vs IH]; intros [|x r] Hr; cbn in Hr; try discriminate; [ reflexivity | ].
        injection Hr as <- Hr. f_equal. apply IH, Hr. }
      destruct (Nat.eqb_spec (length vs) (N + 1)) as [He|Hne].
      * repeat split; try discriminate.
        -- lia.
        -- injection H as <-. rewrite skipn_all2 by lia. rewrite app_nil_r. exact Hv.
        -- intros [_ Hr]. rewrite (inj r Hr). rewrite skipn_all2 by lia. rewrite app_nil_r. reflexivity.
        -- intros [Ha _]. lia.
      * repeat split; try discriminate; intros [Ha _]; lia.
    + rewrite (H2 Hle Hbad). cbn [obind]. repeat split; try discriminate.
      * intros [_ Hr]. destruct Hbad as (l & Hin & Hn). exfalso. apply (in_map parse) in Hin. rewrite Hr, Hn in Hin.
        apply in_map_iff in Hin. destruct Hin as (x & Hx & _). discriminate.
      * intros [Ha _]. lia.
  - rewrite L in *. replace (N + 1 + 1) with (N + 2) in H3 by lia.
    destruct (H3 Hgt) as [[(l & Hin & Hn) He]|[Hall He]]; rewrite He; cbn [obind].
    + repeat split; try discriminate.
      * intros [Ha _]. lia.
      * intros [_ Ha]. exfalso. exact (Ha l Hin Hn).
    + repeat split; try discriminate; try lia. exact Hall.
Qed.

(* ---------- midpoints, norms, weights ---------- *)
Lemma midpoints_ok N bounds a : length bounds = N + 1 -> length a = N ->
  midpoints N bounds a = Ok (map (fun i => 0.5 * (nth i bounds 0 + nth (i + 1) bounds 0))%R (seq 0 N)).
Proof.
  intros Lb La. unfold midpoints. apply fill_loop; [ exact La | ]. intros i s Hi.
  rewrite (aread_nth bounds i 0%R), (aread_nth bounds (i + 1) 0%R) by lia. reflexivity.
Qed.
Lemma norms_ok N bounds a : length bounds = N + 1 -> length a = N ->
  norms N bounds a = Ok (map (fun i => sqrt (nth (i + 1) bounds 0 - nth i bounds 0))%R (seq 0 N)).
Proof.
  intros Lb La. unfold norms. apply fill_loop; [ exact La | ]. intros i s Hi.
  rewrite (aread_nth bounds i 0%R), (aread_nth bounds (i + 1) 0%R) by lia. reflexivity.
Qed.
Lemma weights_ok N x a : length x = N -> length a = N -> weights N x a = Ok (map (fun _ => 1%R) (seq 0 N)).
Proof.
  intros Lb La. unfold weights. apply fill_loop; [ exact La | ]. intros i s Hi.
  rewrite (aread_nth x i 0%R) by lia. reflexivity.
Qed.

(* ---------- quadrature ---------- *)
Definition same_out (a a' : list R) (off n : nat) : Prop :=
  length a' = length a /\ forall j, j < off \/ off + n <= j -> nth j a' 0%R = nth j a 0%R.

Lemma same_out_refl a off n : same_out a a off n.
Proof. split; auto. Qed.
Lemma same_out_trans a b c off n : same_out a b off n -> same_out b c off n -> same_out a c off n.
Proof. intros [L1 H1] [L2 H2]. split; [ congruence | ]. intros j Hj. rewrite H2, H1 by exact Hj. reflexivity. Qed.

Lemma awrite_nth (a : list R) i v : i < length a -> exists a', awrite a i v = Ok a' /\ length a' = length a /\
  nth i a' 0%R = v /\ forall j, j <> i -> nth j a' 0%R = nth j a 0%R.
Proof.
  intros H. destruct (awrite_ok a i v H) as (a' & E & L & H1 & H2). exists a'. split; [ exact E | ]. split; [ exact L | ].
  split; [ apply nth_error_nth; exact H1 | ]. intros j Hj. specialize (H2 j Hj).
  destruct (nth_error a j) as [x|] eqn:En.
  - rewrite (nth_error_nth _ _ _ En), (nth_error_nth _ _ _ H2). reflexivity.
  - apply nth_error_None in En, H2. rewrite !nth_overflow by assumption. reflexivity.
Qed.

Lemma store_ok a off v : off + length v <= length a ->
  exists a', store a off v = Ok a' /\ same_out a a' off (length v) /\ forall i, i < length v -> nth (off + i) a' 0%R = nth i v 0%R.
Proof.
  intros H. unfold store.
  destruct (scatter (fun iv : nat * R => off + fst iv) (fun iv => snd iv) (combine (seq 0 (length v)) v) a) as (a' & E & L & W & Fr).
  - intros [i x] Hin. apply in_combine_seq in Hin. cbn [fst]. destruct Hin as [_ Hin].
    rewrite Nat.sub_0_r in Hin. assert (i < length v) by (apply nth_error_Some; congruence). lia.
  - intros [i x] [j y] Hi Hj He. apply in_combine_seq in Hi, Hj. cbn [fst snd] in *. assert (i = j) by lia. subst. destruct Hi, Hj. congruence.
  - exists a'. split; [ exact E | ]. split; [ split; [ exact L | ] | ].
    + intros j Hj. specialize (Fr j). rewrite (nth_error_nth_lt_eq a' a j); [ reflexivity | ]. apply Fr.
      intros [i x] Hin. apply in_combine_seq in Hin. cbn [fst]. destruct Hin as [_ Hin].
      rewrite Nat.sub_0_r in Hin. assert (i < length v) by (apply nth_error_Some; congruence). lia.
    + intros i Hi. specialize (W (i, nth i v 0%R)). cbn [fst snd] in W.
      apply nth_error_nth. apply W. apply in_combine_seq. split; [ lia | ]. rewrite Nat.sub_0_r. apply nth_error_nth'. exact Hi.
Qed.

Lemma update_range_ok x w off a b n : off + n <= length x -> off + n <= length w ->
  exists x' w', update_range (x, w) off a b n = Ok (x', w') /\ same_out x x' off n /\ same_out w w' off n /\
    forall i, i < n -> nth (off + i) x' 0%R = (0.5 * (b - a) * nth (off + i) x 0 + 0.5 * (b + a))%R /\
                       nth (off + i) w' 0%R = (0.5 * (b - a) * nth (off + i) w 0)%R.
Proof.
  intros Hx Hw. unfold update_range.
  destruct (ofold_inv (fun d (xw : list R * list R) =>
      length (fst xw) = length x /\ length (snd xw) = length w /\
      (forall i, i < length d -> nth (off + i) (fst xw) 0%R = (0.5 * (b - a) * nth (off + i) x 0 + 0.5 * (b + a))%R /\
                       nth (off + i) (snd xw) 0%R = (0.5 * (b - a) * nth (off + i) w 0)%R) /\
      (forall j, j < off \/ off + length d <= j -> nth j (fst xw) 0%R = nth j x 0%R /\ nth j (snd xw) 0%R = nth j w 0%R))
    (fun '(x, w) i =>
      do xi <- aread x (off + i); do x <- awrite x (off + i) (0.5 * (b - a) * xi + 0.5 * (b + a))%R;
      do wi <- aread w (off + i); do w <- awrite w (off + i) (0.5 * (b - a) * wi)%R;
      Ok (x, w)) (seq 0 n) (x, w)) as ([x' w'] & E & L1 & L2 & H1 & H2).
  - cbn [fst snd length]. repeat split; try lia.
  - intros d i r [x1 w1] Hl (L1 & L2 & H1 & H2). cbn [fst snd] in *.
    assert (Hi : i = length d /\ length d < n).
    { assert (Hn : nth_error (seq 0 n) (length d) = Some i) by (rewrite Hl, nth_error_app2, Nat.sub_diag by lia; reflexivity).
      assert (length d < n) by (rewrite <- (seq_length n 0); apply nth_error_Some; congruence).
      split; [ | assumption ]. rewrite nth_error_nth' with (d := 0) in Hn by (rewrite seq_length; lia). rewrite seq_nth in Hn by lia. injection Hn. lia. }
    destruct Hi as [-> Hlt]. rewrite (aread_nth x1 (off + length d) 0%R) by lia. cbn [obind].
    destruct (H2 (off + length d)) as [Hx1 Hw1]; [ right; lia | ].
    destruct (awrite_nth x1 (off + length d) (0.5 * (b - a) * nth (off + length d) x1 0 + 0.5 * (b + a))%R) as (x2 & Ex & Lx & Vx & Ox); [ lia | ].
    rewrite Ex. cbn [obind]. rewrite (aread_nth w1 (off + length d) 0%R) by lia. cbn [obind].
    destruct (awrite_nth w1 (off + length d) (0.5 * (b - a) * nth (off + length d) w1 0)%R) as (w2 & Ew & Lw & Vw & Ow); [ lia | ].
    rewrite Ew. cbn [obind]. exists (x2, w2). split; [ reflexivity | ]. cbn [fst snd]. rewrite app_length. cbn [length].
    split; [ lia | ]. split; [ lia | ]. split.
    + intros i Hi. destruct (Nat.eq_dec i (length d)) as [->|Hne].
      * rewrite Vx, Vw, Hx1, Hw1. auto.
      * rewrite Ox, Ow by lia. apply H1. lia.
    + intros j Hj. rewrite Ox, Ow by lia. apply H2. lia.
  - rewrite seq_length in *. exists x', w'. cbn [fst snd] in *. split; [ exact E | ].
    repeat split; try assumption; intros; try (apply H2; assumption); apply H1; assumption.
Qed.

Lemma seq_split n d k (r : list nat) : seq 0 n = d ++ k :: r -> k = length d /\ length d < n.
Proof.
  intros Hl. assert (Hn : nth_error (seq 0 n) (length d) = Some k) by (rewrite Hl, nth_error_app2, Nat.sub_diag by lia; reflexivity).
  assert (length d < n) by (rewrite <- (seq_length n 0); apply nth_error_Some; congruence).
  split; [ | assumption ]. rewrite nth_error_nth' with (d := 0) in Hn by (rewrite seq_length; lia). rewrite seq_nth in Hn by lia. injection Hn. lia.
Qed.

Lemma quadrature_ok gx gw N n bounds x w :
  length (gx n) = n -> length (gw n) = n -> length bounds = N + 1 -> length x = n * N -> length w = n * N ->
  exists x' w', quadrature_grids gx gw N n bounds (x, w) = Ok (x', w') /\ length x' = n * N /\ length w' = n * N /\
    forall k i, k < N -> i < n ->
      let a := nth k bounds 0%R in let b := nth (k + 1) bounds 0%R in
      nth (k * n + i) x' 0%R = (0.5 * (b - a) * nth i (gx n) 0 + 0.5 * (b + a))%R /\
      nth (k * n + i) w' 0%R = (0.5 * (b - a) * nth i (gw n) 0)%R.
Proof.
  intros Lgx Lgw Lb Lx Lw. unfold quadrature_grids.
  destruct (ofold_inv (fun d (xw : list R * list R) => length (fst xw) = n * N /\ length (snd xw) = n * N /\
    forall k i, k < length d -> i < n ->
      nth (k * n + i) (fst xw) 0%R = (0.5 * (nth (k + 1) bounds 0 - nth k bounds 0) * nth i (gx n) 0 + 0.5 * (nth (k + 1) bounds 0 + nth k bounds 0))%R /\
      nth (k * n + i) (snd xw) 0%R = (0.5 * (nth (k + 1) bounds 0 - nth k bounds 0) * nth i (gw n) 0)%R)
   (fun xw k =>
      do lo <- aread bounds k; do hi <- aread bounds (k + 1);
      ofold (fun xw _ =>
          do x <- store (fst xw) (k * n) (gx n);
          do w <- store (snd xw) (k * n) (gw n);
          update_range (x, w) (k * n) lo hi n) (seq 0 n) xw) (seq 0 N) (x, w)) as ([x' w'] & E & L1 & L2 & H).
  - cbn [fst snd length]. repeat split; try assumption; lia.
  - intros d k r [x1 w1] Hl (L1 & L2 & H). cbn [fst snd] in *. apply seq_split in Hl. destruct Hl as [-> Hk].
    rewrite (aread_nth bounds (length d) 0%R), (aread_nth bounds (length d + 1) 0%R) by lia. cbn [obind].
    set (lo := nth (length d) bounds 0%R). set (hi := nth (length d + 1) bounds 0%R).
    pose proof (rm_lt N n (length d)) as Hrm. assert (Hspan : length d * n + n <= n * N) by nia.
    destruct (ofold_inv (fun e (xw : list R * list R) => same_out x1 (fst xw) (length d * n) n /\ same_out w1 (snd xw) (length d * n) n /\
        (e <> [] -> forall i, i < n -> nth (length d * n + i) (fst xw) 0%R = (0.5 * (hi - lo) * nth i (gx n) 0 + 0.5 * (hi + lo))%R /\
             nth (length d * n + i) (snd xw) 0%R = (0.5 * (hi - lo) * nth i (gw n) 0)%R))
      (fun (xw : list R * list R) (_ : nat) => do x <- store (fst xw) (length d * n) (gx n);
          do w <- store (snd xw) (length d * n) (gw n);
          update_range (x, w) (length d * n) lo hi n) (seq 0 n) (x1, w1)) as ([x2 w2] & E2 & S1 & S2 & V).
    + cbn [fst snd]. split; [ apply same_out_refl | ]. split; [ apply same_out_refl | ]. congruence.
    + intros e j r' [x3 w3] _ (S1 & S2 & _). cbn [fst snd] in *.
      destruct (store_ok x3 (length d * n) (gx n)) as (x4 & Ex & Sx & Vx); [ destruct S1; lia | ].
      destruct (store_ok w3 (length d * n) (gw n)) as (w4 & Ew & Sw & Vw); [ destruct S2; lia | ].
      rewrite Ex, Ew. cbn [obind]. rewrite Lgx in *. rewrite Lgw in *.
      destruct (update_range_ok x4 w4 (length d * n) lo hi n) as (x5 & w5 & E5 & Sx5 & Sw5 & V5);
        [ destruct S1, Sx; lia | destruct S2, Sw; lia | ].
      exists (x5, w5). split; [ exact E5 | ]. cbn [fst snd].
      split; [ eapply same_out_trans; [ exact S1 | eapply same_out_trans; eassumption ] | ].
      split; [ eapply same_out_trans; [ exact S2 | eapply same_out_trans; eassumption ] | ].
      intros _ i Hi. destruct (V5 i Hi) as [-> ->]. rewrite Vx, Vw by exact Hi. auto.
    + exists (x2, w2). split; [ exact E2 | ]. cbn [fst snd]. rewrite app_length. cbn [length].
      cbn [fst snd] in *. split; [ destruct S1; lia | ]. split; [ destruct S2; lia | ].
      intros k i Hk' Hi. destruct (Nat.eq_dec k (length d)) as [->|Hne].
      * apply V; [ | exact Hi ]. destruct n; [ lia | discriminate ].
      * assert (k < length d) by lia. assert (Hlow : k * n + i < length d * n) by nia.
        destruct S1 as [_ S1], S2 as [_ S2]. rewrite S1, S2 by lia. apply H; assumption.
  - exists x', w'. cbn [fst snd] in *. rewrite seq_length in H. repeat split; try assumption; apply H; assumption.
Qed.
