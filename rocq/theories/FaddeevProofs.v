(* Neumann iteration: every loop of one step. *)
From Coq Require Import Reals Lra ZifyBool.
From Verif Require Import Common ArrayLib PWModel SwpModel ResolventModel GridSpec GridPropsLemmas PermPropsLemmas PotentialModel PotentialSpec PotentialProofs PotentialPropsLemmas
  KernelModel KernelSpec KernelProofs KernelColProofs FaddeevModel FaddeevSpec.
Open Scope nat_scope.

Definition cell (a : rows2) (i : nat) : cdouble := (nth i (fst a) 0%R, nth i (snd a) 0%R).
Definition len2 (a : rows2) (n : nat) : Prop := length (fst a) = n /\ length (snd a) = n.

Lemma nth_awrite {A} (a : list A) i v d : i < length a ->
  exists a', awrite a i v = Ok a' /\ length a' = length a /\ nth i a' d = v /\ forall j, j <> i -> nth j a' d = nth j a d.
Proof.
  intros H. destruct (awrite_ok a i v H) as (a' & E & L & W & O). exists a'. split; [ exact E | ]. split; [ exact L | ].
  split; [ apply nth_error_nth; exact W | ]. intros j Hj. specialize (O j Hj).
  destruct (nth_error a j) eqn:E2.
  - rewrite (nth_error_nth _ _ _ E2), (nth_error_nth _ _ _ O). reflexivity.
  - apply nth_error_None in E2. rewrite !nth_overflow by lia. reflexivity.
Qed.

(* a loop that updates one cell per iteration, all cells different *)
Lemma upd_loop {X} (n : nat) (addr : X -> nat) (h : X -> cdouble -> cdouble) (F : rows2 -> X -> outcome rows2) l a :
  NoDup (map addr l) -> len2 a n ->
  (forall x b, In x l -> len2 b n -> exists b', F b x = Ok b' /\ len2 b' n /\ cell b' (addr x) = h x (cell b (addr x)) /\
     forall j, j <> addr x -> cell b' j = cell b j) ->
  exists a', ofold F l a = Ok a' /\ len2 a' n /\ (forall x, In x l -> cell a' (addr x) = h x (cell a (addr x))) /\
    forall j, (forall x, In x l -> j <> addr x) -> cell a' j = cell a j.
Proof.
  revert a; induction l as [|x l IH]; intros a Hnd Hl HF.
  - exists a. split; [ reflexivity | ]. split; [ exact Hl | ]. split; [ intros x [] | reflexivity ].
  - cbn [map] in Hnd. inversion Hnd as [|? ? Hni Hnd']. subst.
    destruct (HF x a (or_introl eq_refl) Hl) as (b & E & Lb & Hb & Ob). cbn [ofold]. rewrite E. cbn [obind].
    destruct (IH b Hnd' Lb) as (a' & E' & La & Ha & Oa); [ intros y c Hy; apply HF; right; exact Hy | ].
    exists a'. split; [ exact E' | ]. split; [ exact La | ]. split.
    + intros y [<-|Hy].
      * rewrite Oa; [ exact Hb | ]. intros y Hy Heq. apply Hni. rewrite Heq. apply in_map. exact Hy.
      * rewrite Ha by exact Hy. rewrite Ob; [ reflexivity | ]. intros Heq. apply Hni. rewrite <- Heq. apply in_map. exact Hy.
    + intros j Hj. rewrite Oa by (intros y Hy; apply Hj; right; exact Hy). apply Ob. apply Hj. left; reflexivity.
Qed.

Lemma copy_row_ok D R src i dst j : len2 src (R * D) -> len2 dst (R * D) -> i < R -> j < R ->
  exists dst', copy_row D src i dst j = Ok dst' /\ len2 dst' (R * D) /\
    (forall k, k < D -> cell dst' (j * D + k) = cell src (i * D + k)) /\
    (forall r k, r <> j -> k < D -> cell dst' (r * D + k) = cell dst (r * D + k)).
Proof.
  intros [S1 S2] [T1 T2] Hi Hj. unfold copy_row.
  assert (Bi : i * D + D <= R * D) by nia. assert (Bj : j * D + D <= R * D) by nia.
  destruct (aslice_ok (fst src) (i * D) D 0%R) as (x & Ex & Lx & Hx); [ lia | ]. rewrite Ex. cbn [obind].
  destruct (aslice_ok (snd src) (i * D) D 0%R) as (y & Ey & Ly & Hy); [ lia | ]. rewrite Ey. cbn [obind].
  destruct (ablit_ok (fst dst) x (j * D) 0%R) as (re & Er & Lr & Wr & Or); [ lia | ]. rewrite Er. cbn [obind].
  destruct (ablit_ok (snd dst) y (j * D) 0%R) as (im & Em & Lm & Wm & Om); [ lia | ]. rewrite Em. cbn [obind].
  eexists. split; [ reflexivity | ]. split; [ split; cbn [fst snd]; congruence | ]. split.
  - intros k Hk. unfold cell. cbn [fst snd]. rewrite Wr, Wm by lia. rewrite Hx, Hy by exact Hk. reflexivity.
  - intros r k Hr Hk. unfold cell. cbn [fst snd]. 
    assert (r * D + k < j * D \/ j * D + D <= r * D + k) by (destruct (Nat.lt_ge_cases r j); [ left | right ]; nia).
    rewrite Or, Om by lia. reflexivity.
Qed.

Lemma combine_app {X Y} (a a' : list X) (b b' : list Y) : length a = length b -> combine (a ++ a') (b ++ b') = combine a b ++ combine a' b'.
Proof. revert b; induction a as [|x a IH]; intros [|y b] H; cbn in *; try discriminate; [ reflexivity | ]. rewrite IH by lia. reflexivity. Qed.

Section Sys.
Variables (s : fsys) (A : nat -> nat -> R).
Let D := s_D s.
Let nd := s_nd s.
Let nq := s_nq s.
Let nrows := nd * nq.
Hypothesis HG : length (s_G s) = nq * D.
Hypothesis Hcol : forall j, j < D -> exists col, kernel_col s j (repeat 0%R D) = Ok col /\ length col = D /\
  forall i, i < D -> nth i col 0%R = A i j.

(* ---------- multiplication with the resolvent ---------- *)
Lemma row_decode r : r < nrows -> exists d q, d < nd /\ q < nq /\ r = d * nq + q.
Proof. apply rm_surj. Qed.
Lemma row_G_eq d q k : q < nq -> row_G s (d * nq + q) k = nth (q * D + k) (s_G s) c0.
Proof.
  intros Hq. unfold row_G. fold nq D. f_equal. f_equal. f_equal. rewrite Nat.add_comm, Nat.mod_add by lia. apply Nat.mod_small. exact Hq.
Qed.

Lemma mult_G_ok prev : len2 prev (nrows * D) ->
  exists out, mult_G s prev = Ok out /\ len2 out (nrows * D) /\
    forall r k, r < nrows -> k < D -> cell out (r * D + k) = cmul (cell prev (r * D + k)) (row_G s r k).
Proof.
  intros L.
  set (F := fun (ri : rows2) (x : nat * nat * nat) => let '(iq, d, k) := x in
      let at_k := (d * nq + iq) * D + k in
      do x <- aread (fst ri) at_k; do y <- aread (snd ri) at_k;
      do g <- aread (s_G s) (iq * D + k);
      do re <- awrite (fst ri) at_k (x * fst g - y * snd g)%R;
      do im <- awrite (snd ri) at_k (x * snd g + y * fst g)%R;
      Ok (re, im)).
  set (X := flat_map (fun iq => flat_map (fun d => map (fun k => (iq, d, k)) (seq 0 D)) (seq 0 nd)) (seq 0 nq)).
  assert (HX : forall iq d k, In (iq, d, k) X <-> iq < nq /\ d < nd /\ k < D).
  { intros iq d k. unfold X. rewrite in_flat_map. split.
    - intros (a & Ia & H). apply in_flat_map in H. destruct H as (b & Ib & H). apply in_map_iff in H. destruct H as (c & E & Ic).
      injection E as -> -> ->. apply in_seq in Ia, Ib, Ic. lia.
    - intros (H1 & H2 & H3). exists iq. split; [ apply in_seq; lia | ]. apply in_flat_map. exists d. split; [ apply in_seq; lia | ].
      apply in_map_iff. exists k. split; [ reflexivity | apply in_seq; lia ]. }
  assert (Hnd : NoDup X).
  { unfold X. apply NoDup_flat_map; [ apply seq_NoDup | | ].
    - intros iq _. apply NoDup_flat_map; [ apply seq_NoDup | | ].
      + intros d _. apply FinFun.Injective_map_NoDup; [ intros a b H; congruence | apply seq_NoDup ].
      + intros d d' [[a b] c] _ _ H1 H2. apply in_map_iff in H1, H2. destruct H1 as (? & E1 & _), H2 as (? & E2 & _). congruence.
    - intros iq iq' [[a b] c] _ _ H1 H2. apply in_flat_map in H1, H2. destruct H1 as (? & _ & H1), H2 as (? & _ & H2).
      apply in_map_iff in H1, H2. destruct H1 as (? & E1 & _), H2 as (? & E2 & _). congruence. }
  assert (EX : mult_G s prev = ofold F X prev).
  { unfold mult_G. apply ofold_flat. intros iq r0 _. apply ofold_flat. intros d r1 _. rewrite ofold_map. reflexivity. }
  rewrite EX.
  destruct (upd_loop (nrows * D) (fun x : nat * nat * nat => let '(iq, d, k) := x in (d * nq + iq) * D + k)
     (fun x c => let '(iq, d, k) := x in cmul c (nth (iq * D + k) (s_G s) c0)) F X prev) as (out & E & Lo & Ho & _).
  - assert (Hinj : forall x y, In x X -> In y X -> (let '(iq, d, k) := x in (d * nq + iq) * D + k) = (let '(iq, d, k) := y in (d * nq + iq) * D + k) -> x = y).
    { intros [[iq d] k] [[iq' d'] k'] H1 H2 Heq. apply HX in H1, H2.
      apply rm_inj in Heq; [ | lia.. ]. destruct Heq as [Heq ->]. apply rm_inj in Heq; [ | lia.. ]. destruct Heq as [-> ->]. reflexivity. }
    clear -Hinj Hnd. induction X as [|x X IH]; [ constructor | ]. inversion Hnd as [|? ? Hni Hnd']; subst. cbn [map]. constructor.
    + intros Hin. apply in_map_iff in Hin. destruct Hin as (y & Ey & Iy). apply Hni.
      rewrite <- (Hinj y x (or_intror Iy) (or_introl eq_refl) Ey). exact Iy.
    + apply IH; [ exact Hnd' | ]. intros a b Ha Hb. apply Hinj; right; assumption.
  - exact L.
  - intros [[iq d] k] b Hx [L1 L2]. apply HX in Hx. unfold F. cbv zeta.
    assert (B : (d * nq + iq) * D + k < nrows * D) by (apply rm_lt; [ apply rm_lt; lia | lia ]).
    assert (BG : iq * D + k < nq * D) by (apply rm_lt; lia).
    rewrite !areadn by lia. cbn [obind].
    destruct (aread_ok (s_G s) (iq * D + k)) as (gv & Eg & Ng); [ lia | ]. rewrite Eg. cbn [obind].
    destruct (nth_awrite (fst b) ((d * nq + iq) * D + k) (at_ (fst b) ((d * nq + iq) * D + k) * fst gv - at_ (snd b) ((d * nq + iq) * D + k) * snd gv)%R 0%R)
      as (re & Er & Lr & Wr & Or); [ lia | ]. rewrite Er. cbn [obind].
    destruct (nth_awrite (snd b) ((d * nq + iq) * D + k) (at_ (fst b) ((d * nq + iq) * D + k) * snd gv + at_ (snd b) ((d * nq + iq) * D + k) * fst gv)%R 0%R)
      as (im & Em & Lm & Wm & Om); [ lia | ]. rewrite Em. cbn [obind].
    eexists. split; [ reflexivity | ]. split; [ split; cbn [fst snd]; congruence | ]. split.
    + unfold cell. cbn [fst snd]. rewrite Wr, Wm. rewrite (nth_error_nth _ _ c0 Ng). unfold cmul, at_. cbn [fst snd]. reflexivity.
    + intros j Hj. unfold cell. cbn [fst snd]. rewrite Or, Om by exact Hj. reflexivity.
  - exists out. split; [ exact E | ]. split; [ exact Lo | ]. intros r k Hr Hk.
    destruct (row_decode r Hr) as (d & q & Hd & Hq & ->). rewrite row_G_eq by exact Hq.
    apply (Ho (q, d, k)). apply HX. auto.
Qed.

(* ---------- compactification ---------- *)
Definition conv_ok (conv convbu : list bool) : Prop :=
  length conv = nd * nd * nq /\ length convbu = (if s_breakup s then nd * s_nBU s else 0).
Definition row_els (d q : nat) : list nat := map (fun dc => d * nd * nq + dc * nq + q) (seq 0 nd).
Definition row_bus (d q : nat) : list nat := if s_breakup s then map (fun b => d * s_nBU s + b) (bu_range s q) else [].
Definition rowdone (conv convbu : list bool) (d q : nat) : bool :=
  forallb (fun i => nth i conv false) (row_els d q) && forallb (fun i => nth i convbu false) (row_bus d q).
Hypothesis Hends : s_breakup s = true -> (forall q, q < nq -> nth q (s_ends s) 0 <= nth (q + 1) (s_ends s) 0) /\ nth nq (s_ends s) 0 <= s_nBU s.

Lemma bu_range_lt q b : s_breakup s = true -> q < nq -> In b (bu_range s q) -> b < s_nBU s.
Proof.
  intros Hb Hq Hin. unfold bu_range in Hin. apply in_seq in Hin. destruct (Hends Hb) as [Hm Hl].
  assert (G : forall k, q + k < nq -> nth (q + 1) (s_ends s) 0 <= nth (q + 1 + k) (s_ends s) 0).
  { induction k as [|k IH]; intros Hk; [ rewrite Nat.add_0_r; lia | ].
    specialize (IH ltac:(lia)). specialize (Hm (q + 1 + k) ltac:(lia)). replace (q + 1 + S k) with (q + 1 + k + 1) by lia. lia. }
  specialize (G (nq - q - 1) ltac:(lia)). replace (q + 1 + (nq - q - 1)) with nq in G by lia. lia.
Qed.

Lemma all_conv_ok conv l : (forall i, In i l -> i < length conv) -> all_conv conv l = Ok (forallb (fun i => nth i conv false) l).
Proof.
  intros H. unfold all_conv.
  assert (G : forall b, ofold (fun b i => do c <- aread conv i; Ok (if c then b else false)) l b = Ok (b && forallb (fun i => nth i conv false) l)).
  { induction l as [|i l IH]; intros b; [ cbn; rewrite andb_true_r; reflexivity | ]. cbn [ofold forallb].
    destruct (aread_ok conv i) as (c & E & Nc); [ apply H; left; reflexivity | ]. rewrite E. cbn [obind].
    rewrite IH by (intros j Hj; apply H; right; exact Hj). rewrite (nth_error_nth _ _ false Nc).
    destruct c, b; cbn; reflexivity. }
  rewrite G. reflexivity.
Qed.
Lemma row_conv_ok conv convbu d q : conv_ok conv convbu -> d < nd -> q < nq ->
  row_conv s conv convbu d q = Ok (rowdone conv convbu d q).
Proof.
  intros [L1 L2] Hd Hq. unfold row_conv. fold nd nq. fold (row_els d q). fold (row_bus d q).
  rewrite all_conv_ok. 2:{ intros i Hi. unfold row_els in Hi. apply in_map_iff in Hi. destruct Hi as (dc & <- & Hdc). apply in_seq in Hdc.
    rewrite L1. rewrite <- Nat.mul_add_distr_r. apply rm_lt; [ | exact Hq ]. apply rm_lt; lia. }
  cbn [obind]. rewrite all_conv_ok. 2:{ intros i Hi. unfold row_bus in Hi. destruct (Bool.bool_dec (s_breakup s) true) as [Eb|Eb]; [ | apply Bool.not_true_is_false in Eb; rewrite Eb in Hi; destruct Hi ].
    rewrite Eb in Hi, L2. apply in_map_iff in Hi. destruct Hi as (b & <- & Hb). rewrite L2. apply rm_lt; [ exact Hd | ]. exact (bu_range_lt q b Eb Hq Hb). }
  reflexivity.
Qed.

Definition pending (conv convbu : list bool) (l : list (nat * nat)) : list nat :=
  map (fun dq => fst dq * nq + snd dq) (filter (fun dq => negb (rowdone conv convbu (fst dq) (snd dq))) l).
Lemma pending_length conv convbu l : length (pending conv convbu l) <= length l.
Proof. unfold pending. rewrite map_length. induction l as [|x l IH]; [ cbn; lia | ]. cbn. destruct (negb _); cbn; lia. Qed.
Lemma nest_length n m : length (nest n m) = n * m.
Proof.
  unfold nest. rewrite flat_map_concat_map. assert (G : forall a, length (concat (map (fun i => map (fun j => (i, j)) (seq 0 m)) (seq a n))) = n * m).
  { induction n as [|n IH]; intros a; [ reflexivity | ]. cbn. rewrite app_length, map_length, seq_length, IH. lia. }
  apply G.
Qed.

Lemma compact_ok conv convbu prev comp : conv_ok conv convbu -> len2 prev (nrows * D) -> len2 comp (nrows * D) ->
  exists comp' index, compact s conv convbu prev comp = Ok (comp', index) /\ len2 comp' (nrows * D) /\
    index = pending conv convbu (nest nd nq) /\
    forall p k, p < length index -> k < D -> cell comp' (p * D + k) = cell prev (nth p index 0 * D + k).
Proof.
  intros Hc Lp Lc. unfold compact. fold nd nq D.
  destruct (ofold_inv (fun done (st : rows2 * list nat) => len2 (fst st) (nrows * D) /\ snd st = pending conv convbu done /\
      forall p k, p < length (snd st) -> k < D -> cell (fst st) (p * D + k) = cell prev (nth p (snd st) 0 * D + k))
    (fun (st : rows2 * list nat) dq =>
      do b <- row_conv s conv convbu (fst dq) (snd dq);
      if b then Ok st else
      do comp' <- copy_row D prev (fst dq * nq + snd dq) (fst st) (length (snd st));
      Ok (comp', snd st ++ [fst dq * nq + snd dq])) (nest nd nq) (comp, [])) as ([comp' index] & E & L & Hi & Hcell).
  - cbn [fst snd]. split; [ exact Lc | ]. split; [ reflexivity | ]. intros p k Hp. cbn in Hp. lia.
  - intros dn [d q] rest [cp ix] Hl (Lst & Hix & Hst). cbn [fst snd] in *.
    assert (Hin : In (d, q) (nest nd nq)) by (rewrite Hl; apply in_or_app; right; left; reflexivity).
    apply in_nest in Hin. destruct Hin as [Hd Hq]. rewrite (row_conv_ok conv convbu d q Hc Hd Hq). cbn [obind].
    assert (Hpend : pending conv convbu (dn ++ [(d, q)]) = pending conv convbu dn ++ (if rowdone conv convbu d q then [] else [d * nq + q])).
    { unfold pending. rewrite filter_app, map_app. cbn [filter fst snd]. destruct (rowdone conv convbu d q); reflexivity. }
    rewrite Hpend. destruct (rowdone conv convbu d q).
    + eexists. split; [ reflexivity | ]. rewrite app_nil_r. auto.
    + assert (Hlen : length ix < nrows).
      { rewrite Hix. apply Nat.le_lt_trans with (length dn); [ apply pending_length | ].
        assert (length (nest nd nq) = nrows) by (apply nest_length). rewrite Hl, app_length in H. cbn in H. lia. }
      destruct (copy_row_ok D nrows prev (d * nq + q) cp (length ix) Lp Lst) as (cp' & E & L' & H1 & H2); [ apply rm_lt; assumption | exact Hlen | ].
      rewrite E. cbn [obind]. eexists. split; [ reflexivity | ]. cbn [fst snd]. split; [ exact L' | ]. split; [ rewrite Hix; reflexivity | ].
      intros p k Hp Hk. rewrite app_length in Hp. cbn in Hp. destruct (Nat.eq_dec p (length ix)) as [->|Hne].
      * rewrite app_nth2, Nat.sub_diag by lia. cbn [nth]. apply H1. exact Hk.
      * rewrite app_nth1 by lia. rewrite H2 by assumption. apply Hst; [ lia | exact Hk ].
  - exists comp', index. cbn [fst snd] in *. auto.
Qed.

Lemma in_pending conv convbu d q : d < nd -> q < nq -> rowdone conv convbu d q = false -> In (d * nq + q) (pending conv convbu (nest nd nq)).
Proof.
  intros Hd Hq H. unfold pending. apply in_map_iff. exists (d, q). split; [ reflexivity | ]. apply filter_In. split; [ apply in_nest; auto | ].
  cbn [fst snd]. rewrite H. reflexivity.
Qed.
Lemma pending_lt conv convbu r : In r (pending conv convbu (nest nd nq)) -> r < nrows.
Proof.
  unfold pending. intros H. apply in_map_iff in H. destruct H as ([d q] & <- & H). apply filter_In in H. destruct H as [H _].
  apply in_nest in H. apply rm_lt; tauto.
Qed.
Lemma pending_NoDup conv convbu : NoDup (pending conv convbu (nest nd nq)).
Proof.
  unfold pending. assert (G : forall l : list (nat * nat), (forall x, In x l -> snd x < nq) -> NoDup l -> NoDup (map (fun dq => fst dq * nq + snd dq) l)).
  { induction l as [|x l IH]; intros Hl Hn; [ constructor | ]. inversion Hn as [|? ? Hni Hn']; subst. cbn [map]. constructor.
    - intros Hin. apply in_map_iff in Hin. destruct Hin as (y & E & Iy). apply Hni.
      apply rm_inj in E; [ | apply Hl; right; exact Iy | apply Hl; left; reflexivity ]. destruct x, y; cbn in E. destruct E; subst. exact Iy.
    - apply IH; [ intros y Hy; apply Hl; right; exact Hy | exact Hn' ]. }
  apply G; [ | apply NoDup_filter, NoDup_nest ]. intros [d q] H. apply filter_In in H. destruct H as [H _]. apply in_nest in H. cbn. tauto.
Qed.

(* ---------- matrix product, chunk by chunk ---------- *)
Definition rdot (X : list R) (p c : nat) : R := sum (fun k => nth (p * D + k) X 0 * A k c)%R D.

Lemma cols_ok st w nc : w <= nc -> st + w <= D ->
  exists cols, ofold (fun buf idx =>
      do z <- aslice buf ((idx - st) * D) D;
      do c <- kernel_col s idx z;
      ablit buf ((idx - st) * D) c) (seq st w) (repeat 0%R (D * nc)) = Ok cols /\ length cols = nc * D /\
    forall j i, j < w -> i < D -> nth (j * D + i) cols 0%R = A i (st + j).
Proof.
  intros Hw HD.
  assert (G : forall n, n <= w -> exists cols, ofold (fun buf idx =>
      do z <- aslice buf ((idx - st) * D) D;
      do c <- kernel_col s idx z;
      ablit buf ((idx - st) * D) c) (seq st n) (repeat 0%R (D * nc)) = Ok cols /\ length cols = nc * D /\
    (forall j i, j < n -> i < D -> nth (j * D + i) cols 0%R = A i (st + j)) /\
    (forall i, n * D <= i -> nth i cols 0%R = 0%R)).
  { induction n as [|n IH]; intros Hn.
    - eexists. split; [ reflexivity | ]. split; [ rewrite repeat_length; lia | ]. split; [ intros; lia | ]. intros i _. apply zeros_nth.
    - destruct (IH ltac:(lia)) as (cols & E & L & H1 & H2). rewrite seq_S, ofold_app, E. cbn [obind ofold].
      replace (st + n - st) with n by lia. assert (B : n * D + D <= nc * D) by nia.
      destruct (aslice_ok cols (n * D) D 0%R) as (z & Ez & Lz & Hz); [ lia | ]. rewrite Ez. cbn [obind].
      assert (Hzz : z = repeat 0%R D).
      { apply (nth_ext _ _ 0%R 0%R); [ rewrite repeat_length; exact Lz | ]. intros i Hi. rewrite Lz in Hi. rewrite zeros_nth, Hz by exact Hi. apply H2. lia. }
      rewrite Hzz. destruct (Hcol (st + n) ltac:(lia)) as (c & Ec & Lc & Hc'). rewrite Ec. cbn [obind].
      destruct (ablit_ok cols c (n * D) 0%R) as (out & Eo & Lo & Wo & Oo); [ lia | ]. rewrite Eo. cbn [obind].
      exists out. split; [ reflexivity | ]. split; [ congruence | ]. split.
      + intros j i Hj Hi. destruct (Nat.eq_dec j n) as [->|Hne]; [ rewrite Wo by lia; apply Hc'; exact Hi | ].
        rewrite Oo by (left; nia). apply H1; lia.
      + intros i Hi. rewrite Oo by (right; lia). apply H2. lia. }
  destruct (G w ltac:(lia)) as (cols & E & L & H1 & _). exists cols. auto.
Qed.

Lemma gemm_ok m w X cols C st : m <= nrows -> length X = nrows * D -> length C = nrows * D -> w * D <= length cols -> st + w <= D ->
  exists C', gemm_nt m w D X cols C st D = Ok C' /\ length C' = length C /\
    (forall p j, p < m -> j < w -> nth (p * D + (st + j)) C' 0%R = sum (fun k => nth (p * D + k) X 0 * nth (j * D + k) cols 0)%R D) /\
    (forall p c, p < m -> c < D -> (c < st \/ st + w <= c) -> nth (p * D + c) C' 0%R = nth (p * D + c) C 0%R).
Proof.
  intros Hm LX LC Lc Hw. unfold gemm_nt.
  replace (m * D <=? length X) with true by (symmetry; apply Nat.leb_le; nia).
  replace (w * D <=? length cols) with true by (symmetry; apply Nat.leb_le; lia). cbn [andb].
  destruct (scatter (fun ij : nat * nat => st + fst ij * D + snd ij)
     (fun ij : nat * nat => rsum (fun k => nth (fst ij * D + k) X 0 * nth (snd ij * D + k) cols 0)%R D) (nest m w) C) as (C' & E & L & W & O).
  - intros [i j] H. apply in_nest in H. cbn [fst snd]. rewrite LC. replace (st + i * D + j) with (i * D + (st + j)) by lia. apply rm_lt; lia.
  - intros [i j] [i' j'] H H' Heq. apply in_nest in H, H'. cbn [fst snd] in Heq.
    assert (Heq2 : i * D + (st + j) = i' * D + (st + j')) by lia. apply rm_inj in Heq2; [ | lia.. ].
    destruct Heq2 as [-> H3]. assert (j = j') by lia. subst. reflexivity.
  - exists C'. split; [ exact E | ]. split; [ exact L | ]. split.
    + intros p j Hp Hj. specialize (W (p, j) ltac:(apply in_nest; auto)). cbn [fst snd] in W.
      replace (p * D + (st + j)) with (st + p * D + j) by lia. rewrite (nth_error_nth _ _ _ W). apply rsum_sum.
    + intros p c Hp Hc Hout. assert (Hne : nth_error C' (p * D + c) = nth_error C (p * D + c)).
      { apply O. intros [i j] Hij Heq. apply in_nest in Hij. cbn [fst snd] in Heq.
        assert (Heq2 : i * D + (st + j) = p * D + c) by lia. apply rm_inj in Heq2; [ | lia.. ]. lia. }
      assert (B : p * D + c < length C) by (rewrite LC; apply rm_lt; lia).
      rewrite (nth_error_nth' C 0%R B) in Hne. rewrite (nth_error_nth _ _ _ Hne). reflexivity.
Qed.

Lemma chunk_ok nc m comp prod k : 0 < nc -> m <= nrows -> len2 comp (nrows * D) -> len2 prod (nrows * D) -> k * nc <= D ->
  exists prod', chunk_step s nc m comp prod k = Ok prod' /\ len2 prod' (nrows * D) /\
    (forall p c, p < m -> c < D -> k * nc <= c < (k + 1) * nc -> cell prod' (p * D + c) = (rdot (fst comp) p c, rdot (snd comp) p c)) /\
    (forall p c, p < m -> c < D -> (c < k * nc \/ (k + 1) * nc <= c) -> cell prod' (p * D + c) = cell prod (p * D + c)).
Proof.
  intros Hnc Hm [C1 C2] [P1 P2] Hk. unfold chunk_step. cbv zeta. fold D.
  set (st := k * nc) in *. set (en := if D <? (k + 1) * nc then D else (k + 1) * nc).
  assert (Hen : st <= en /\ en - st <= nc /\ en <= D /\ forall c, c < D -> (st <= c < (k + 1) * nc <-> st <= c < en)).
  { unfold en. destruct (Nat.ltb_spec D ((k + 1) * nc)); unfold st in *; repeat split; nia. }
  destruct Hen as (E1 & E2 & E3 & E4). clearbody en.
  destruct (cols_ok st (en - st) nc E2 ltac:(lia)) as (cols & Ec & Lc & Hc). rewrite Ec. cbn [obind].
  assert (Lw : (en - st) * D <= length cols) by (rewrite Lc; nia).
  destruct (gemm_ok m (en - st) (fst comp) cols (fst prod) st Hm C1 P1 Lw ltac:(lia)) as (re & Er & Lr & Wr & Or). rewrite Er. cbn [obind].
  destruct (gemm_ok m (en - st) (snd comp) cols (snd prod) st Hm C2 P2 Lw ltac:(lia)) as (im & Em & Lm & Wm & Om). rewrite Em. cbn [obind].
  eexists. split; [ reflexivity | ]. split; [ split; cbn [fst snd]; congruence | ]. split.
  - intros p c Hp Hc' Hin. apply (E4 c Hc') in Hin. unfold cell, rdot. cbn [fst snd]. replace c with (st + (c - st)) by lia.
    rewrite Wr, Wm by lia. f_equal; apply sum_ext; intros i Hi; rewrite Hc by lia; reflexivity.
  - intros p c Hp Hc' Hout. unfold cell. cbn [fst snd]. assert (c < st \/ en <= c).
    { destruct Hout as [H|H]; [ left; exact H | right ]. destruct (Nat.lt_ge_cases c en) as [Hlt|]; [ | assumption ]. exfalso.
      assert (Hst : st <= c) by (unfold st; nia). pose proof (proj2 (E4 c Hc') (conj Hst Hlt)). lia. }
    rewrite Or, Om by (assumption || lia). reflexivity.
Qed.

Lemma chunks_ok nc m comp prod : 0 < nc -> m <= nrows -> len2 comp (nrows * D) -> len2 prod (nrows * D) ->
  exists prod', ofold (chunk_step s nc m comp) (seq 0 (D / nc + 1)) prod = Ok prod' /\ len2 prod' (nrows * D) /\
    forall p c, p < m -> c < D -> cell prod' (p * D + c) = (rdot (fst comp) p c, rdot (snd comp) p c).
Proof.
  intros Hnc Hm Lc Lp.
  assert (G : forall n, n <= D / nc + 1 -> exists prod', ofold (chunk_step s nc m comp) (seq 0 n) prod = Ok prod' /\ len2 prod' (nrows * D) /\
    forall p c, p < m -> c < D -> c < n * nc -> cell prod' (p * D + c) = (rdot (fst comp) p c, rdot (snd comp) p c)).
  { induction n as [|n IH]; intros Hn.
    - exists prod. split; [ reflexivity | ]. split; [ exact Lp | ]. intros; lia.
    - destruct (IH ltac:(lia)) as (pr & E & L & H). rewrite seq_S, ofold_app, E. cbn [obind ofold plus].
      assert (Hk : n * nc <= D). { assert (n <= D / nc) by lia. apply Nat.le_trans with (D / nc * nc); [ nia | ]. rewrite Nat.mul_comm. apply Nat.mul_div_le. lia. }
      destruct (chunk_ok nc m comp pr n Hnc Hm Lc L Hk) as (pr' & E' & L' & H1 & H2). rewrite E'. cbn [obind].
      exists pr'. split; [ reflexivity | ]. split; [ exact L' | ]. intros p c Hp Hc Hlt.
      destruct (Nat.lt_ge_cases c (n * nc)) as [Hlo|Hge].
      + rewrite H2 by (assumption || (left; assumption)). apply H; assumption.
      + apply H1; try assumption. lia. }
  destruct (G (D / nc + 1) (le_n _)) as (pr & E & L & H). exists pr. split; [ exact E | ]. split; [ exact L | ].
  intros p c Hp Hc. apply H; try assumption. pose proof (Nat.mul_succ_div_gt D nc ltac:(lia)). lia.
Qed.

Lemma write_back_ok prod index cur : len2 prod (nrows * D) -> len2 cur (nrows * D) -> NoDup index -> (forall r, In r index -> r < nrows) ->
  length index <= nrows ->
  exists cur', write_back s prod index cur = Ok cur' /\ len2 cur' (nrows * D) /\
    forall p k, p < length index -> k < D -> cell cur' (nth p index 0 * D + k) = cell prod (p * D + k).
Proof.
  intros Lp Lc Hnd Hlt Hlen. unfold write_back. fold D. unfold enum.
  assert (G : forall n, n <= length index -> exists cur', ofold (fun cur (r : nat * nat) => copy_row D prod (fst r) cur (snd r)) (combine (seq 0 n) (firstn n index)) cur = Ok cur' /\
     len2 cur' (nrows * D) /\ forall p k, p < n -> k < D -> cell cur' (nth p index 0 * D + k) = cell prod (p * D + k)).
  { induction n as [|n IH]; intros Hn.
    - exists cur. split; [ reflexivity | ]. split; [ exact Lc | ]. intros; lia.
    - destruct (IH ltac:(lia)) as (c & E & L & H).
      assert (Hf : firstn (S n) index = firstn n index ++ [nth n index 0]).
      { clear -Hn. revert index Hn; induction n as [|n IHn]; intros [|x index] Hn; cbn in *; try lia; [ reflexivity | ]. rewrite IHn by lia. reflexivity. }
      rewrite Hf, seq_S. rewrite combine_app by (rewrite seq_length, firstn_length; lia). rewrite ofold_app, E. cbn [obind combine ofold fst snd plus].
      assert (Hin : In (nth n index 0) index) by (apply nth_In; lia).
      destruct (copy_row_ok D nrows prod n c (nth n index 0) Lp L ltac:(lia) (Hlt _ Hin)) as (c' & E' & L' & H1 & H2). rewrite E'. cbn [obind].
      exists c'. split; [ reflexivity | ]. split; [ exact L' | ]. intros p k Hp Hk. destruct (Nat.eq_dec p n) as [->|Hne]; [ apply H1; exact Hk | ].
      rewrite H2; [ apply H; lia | | exact Hk ]. intros Heq. apply Hne. apply (proj1 (NoDup_nth index 0) Hnd) in Heq; lia. }
  destruct (G (length index) (le_n _)) as (c & E & L & H). rewrite firstn_all in E. exists c. auto.
Qed.
End Sys.
