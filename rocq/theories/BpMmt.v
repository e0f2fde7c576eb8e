(** * The min-max tree: every node summarises its range of positions. *)
From Verif Require Import Base Spec BaseFacts WordFacts BitVecModel BitVecProofs BpModel BpExcess.

(** [nd] summarises the positions [x..y]. *)
Definition node_ok (l : list bool) (nd : enode) (x y : N) : Prop :=
  ntotal nd = (excess_before l y - excess_before l x)%Z /\
  (forall j, x < j -> j <= y -> (nmin nd <= excess_before l j - excess_before l x <= nmax nd)%Z) /\
  (exists j, (x < j \/ x = y /\ j = x) /\ j <= y /\ (excess_before l j - excess_before l x = nmin nd)%Z) /\
  (exists j, (x < j \/ x = y /\ j = x) /\ j <= y /\ (excess_before l j - excess_before l x = nmax nd)%Z).

Lemma node_ok_empty l x : node_ok l node0 x x.
Proof. repeat split; cbn; try lia; exists x; lia. Qed.
Lemma node_ok_combine l a b x m y : x <= m -> m <= y -> x < m \/ m = y -> node_ok l a x m -> node_ok l b m y -> node_ok l (mmt_combine a b) x y.
Proof.
  intros H1 H2 H3 (At & Ab & (j1 & Aj1 & Aj1' & Aj1'') & (j2 & Aj2 & Aj2' & Aj2'')) (Bt & Bb & (j3 & Bj3 & Bj3' & Bj3'') & (j4 & Bj4 & Bj4' & Bj4'')).
  repeat split; cbn [mmt_combine ntotal nmin nmax].
  - lia.
  - destruct (N.leb_spec j m); [specialize (Ab j)|specialize (Bb j)]; lia.
  - destruct (N.leb_spec j m); [specialize (Ab j)|specialize (Bb j)]; lia.
  - destruct (Z.leb_spec (nmin a) (ntotal a + nmin b)); [exists j1|exists j3]; lia.
  - destruct (Z.leb_spec (ntotal a + nmax b) (nmax a)); [exists j2|exists j4]; lia.
Qed.
(** A node contains exactly the non-zero relative excesses between its minimum and maximum. *)
Lemma node_ok_has l nd x y r : x <= y -> node_ok l nd x y -> (r <> 0)%Z -> (nmin nd <= r <= nmax nd)%Z ->
  exists j, x < j /\ j <= y /\ (excess_before l j - excess_before l x = r)%Z.
Proof.
  intros Hxy (Ht & Hb & (j1 & H1 & H2 & H3) & (j2 & H4 & H5 & H6)) Hr Hm.
  destruct (Z.leb_spec 0 r).
  - destruct (ex_ivt l x (j2 - x) r) as (j & Hj & Ej); [replace (x + (j2 - x)) with j2 by lia; lia|]. exists j. assert (j <> x) by (intros ->; lia). lia.
  - destruct (ex_ivt l x (j1 - x) r) as (j & Hj & Ej); [replace (x + (j1 - x)) with j1 by lia; lia|]. exists j. assert (j <> x) by (intros ->; lia). lia.
Qed.

(** ** Shape of the tree *)
Definition nleaves (L B : N) : N := div_ceil L B.
Definition height (n : N) : N := N.max 1 (N.log2_up n).
(** First position of the [q]-th node of depth [dp]. *)
Definition dlo (L B dp q : N) : N := N.min (q * 2 ^ (height (nleaves L B) - dp) * B) L.
Definition vv (dp q : N) : N := 2 ^ dp - 1 + q.

Lemma pow2_pos n : 0 < 2 ^ n.
Proof. apply N.neq_0_lt_0, N.pow_nonzero. discriminate. Qed.
Lemma pow2_succ n : 2 ^ (n + 1) = 2 * 2 ^ n.
Proof. rewrite N.add_1_r. apply N.pow_succ_r'. Qed.
Lemma internal_pow n : 1 <= n -> mmt_internal n = 2 ^ height n - 1.
Proof.
  intros Hn. unfold mmt_internal, height. destruct (N.eq_dec n 1) as [->|]; [reflexivity|].
  assert (1 <= N.log2_up n) by (pose proof (N.log2_up_pos n); lia). replace (N.max 1 (N.log2_up n)) with (N.log2_up n) by lia.
  pose proof (N.pow_le_mono_r 2 1 (N.log2_up n)). change (2 ^ 1) with 2 in *. lia.
Qed.
Lemma leaves_le n : 1 <= n -> n <= 2 ^ height n.
Proof.
  intros Hn. unfold height. destruct (N.eq_dec n 1) as [->|]; [cbn; lia|]. pose proof (N.log2_up_spec n). assert (1 <= N.log2_up n) by (pose proof (N.log2_up_pos n); lia).
  replace (N.max 1 (N.log2_up n)) with (N.log2_up n) by lia. lia.
Qed.
Lemma height_pos n : 1 <= height n.
Proof. unfold height. lia. Qed.

Lemma leaf_iff L B b : 0 < B -> 0 < L -> (b < nleaves L B <-> b * B < L).
Proof.
  intros HB HL. unfold nleaves, div_ceil. split; intros H.
  - assert (b + 1 <= (L + B - 1) / B) by lia. pose proof (N.mul_div_le (L + B - 1) B). nia.
  - assert (b + 1 <= (L + B - 1) / B) by (apply N.div_le_lower_bound; nia). lia.
Qed.
Lemma leaves_pos L B : 0 < B -> 0 < L -> 1 <= nleaves L B.
Proof. intros HB HL. pose proof (proj2 (leaf_iff L B 0 HB HL)). lia. Qed.

Lemma dlo_child L B dp q : dp < height (nleaves L B) -> dlo L B dp q = dlo L B (dp + 1) (2 * q).
Proof.
  intros H. unfold dlo. f_equal. f_equal. replace (height (nleaves L B) - dp) with (height (nleaves L B) - (dp + 1) + 1) by lia. rewrite pow2_succ. lia.
Qed.
Lemma dlo_mono L B dp q q' : q <= q' -> dlo L B dp q <= dlo L B dp q'.
Proof. intros H. unfold dlo. apply N.min_le_compat_r. apply N.mul_le_mono_r, N.mul_le_mono_r, H. Qed.
Lemma dlo_leaf L B q : dlo L B (height (nleaves L B)) q = N.min (q * B) L.
Proof. unfold dlo. rewrite N.sub_diag. change (2 ^ 0) with 1. now rewrite N.mul_1_r. Qed.
Lemma dlo_0 L B dp : dlo L B dp 0 = 0.
Proof. unfold dlo. lia. Qed.
Lemma dlo_end L B dp : 0 < B -> 0 < L -> dp <= height (nleaves L B) -> dlo L B dp (2 ^ dp) = L.
Proof.
  intros HB HL H. unfold dlo. rewrite <- N.pow_add_r. replace (dp + (height (nleaves L B) - dp)) with (height (nleaves L B)) by lia.
  pose proof (leaves_le (nleaves L B) (leaves_pos L B HB HL)) as H1. pose proof (leaf_iff L B (2 ^ height (nleaves L B)) HB HL). lia.
Qed.
Lemma dlo_le L B dp q : dlo L B dp q <= L.
Proof. unfold dlo. lia. Qed.

(** A node without positions has nothing to its right either. *)
Lemma dlo_last L B dp q : 0 < B -> dlo L B dp q < dlo L B dp (q + 1) \/ dlo L B dp (q + 1) = dlo L B dp (q + 1 + 1).
Proof.
  intros HB. unfold dlo. assert (P : 0 < 2 ^ (height (nleaves L B) - dp)) by apply pow2_pos. set (c := 2 ^ (height (nleaves L B) - dp)) in *. clearbody c.
  assert (0 < c * B) by nia. replace ((q + 1 + 1) * c * B) with (q * c * B + c * B + c * B) by lia. replace ((q + 1) * c * B) with (q * c * B + c * B) by lia.
  generalize dependent (c * B). generalize (q * c * B). intros. lia.
Qed.

Definition mmt_ok (l : list bool) (B : N) (nodes : list enode) : Prop :=
  let L := lenN l in
  lenN nodes = nleaves L B + (2 ^ height (nleaves L B) - 1) /\
  forall dp q, dp <= height (nleaves L B) -> q < 2 ^ dp -> vv dp q < lenN nodes ->
    node_ok l (nthN node0 nodes (vv dp q)) (dlo L B dp q) (dlo L B dp (q + 1)).

Lemma vv_lt_depth dp dp' q q' : dp < dp' -> q < 2 ^ dp -> vv dp q < vv dp' q'.
Proof.
  intros H Hq. unfold vv. pose proof (N.pow_le_mono_r 2 (dp + 1) dp'). rewrite pow2_succ in *. pose proof (pow2_pos dp). lia.
Qed.

(** ** Construction *)
Lemma div_pred_0 i B : 0 < B -> 0 < i -> i mod B = 0 -> (i - 1) / B = i / B - 1 /\ i / B * B = i /\ 1 <= i / B.
Proof.
  intros HB Hi Hm. pose proof (N.div_mod' i B) as Hd. rewrite Hm in Hd.
  assert (1 <= i / B) by (destruct (N.eq_dec (i / B) 0) as [E|]; [rewrite E in Hd; lia|lia]).
  split; [|split; [lia|auto]]. symmetry. apply N.div_unique with (r := B - 1); [lia|]. nia.
Qed.
Lemma div_pred_n i B : 0 < B -> i mod B <> 0 -> (i - 1) / B = i / B.
Proof.
  intros HB Hm. pose proof (N.div_mod' i B) as Hd. pose proof (N.mod_lt i B). symmetry. apply N.div_unique with (r := i mod B - 1); [lia|]. lia.
Qed.
Definition fresh : enode := mknode 0 I64MAX I64MIN.

Lemma node_ok_extend l nd x i : x < i -> i < lenN l -> node_ok l nd x i ->
  let t := (ntotal nd + (if nthN false l i then 1 else -1))%Z in
  node_ok l (mknode t (Z.min (nmin nd) t) (Z.max (nmax nd) t)) x (i + 1).
Proof.
  intros Hx Hi (Ht & Hb & (j1 & H1) & (j2 & H2)) t. assert (Et : t = (excess_before l (i + 1) - excess_before l x)%Z).
  { unfold t. rewrite ex_succ by auto. unfold paren. lia. }
  repeat split; cbn [ntotal nmin nmax].
  - exact Et.
  - destruct (N.eq_dec j (i + 1)) as [->|]; [lia|]. specialize (Hb j). lia.
  - destruct (N.eq_dec j (i + 1)) as [->|]; [lia|]. specialize (Hb j). lia.
  - destruct (Z.leb_spec (nmin nd) t); [exists j1|exists (i + 1)]; lia.
  - destruct (Z.leb_spec t (nmax nd)); [exists j2|exists (i + 1)]; lia.
Qed.
Lemma node_ok_first l i : i < lenN l ->
  let t := (ntotal fresh + (if nthN false l i then 1 else -1))%Z in
  node_ok l (mknode t (Z.min (nmin fresh) t) (Z.max (nmax fresh) t)) i (i + 1).
Proof.
  intros Hi t. assert (Et : t = (excess_before l (i + 1) - excess_before l i)%Z).
  { unfold t. rewrite ex_succ by auto. unfold paren. cbn [fresh ntotal]. lia. }
  assert (Hs : (-1 <= t <= 1)%Z) by (unfold t; cbn [fresh ntotal]; destruct (nthN false l i); lia).
  assert (E1 : Z.min (nmin fresh) t = t) by (cbn [fresh nmin]; unfold I64MAX; lia). assert (E2 : Z.max (nmax fresh) t = t) by (cbn [fresh nmax]; unfold I64MIN; lia).
  rewrite E1, E2. repeat split; cbn [ntotal nmin nmax]; auto.
  - replace j with (i + 1) by lia. lia.
  - replace j with (i + 1) by lia. lia.
  - exists (i + 1). lia.
  - exists (i + 1). lia.
Qed.

Section Build.
Variables (bv : bitvec) (B : N).
Hypothesis Hwf : wf bv.
Hypothesis HB : 0 < B.
Hypothesis HL : 0 < blen bv.
Local Notation l := (bits bv).
Local Notation L := (lenN (bits bv)).
Local Notation n := (nleaves (lenN (bits bv)) B).
Local Notation h := (height (nleaves (lenN (bits bv)) B)).
Local Notation internal := (mmt_internal (nleaves (lenN (bits bv)) B)).

Definition scan_inv (i : N) (st : list enode * enode) : Prop :=
  lenN (fst st) = n + internal /\ (forall v, v < internal -> nthN node0 (fst st) v = node0) /\
  (forall b, (b + 1) * B < i -> node_ok l (nthN node0 (fst st) (internal + b)) (b * B) ((b + 1) * B)) /\
  (i = 0 /\ snd st = fresh \/ 0 < i /\ node_ok l (snd st) ((i - 1) / B * B) i).

Lemma scan_ok : exists st, forM (range 0 (blen bv)) (replicate (n + internal) node0, fresh) (mmt_scan bv B internal) = Ok st /\ scan_inv (blen bv) st.
Proof using Hwf HB HL.
  apply forM_range_inv with (P := scan_inv); [lia| |].
  - split; [apply lenN_replicate|]. split; [|split; [intros; lia|left; auto]]. intros v Hv. apply nthN_replicate. cbn [fst]. lia.
  - intros i [nodes cur] _ Hi (I1 & I2 & I3 & I4). cbn [fst snd] in *. unfold mmt_scan.
    assert (Hbit : bv_is_bit_set_unchecked bv i = Ok (nthN false l i)) by (unfold bv_is_bit_set_unchecked; rewrite bv_get_unchecked_ok by auto; cbn [bind]; rewrite nthN_bits by auto; now destruct (bit_at (bdata bv) i)).
    assert (HiL : i < L) by (rewrite lenN_bits; auto).
    destruct ((0 <? i) && (i mod B =? 0)) eqn:Ec.
    + apply andb_prop in Ec. destruct Ec as [E1 E2]. apply N.ltb_lt in E1. apply N.eqb_eq in E2. destruct (div_pred_0 i B HB E1 E2) as (D1 & D2 & D3).
      rewrite (sub_ok (internal + i / B)) by lia. cbn [bind].
      assert (Hb : i / B - 1 < n) by (apply leaf_iff; auto; nia).
      rewrite set_idx_ok by lia. cbn [bind]. rewrite Hbit. cbn [bind]. eexists. split; [reflexivity|].
      split; [|split; [|split]]; cbn [fst snd].
      * now rewrite lenN_set_nth.
      * intros v Hv. rewrite nthN_set_nth by lia. destruct (N.eqb_spec v (internal + i / B - 1)); [lia|]. now apply I2.
      * intros b Hbb. rewrite nthN_set_nth by lia. destruct (N.eqb_spec (internal + b) (internal + i / B - 1)) as [E|E].
        -- assert (b = i / B - 1) by lia. subst b. destruct I4 as [[I4 _]|[_ I4]]; [lia|]. rewrite D1 in I4. replace ((i / B - 1 + 1) * B) with i by (replace (i / B - 1 + 1) with (i / B) by lia; auto). exact I4.
        -- apply I3. assert (b <> i / B - 1) by lia. assert ((b + 1) * B <= i) by lia. destruct (N.eq_dec ((b + 1) * B) i) as [E3|]; [|lia]. exfalso. rewrite <- D2 in E3. assert (b + 1 = i / B) by nia. lia.
      * right. split; [lia|]. replace (i + 1 - 1) with i by lia. rewrite D2. now apply node_ok_first.
    + cbn [bind]. rewrite Hbit. cbn [bind]. eexists. split; [reflexivity|]. split; [|split; [|split]]; cbn [fst snd]; auto.
      * intros b Hbb. apply I3. destruct (N.eq_dec ((b + 1) * B) i) as [E3|]; [|lia]. exfalso. destruct (N.ltb_spec 0 i); [|lia]. rewrite <- E3, N.mod_mul in Ec by lia. discriminate.
      * right. split; [lia|]. replace (i + 1 - 1) with i by lia. destruct I4 as [[-> ->]|[Hi0 I4]].
        -- rewrite N.div_0_l by lia. now apply node_ok_first.
        -- assert (Hm : i mod B <> 0) by (intros E; rewrite E in Ec; destruct (N.ltb_spec 0 i); [discriminate|lia]). rewrite <- (div_pred_n i B HB Hm). apply node_ok_extend; auto.
           pose proof (N.mul_div_le (i - 1) B). lia.
Qed.

(** Nodes of depth at least [m] are finished, those above are untouched. *)
Definition level_inv (m : N) (k : N) (nodes : list enode) : Prop :=
  lenN nodes = n + (2 ^ h - 1) /\
  (forall dp q, m < dp \/ dp = m /\ q < k -> dp <= h -> q < 2 ^ dp -> vv dp q < lenN nodes ->
     node_ok l (nthN node0 nodes (vv dp q)) (dlo L B dp q) (dlo L B dp (q + 1))) /\
  (forall v, 2 ^ m - 1 + k <= v -> v < 2 ^ (m + 1) - 1 -> nthN node0 nodes v = node0) /\
  (forall v, v < 2 ^ m - 1 -> nthN node0 nodes v = node0).

Lemma level_step m k nodes : m < h -> k < 2 ^ m -> level_inv m k nodes ->
  exists nodes', mmt_level_step (2 ^ m - 1) nodes k = Ok nodes' /\ level_inv m (k + 1) nodes'.
Proof using Hwf HB HL.
  intros Hm Hk (I1 & I2 & I3 & I4). unfold mmt_level_step. pose proof (pow2_pos m) as Hp. pose proof (pow2_pos h) as Hph. pose proof (pow2_succ m) as Hs.
  assert (HL0 : 0 < L) by (rewrite lenN_bits; auto).
  replace ((2 ^ m - 1 + k) * 2 + 1) with (vv (m + 1) (2 * k)) by (unfold vv; lia). replace ((2 ^ m - 1 + k) * 2 + 2) with (vv (m + 1) (2 * k + 1)) by (unfold vv; lia).
  change (2 ^ m - 1 + k) with (vv m k). assert (Hvh : 2 ^ (m + 1) <= 2 ^ h) by (apply N.pow_le_mono_r; lia).
  assert (Hset : forall nd, node_ok l nd (dlo L B m k) (dlo L B m (k + 1)) -> level_inv m (k + 1) (set_nth nodes (N.to_nat (vv m k)) nd)).
  { intros nd Hnd. unfold level_inv. rewrite lenN_set_nth. assert (Hvm : vv m k < lenN nodes) by (unfold vv; lia). split; [auto|]. split; [|split].
    - intros dp q Hd Hdp Hq Hv. rewrite nthN_set_nth by auto. destruct (N.eqb_spec (vv dp q) (vv m k)) as [E|E].
      + assert (dp = m) by (destruct (N.lt_trichotomy dp m) as [?|[?|?]]; [lia|auto|pose proof (vv_lt_depth m dp k q); lia]). subst dp. assert (q = k) by (unfold vv in E; lia). now subst q.
      + apply I2; auto. destruct Hd as [Hd|[-> Hd]]; [auto|]. right. split; [auto|]. assert (q <> k) by (intros ->; auto). lia.
    - intros v H1 H2. rewrite nthN_set_nth by auto. destruct (N.eqb_spec v (vv m k)); [unfold vv in *; lia|]. apply I3; lia.
    - intros v H1. rewrite nthN_set_nth by auto. destruct (N.eqb_spec v (vv m k)); [unfold vv in *; lia|]. apply I4; lia. }
  assert (Hc0 : dlo L B m k = dlo L B (m + 1) (2 * k)) by (apply dlo_child; auto).
  assert (Hc1 : dlo L B m (k + 1) = dlo L B (m + 1) (2 * k + 1 + 1)) by (rewrite dlo_child by auto; f_equal; lia).
  assert (Hvm : vv m k < lenN nodes) by (unfold vv; lia).
  assert (Hmiss : forall q, q < 2 ^ (m + 1) -> lenN nodes <= vv (m + 1) q -> forall q', q <= q' -> dlo L B (m + 1) q' = L).
  { intros q Hq Hv q' Hq'. assert (m + 1 = h).
    { destruct (N.eq_dec (m + 1) h); auto. pose proof (N.pow_le_mono_r 2 (m + 1 + 1) h ltac:(lia) ltac:(lia)) as Hpp. rewrite (pow2_succ (m + 1)) in Hpp. unfold vv in Hv. lia. }
    assert (n <= q) by (unfold vv in Hv; rewrite H in *; lia). rewrite H, dlo_leaf. pose proof (proj2 (leaf_iff L B q HB HL0)). assert (L <= q * B) by lia. nia. }
  destruct (N.ltb_spec (vv (m + 1) (2 * k)) (lenN nodes)) as [Hl|Hl].
  - assert (Gl : node_ok l (nthN node0 nodes (vv (m + 1) (2 * k))) (dlo L B (m + 1) (2 * k)) (dlo L B (m + 1) (2 * k + 1))) by (apply I2; auto; lia).
    destruct (N.ltb_spec (vv (m + 1) (2 * k + 1)) (lenN nodes)) as [Hr|Hr].
    + assert (Gr : node_ok l (nthN node0 nodes (vv (m + 1) (2 * k + 1))) (dlo L B (m + 1) (2 * k + 1)) (dlo L B (m + 1) (2 * k + 1 + 1))) by (apply I2; auto; lia).
      rewrite !(idx_ok node0) by auto. cbn [bind]. rewrite set_idx_ok by auto. eexists. split; [reflexivity|]. apply Hset. rewrite Hc0, Hc1.
      eapply node_ok_combine; [| | |exact Gl|exact Gr]; [apply dlo_mono; lia|apply dlo_mono; lia|]. now apply dlo_last.
    + rewrite !(idx_ok node0) by auto. cbn [bind]. rewrite set_idx_ok by auto. eexists. split; [reflexivity|]. apply Hset. rewrite Hc0, Hc1.
      rewrite (Hmiss (2 * k + 1) ltac:(lia) Hr (2 * k + 1 + 1)) by lia. rewrite (Hmiss (2 * k + 1) ltac:(lia) Hr (2 * k + 1)) in Gl by lia. exact Gl.
  - eexists. split; [reflexivity|]. split; [auto|]. split; [|split; [|auto]].
    + intros dp q Hd Hdp Hq Hv. destruct (N.eq_dec (vv dp q) (vv m k)) as [E|E].
      * assert (dp = m) by (destruct (N.lt_trichotomy dp m) as [?|[?|?]]; [lia|auto|pose proof (vv_lt_depth m dp k q); lia]). subst dp. assert (q = k) by (unfold vv in E; lia). subst q.
        rewrite I3 by (unfold vv; lia). rewrite Hc0, Hc1. rewrite !(Hmiss (2 * k) ltac:(lia) Hl) by lia. apply node_ok_empty.
      * apply I2; auto. destruct Hd as [Hd|[-> Hd]]; [auto|]. right. split; [auto|]. assert (q <> k) by (intros ->; auto). lia.
    + intros v H1 H2. apply I3; lia.
Qed.
Lemma level_ok m nodes : m < h -> level_inv m 0 nodes ->
  exists nodes', forM (range 0 (2 ^ m)) nodes (mmt_level_step (2 ^ m - 1)) = Ok nodes' /\ level_inv m (2 ^ m) nodes'.
Proof using Hwf HB HL.
  intros Hm H0. apply forM_range_inv with (P := level_inv m); [lia|auto|]. intros i s _ Hi Hs. now apply level_step.
Qed.
Lemma levels_ok (m : nat) : forall fuel nodes, N.of_nat m < h -> (m < fuel)%nat -> level_inv (N.of_nat m) 0 nodes ->
  exists nodes', mmt_levels fuel nodes (2 ^ N.of_nat m) (2 ^ N.of_nat m - 1) = Ok nodes' /\ mmt_ok l B nodes'.
Proof using Hwf HB HL.
  induction m as [|m IH]; intros fuel nodes Hm Hf H0; (destruct fuel as [|fuel]; [lia|]); cbn [mmt_levels].
  - destruct (level_ok 0 nodes Hm H0) as (nodes' & E & I). change (N.of_nat 0) with 0. rewrite E. cbn [bind]. change (2 ^ 0 =? 1) with true. cbn beta iota. exists nodes'. split; [reflexivity|].
    destruct I as (I1 & I2 & _). split; [auto|]. intros dp q H1 H2 H3. apply I2; auto. destruct (N.eq_dec dp 0) as [->|]; [|left; lia]. right. auto.
  - destruct (level_ok (N.of_nat (S m)) nodes Hm H0) as (nodes' & E & I). rewrite E. cbn [bind].
    assert (Ep : 2 ^ N.of_nat (S m) = 2 * 2 ^ N.of_nat m) by (rewrite Nat2N.inj_succ; apply N.pow_succ_r'). pose proof (pow2_pos (N.of_nat m)) as Hp.
    destruct (N.eqb_spec (2 ^ N.of_nat (S m)) 1); [lia|]. replace (2 ^ N.of_nat (S m) / 2) with (2 ^ N.of_nat m) by (rewrite Ep, N.mul_comm, N.div_mul; lia).
    rewrite (sub_ok (2 ^ N.of_nat (S m) - 1)) by lia. cbn [bind]. replace (2 ^ N.of_nat (S m) - 1 - 2 ^ N.of_nat m) with (2 ^ N.of_nat m - 1) by lia.
    apply IH; [lia|lia|]. destruct I as (I1 & I2 & I3 & I4). split; [auto|]. split; [|split].
    + intros dp q Hd Hdp Hq Hv. apply I2; auto. destruct Hd as [Hd|[_ Hd]]; [|lia]. destruct (N.eq_dec dp (N.of_nat (S m))) as [->|]; [right; auto|left; lia].
    + intros v H1 H2. apply I4. replace (N.of_nat m + 1) with (N.of_nat (S m)) in H2 by lia. lia.
    + intros v H1. apply I4. lia.
Qed.

Lemma mmt_excess_tree_ok : exists nodes, mmt_excess_tree bv B = Ok nodes /\ mmt_ok l B nodes.
Proof using Hwf HB HL.
  unfold mmt_excess_tree. destruct (N.eqb_spec (blen bv) 0) as [?|_]; [lia|]. destruct (N.eqb_spec B 0) as [?|_]; [lia|]. cbn [negb assert bind].
  assert (HL0 : 0 < L) by (rewrite lenN_bits; auto). pose proof (leaves_pos L B HB HL0) as Hn.
  assert (En : div_ceil (blen bv) B = n) by (unfold nleaves; now rewrite lenN_bits). rewrite En.
  destruct scan_ok as ([nodes cur] & E & I1 & I2 & I3 & I4). cbn [fst snd] in *. fold fresh. rewrite E. cbn [bind].
  rewrite set_idx_ok by lia. cbn [bind].
  assert (Hh : 2 ^ height n = 2 * 2 ^ (h - 1)) by (rewrite <- pow2_succ; f_equal; pose proof (height_pos n); lia).
  assert (Es : N.max 1 (next_pow2 n / 2) = 2 ^ (h - 1)).
  { unfold next_pow2. unfold height in *. destruct (N.eq_dec n 1) as [E1|E1]; [rewrite E1; reflexivity|].
    assert (1 <= N.log2_up n) by (pose proof (N.log2_up_pos n); lia). replace (N.max 1 (N.log2_up n)) with (N.log2_up n) in * by lia. rewrite Hh, N.mul_comm, N.div_mul by lia.
    pose proof (pow2_pos (N.log2_up n - 1)). lia. }
  rewrite Es. pose proof (pow2_pos (h - 1)) as Hp. rewrite (internal_pow n Hn) in *. rewrite (sub_ok (2 ^ h - 1)) by lia. cbn [bind].
  replace (2 ^ h - 1 - 2 ^ (h - 1)) with (2 ^ (h - 1) - 1) by lia. rewrite N.log2_pow2 by lia.
  pose proof (levels_ok (N.to_nat (h - 1)) (S (N.to_nat (h - 1)))) as HH. rewrite N2Nat.id in HH. pose proof (height_pos n) as Hhp. apply HH; [lia|lia|]. clear HH.
  unfold level_inv. rewrite lenN_set_nth. split; [auto|]. replace (h - 1 + 1) with h by lia. split; [|split].
  - intros dp q Hd Hdp Hq Hv. assert (dp = h) by lia. subst dp. rewrite nthN_set_nth by lia. rewrite !dlo_leaf.
    assert (Hqn : q < n) by (unfold vv in Hv; lia). pose proof (proj1 (leaf_iff L B q HB HL0) Hqn) as HqB. destruct I4 as [[I4 _]|[_ I4]]; [lia|].
    destruct (N.eqb_spec (vv h q) (2 ^ h - 1 + n - 1)) as [Ev|Ev].
    + assert (q = n - 1) by (unfold vv in Ev; lia). assert (Hnb : L <= n * B) by (pose proof (proj2 (leaf_iff L B n HB HL0)); lia).
      replace (N.min (q * B) L) with (q * B) by lia. assert (Hq1 : q + 1 = n) by lia. replace (N.min ((q + 1) * B) L) with L by (rewrite Hq1; clear - Hnb; lia).
      assert (Ed : (blen bv - 1) / B = q) by (rewrite <- (lenN_bits bv); symmetry; apply N.div_unique with (r := L - 1 - q * B); rewrite <- Hq1 in Hnb; clear - Hnb HqB HB; lia). rewrite Ed in I4. rewrite (lenN_bits bv). exact I4.
    + assert (q + 1 < n) by (unfold vv in *; lia). assert ((q + 1) * B < L) by (apply leaf_iff; auto). replace (N.min (q * B) L) with (q * B) by nia. replace (N.min ((q + 1) * B) L) with ((q + 1) * B) by lia.
      apply I3. now rewrite <- lenN_bits.
  - intros v H1 H2. rewrite nthN_set_nth by lia. destruct (N.eqb_spec v (2 ^ h - 1 + n - 1)); [lia|]. apply I2. lia.
  - intros v H1. rewrite nthN_set_nth by lia. destruct (N.eqb_spec v (2 ^ h - 1 + n - 1)); [lia|]. apply I2. lia.
Qed.
End Build.
