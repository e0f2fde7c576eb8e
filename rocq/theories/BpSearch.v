(** * Searches in the min-max tree. *)
From Verif Require Import Base Spec BaseFacts WordFacts BitVecModel BitVecProofs BpModel BpExcess BpMmt.

Lemma mod2_cases a : (a mod 2 = 1 /\ a = 2 * (a / 2) + 1) \/ (a mod 2 = 0 /\ a = 2 * (a / 2)).
Proof. pose proof (N.mod_lt a 2). pose proof (N.div_mod' a 2). assert (a mod 2 = 0 \/ a mod 2 = 1) by lia. intuition lia. Qed.
Lemma pow2_pred dp : 1 <= dp -> 2 ^ dp = 2 * 2 ^ (dp - 1).
Proof. intros H. rewrite <- pow2_succ. f_equal. lia. Qed.
Lemma vv_odd dp q : 1 <= dp -> (vv dp q mod 2 =? 1) = (q mod 2 =? 0).
Proof.
  intros H. unfold vv. pose proof (pow2_pred dp H) as E. pose proof (pow2_pos (dp - 1)) as P. rewrite E.
  destruct (mod2_cases (2 * 2 ^ (dp - 1) - 1 + q)) as [[E1 D1]|[E1 D1]], (mod2_cases q) as [[E2 D2]|[E2 D2]]; rewrite E1, E2; cbn; try reflexivity; lia.
Qed.
Lemma vv_parent dp q : 1 <= dp -> (vv dp q - 1) / 2 = vv (dp - 1) (q / 2).
Proof.
  intros H. unfold vv. pose proof (pow2_pred dp H) as E. pose proof (pow2_pos (dp - 1)) as P. pose proof (N.div_mod' q 2). pose proof (N.mod_lt q 2).
  symmetry. apply N.div_unique with (r := q mod 2); [lia|]. lia.
Qed.
Lemma vv_parent0 dp q : 1 <= dp -> q < 2 ^ dp -> (vv (dp - 1) (q / 2) =? 0) = (dp =? 1).
Proof.
  intros H Hq. unfold vv. destruct (N.eqb_spec dp 1) as [->|E].
  - change (2 ^ 1) with 2 in Hq. rewrite N.div_small by auto. reflexivity.
  - pose proof (N.pow_le_mono_r 2 1 (dp - 1) ltac:(lia) ltac:(lia)) as HH. change (2 ^ 1) with 2 in HH. apply N.eqb_neq. lia.
Qed.

Section Search.
Variables (l : list bool) (B : N) (nodes : list enode) (T : Z).
Hypothesis HB : 0 < B.
Hypothesis HL : 0 < lenN l.
Hypothesis Hok : mmt_ok l B nodes.
Hypothesis HT : forall p, (Z.abs (T - excess_before l p) <= 9223372036854775807)%Z.
Local Notation L := (lenN l).
Local Notation nn := (nleaves (lenN l) B).
Local Notation h := (height (nleaves (lenN l) B)).
Local Notation E := (excess_before l).

Lemma nodes_len : lenN nodes = nn + (2 ^ h - 1).
Proof using HB HL Hok. apply Hok. Qed.
Lemma first_leaf_ok : mmt_first_leaf nodes = Ok (2 ^ h - 1).
Proof using HB HL Hok.
  clear HT T. unfold mmt_first_leaf. pose proof nodes_len as Hl. pose proof (leaves_pos L B HB HL) as Hn. pose proof (pow2_pos h) as Hp.
  destruct (N.eqb_spec (lenN nodes) 0); [lia|]. cbn [negb assert bind]. pose proof (height_pos nn) as Hh. pose proof (pow2_pred h Hh) as Hs. pose proof (pow2_pos (h - 1)) as Hp1.
  destruct (N.eq_dec nn 1) as [E1|E1].
  - assert (Eh : h = 1) by (rewrite E1; reflexivity). rewrite Eh in *. change (2 ^ 1) with 2 in *. rewrite Hl, E1. reflexivity.
  - destruct (N.eqb_spec (lenN nodes) 2); [lia|].
    assert (Hup : 2 ^ (h - 1) < nn <= 2 ^ h).
    { unfold height. pose proof (N.log2_up_spec nn ltac:(lia)) as Hu. assert (1 <= N.log2_up nn) by (pose proof (N.log2_up_pos nn); lia). replace (N.max 1 (N.log2_up nn)) with (N.log2_up nn) by lia. rewrite N.sub_1_r. exact Hu. }
    assert (Ex : next_pow2 (div_ceil (lenN nodes) 2) = 2 ^ h).
    { unfold next_pow2. f_equal. apply N.log2_up_unique; [lia|]. rewrite <- N.sub_1_r. unfold div_ceil. rewrite Hl. replace (nn + (2 ^ h - 1) + 2 - 1) with (nn + 2 ^ h) by lia.
      split; [assert (2 ^ (h - 1) + 1 <= (nn + 2 ^ h) / 2) by (apply N.div_le_lower_bound; lia); lia|]. apply N.div_le_upper_bound; lia. }
    rewrite Ex. apply sub_ok. lia.
Qed.
Lemma leaf_test dp q : dp <= h -> q < 2 ^ dp -> mmt_is_leaf nodes (vv dp q) = Ok (dp =? h).
Proof using HB HL Hok HT.
  intros Hd Hq. unfold mmt_is_leaf. rewrite first_leaf_ok. cbn [bind]. f_equal. destruct (N.eqb_spec dp h) as [->|].
  - apply N.leb_le. unfold vv. lia.
  - apply N.leb_gt. pose proof (vv_lt_depth dp h q 0 ltac:(lia) Hq). unfold vv in *. lia.
Qed.
Lemma node_exists dp q : dp <= h -> q < 2 ^ dp -> dlo L B dp q < L -> vv dp q < lenN nodes.
Proof using HB HL Hok HT.
  intros Hd Hq Hlt. rewrite nodes_len. destruct (N.eq_dec dp h) as [->|].
  - rewrite dlo_leaf in Hlt. assert (q < nn) by (apply leaf_iff; auto; lia). unfold vv. pose proof (pow2_pos h). lia.
  - pose proof (vv_lt_depth dp h q 0 ltac:(lia) Hq). unfold vv in *. lia.
Qed.
Lemma node_missing dp q : dp <= h -> q < 2 ^ dp -> lenN nodes <= vv dp q -> dlo L B dp q = L.
Proof using HB HL Hok HT.
  intros Hd Hq Hm. pose proof (node_exists dp q Hd Hq). pose proof (dlo_le L B dp q). lia.
Qed.
Lemma left_ok dp q : mmt_left_child nodes (vv dp q) = if vv (dp + 1) (2 * q) <? lenN nodes then Some (vv (dp + 1) (2 * q)) else None.
Proof using HB HL Hok HT.
  unfold mmt_left_child. replace (vv dp q * 2 + 1) with (vv (dp + 1) (2 * q)); [reflexivity|]. unfold vv. rewrite pow2_succ. pose proof (pow2_pos dp). lia.
Qed.
Lemma right_ok dp q : mmt_right_child nodes (vv dp q) = if vv (dp + 1) (2 * q + 1) <? lenN nodes then Some (vv (dp + 1) (2 * q + 1)) else None.
Proof using HB HL Hok HT.
  unfold mmt_right_child. replace (vv dp q * 2 + 2) with (vv (dp + 1) (2 * q + 1)); [reflexivity|]. unfold vv. rewrite pow2_succ. pose proof (pow2_pos dp). lia.
Qed.
Lemma node_at dp q : dp <= h -> q < 2 ^ dp -> vv dp q < lenN nodes ->
  node_ok l (nthN node0 nodes (vv dp q)) (dlo L B dp q) (dlo L B dp (q + 1)).
Proof using HB HL Hok HT. intros. now apply Hok. Qed.

Local Notation nd dp q := (nthN node0 nodes (vv dp q)).
Local Notation lo := (dlo (lenN l) B).

(** The forward test of a node. *)
Lemma fwd_test dp q : dp <= h -> q < 2 ^ dp -> vv dp q < lenN nodes -> (T - E (lo dp q) <> 0)%Z ->
  (((nmin (nd dp q) <=? T - E (lo dp q)) && (T - E (lo dp q) <=? nmax (nd dp q)))%Z = true <-> exists j, lo dp q < j /\ j <= lo dp (q + 1) /\ E j = T).
Proof using HB HL Hok HT.
  intros Hd Hq Hv Hr. pose proof (node_at dp q Hd Hq Hv) as Hn. rewrite Bool.andb_true_iff, !Z.leb_le. split.
  - intros Hm. destruct (node_ok_has _ _ _ _ _ (dlo_mono L B dp q (q + 1) ltac:(lia)) Hn Hr Hm) as (j & H1 & H2 & H3). exists j. lia.
  - intros (j & H1 & H2 & H3). destruct Hn as (_ & Hb & _). specialize (Hb j H1 H2). lia.
Qed.
(** The backward test of a node. *)
Lemma bwd_test dp q : dp <= h -> q < 2 ^ dp -> vv dp q < lenN nodes -> (T - E (lo dp (q + 1)) <> 0)%Z ->
  exists t, mmt_bwd_test (nd dp q) (T - E (lo dp (q + 1))) = Ok t /\ (t = true <-> exists j, lo dp q <= j /\ j < lo dp (q + 1) /\ E j = T).
Proof using HB HL Hok HT.
  intros Hd Hq Hv Hr. pose proof (node_at dp q Hd Hq Hv) as Hn. unfold mmt_bwd_test. pose proof (proj1 Hn) as Ht. rewrite Ht.
  replace (T - E (lo dp (q + 1)) + (E (lo dp (q + 1)) - E (lo dp q)))%Z with (T - E (lo dp q))%Z by lia. rewrite i64_ok by auto. cbn [bind]. eexists. split; [reflexivity|].
  rewrite Bool.orb_true_iff, Bool.andb_true_iff, !Z.leb_le, Z.eqb_eq. pose proof (dlo_mono L B dp q (q + 1) ltac:(lia)) as Hm. split.
  - intros Hc. destruct (Z.eq_dec (T - E (lo dp q)) 0) as [Ez|Ez].
    + exists (lo dp q). assert (lo dp q <> lo dp (q + 1)) by (intros Eq; rewrite Eq in Ez; lia). lia.
    + destruct Hc as [Hc|Hc]; [lia|]. destruct (node_ok_has _ _ _ _ _ Hm Hn Ez Hc) as (j & H1 & H2 & H3). exists j. assert (j <> lo dp (q + 1)) by (intros ->; lia). lia.
  - intros (j & H1 & H2 & H3). destruct (N.eq_dec j (lo dp q)) as [->|]; [left; lia|]. right. destruct Hn as (_ & Hb & _). specialize (Hb j). lia.
Qed.

Lemma fuel_ok : (N.to_nat h < length nodes)%nat.
Proof using HB HL Hok HT.
  pose proof nodes_len as Hl. pose proof (leaves_pos L B HB HL). pose proof (pow2_pos h). pose proof (N.pow_gt_lin_r 2 h ltac:(lia)). unfold lenN in Hl at 1. lia.
Qed.

(** ** Forward *)
Lemma fwd_down_ok (k : nat) : forall dp q fuel, h - dp = N.of_nat k -> dp <= h -> (k < fuel)%nat -> q < 2 ^ dp -> vv dp q < lenN nodes ->
  (T - E (lo dp q) <> 0)%Z -> (exists j, lo dp q < j /\ j <= lo dp (q + 1) /\ E j = T) ->
  exists b, mmt_fwd_down fuel nodes (vv dp q) (T - E (lo dp q)) = Ok (Some (vv h b, (T - E (lo h b))%Z)) /\ b < nn /\ lo dp q <= lo h b /\
    E (lo h b) <> T /\ (forall j, lo dp q < j -> j <= lo h b -> E j <> T) /\ exists j, lo h b < j /\ j <= lo h (b + 1) /\ E j = T.
Proof using HB HL Hok HT.
  induction k as [|k IH]; intros dp q fuel Hk Hd Hf Hq Hv Hr Hex; (destruct fuel as [|fuel]; [lia|]); cbn [mmt_fwd_down];
    (destruct (N.ltb_spec (vv dp q) (lenN nodes)); [|lia]); cbn [assert bind]; rewrite leaf_test by auto; cbn [bind].
  - assert (dp = h) by lia. subst dp. rewrite N.eqb_refl. pose proof (height_pos nn) as Hh. destruct (N.eqb_spec (vv h q) 0) as [E0|_].
    { unfold vv in E0. pose proof (N.pow_le_mono_r 2 1 h ltac:(lia) ltac:(lia)) as HH. change (2 ^ 1) with 2 in HH. lia. }
    exists q. split; [reflexivity|]. split; [|split; [lia|split; [lia|split; [intros; lia|auto]]]]. pose proof nodes_len. unfold vv in *. lia.
  - destruct (N.eqb_spec dp h); [lia|]. assert (Hq2 : 2 * q + 1 < 2 ^ (dp + 1)) by (rewrite pow2_succ; lia).
    assert (Hc0 : lo dp q = lo (dp + 1) (2 * q)) by (apply dlo_child; lia).
    assert (Hc1 : lo dp (q + 1) = lo (dp + 1) (2 * q + 1 + 1)) by (rewrite dlo_child by lia; f_equal; lia).
    pose proof (dlo_mono L B (dp + 1) (2 * q) (2 * q + 1) ltac:(lia)) as M1. pose proof (dlo_mono L B (dp + 1) (2 * q + 1) (2 * q + 1 + 1) ltac:(lia)) as M2. pose proof (dlo_le L B dp (q + 1)) as M3.
    rewrite left_ok. destruct (N.ltb_spec (vv (dp + 1) (2 * q)) (lenN nodes)) as [Hl|Hl].
    2:{ exfalso. apply node_missing in Hl; [|lia|lia]. destruct Hex as (j & J1 & J2 & _). lia. }
    rewrite (idx_ok node0) by auto. cbn [bind]. rewrite Hc0 in *. pose proof (fwd_test (dp + 1) (2 * q) ltac:(lia) ltac:(lia) Hl Hr) as Ht.
    destruct ((nmin (nd (dp + 1)%N (2 * q)%N) <=? T - E (lo (dp + 1)%N (2 * q)%N)) && (T - E (lo (dp + 1)%N (2 * q)%N) <=? nmax (nd (dp + 1)%N (2 * q)%N)))%Z.
    + apply IH; auto; try lia. now apply Ht.
    + assert (Hno : forall j, lo (dp + 1) (2 * q) < j -> j <= lo (dp + 1) (2 * q + 1) -> E j <> T).
      { intros j J1 J2 J3. enough (false = true) by discriminate. apply Ht. eauto. }
      destruct Hex as (j & J1 & J2 & J3). assert (Hj : lo (dp + 1) (2 * q + 1) < j) by (destruct (N.ltb_spec (lo (dp + 1) (2 * q + 1)) j); auto; exfalso; eapply Hno; eauto).
      rewrite right_ok. destruct (N.ltb_spec (vv (dp + 1) (2 * q + 1)) (lenN nodes)) as [Hr'|Hr'].
      2:{ exfalso. apply node_missing in Hr'; [|lia|lia]. lia. }
      pose proof (node_at (dp + 1) (2 * q) ltac:(lia) ltac:(lia) Hl) as (Htot & _). rewrite Htot.
      replace (T - E (lo (dp + 1)%N (2 * q)%N) - (E (lo (dp + 1)%N (2 * q + 1)%N) - E (lo (dp + 1)%N (2 * q)%N)))%Z with (T - E (lo (dp + 1)%N (2 * q + 1)%N))%Z by lia.
      rewrite i64_ok by auto. cbn [bind]. rewrite (idx_ok node0) by auto. cbn [bind].
      assert (Hr2 : (T - E (lo (dp + 1) (2 * q + 1)) <> 0)%Z).
      { destruct (N.eq_dec (lo (dp + 1) (2 * q + 1)) (lo (dp + 1) (2 * q))) as [->|]; auto. intros E0. apply (Hno (lo (dp + 1) (2 * q + 1))); lia. }
      pose proof (fwd_test (dp + 1) (2 * q + 1) ltac:(lia) ltac:(lia) Hr' Hr2) as Ht2.
      assert (Hex2 : exists j, lo (dp + 1) (2 * q + 1) < j /\ j <= lo (dp + 1) (2 * q + 1 + 1) /\ E j = T) by (exists j; rewrite <- Hc1; auto).
      rewrite (proj2 Ht2 Hex2). destruct (IH (dp + 1) (2 * q + 1) fuel) as (b & Eb & Hb & B1 & B2 & B3 & B4); auto; try lia.
      exists b. split; [exact Eb|]. split; [auto|]. split; [lia|]. split; [auto|]. split; [|auto].
      intros j' H1 H2. destruct (N.leb_spec j' (lo (dp + 1) (2 * q + 1))); [apply Hno; auto|apply B3; auto].
Qed.

Definition fwd_found (from : N) (r : res (option (N * Z))) : Prop :=
  (exists b, r = Ok (Some (vv h b, (T - E (lo h b))%Z)) /\ b < nn /\ from <= lo h b /\
     E (lo h b) <> T /\ (forall j, from < j -> j <= lo h b -> E j <> T) /\ exists j, lo h b < j /\ j <= lo h (b + 1) /\ E j = T) \/
  (r = Ok None /\ forall j, from < j -> j <= L -> E j <> T).

Lemma fwd_up_ok (k : nat) : forall dp q fuel, dp = N.of_nat (S k) -> dp <= h -> (S k < fuel)%nat -> q < 2 ^ dp -> vv dp q < lenN nodes ->
  (T - E (lo dp (q + 1)) <> 0)%Z -> fwd_found (lo dp (q + 1)) (mmt_fwd_up fuel nodes (vv dp q) (T - E (lo dp (q + 1)))).
Proof using HB HL Hok HT.
  induction k as [|k IH]; intros dp q fuel Hk Hd Hf Hq Hv Hr; (destruct fuel as [|fuel]; [lia|]); cbn [mmt_fwd_up];
    (destruct (N.ltb_spec (vv dp q) (lenN nodes)); [|lia]); cbn [assert bind]; unfold mmt_is_left_child, mmt_right_sibling, mmt_parent; rewrite vv_odd by lia;
    (destruct (N.ltb_spec (vv dp q) (lenN nodes)); [|lia]); rewrite vv_parent, vv_parent0 by (auto; lia).
  - assert (Ed1 : dp = 1) by lia. clear Hk. subst dp. change (2 ^ 1) with 2 in Hq. change (1 =? 1) with true.
    destruct (mod2_cases q) as [[Em Eq]|[Em Eq]]; rewrite Em; cbn [N.eqb negb Pos.eqb].
    + assert (q = 1) by lia. subst q. right. split; [reflexivity|]. intros j J1 J2. change (1 + 1) with (2 ^ 1) in J1. rewrite (dlo_end L B 1) in J1 by (auto; lia). lia.
    + assert (q = 0) by lia. subst q. change (vv 1 0 + 1) with (vv 1 1). destruct (N.leb_spec (lenN nodes) (vv 1 1)) as [Hm|Hm].
      * right. split; [reflexivity|]. intros j J1 J2. apply node_missing in Hm; [|lia|lia]. change (0 + 1) with 1 in J1. lia.
      * rewrite (idx_ok node0) by auto. cbn [bind]. change (0 + 1) with 1 in *. pose proof (fwd_test 1 1 Hd ltac:(cbn; lia) Hm Hr) as Ht.
        destruct ((nmin (nd 1%N 1%N) <=? T - E (lo 1%N 1%N)) && (T - E (lo 1%N 1%N) <=? nmax (nd 1%N 1%N)))%Z.
        -- left. apply (fwd_down_ok (N.to_nat (h - 1))); auto; try lia; try (pose proof fuel_ok; lia); try (cbn; lia). now apply Ht.
        -- right. split; [reflexivity|]. intros j J1 J2 J3. enough (false = true) by discriminate. apply Ht. exists j. change (1 + 1) with (2 ^ 1). rewrite dlo_end by (auto; lia). auto.
  - destruct (N.eqb_spec dp 1); [lia|]. assert (Hq' : q / 2 < 2 ^ (dp - 1)) by (rewrite (pow2_pred dp) in Hq by lia; apply N.div_lt_upper_bound; lia).
    assert (Hvp : vv (dp - 1) (q / 2) < lenN nodes).
    { pose proof (vv_lt_depth (dp - 1) h (q / 2) 0 ltac:(lia) Hq'). pose proof nodes_len. pose proof (leaves_pos L B HB HL). unfold vv in *. lia. }
    destruct (mod2_cases q) as [[Em Eq]|[Em Eq]]; rewrite Em; cbn [N.eqb negb Pos.eqb].
    + assert (Hc : lo dp (q + 1) = lo (dp - 1) (q / 2 + 1)) by (rewrite (dlo_child L B (dp - 1)) by lia; f_equal; lia). rewrite Hc in *. apply IH; auto; lia.
    + replace (vv dp q + 1) with (vv dp (q + 1)) by (unfold vv; lia). assert (Hq1 : q + 1 < 2 ^ dp) by (rewrite (pow2_pred dp) in * by lia; lia).
      assert (Hc : lo dp (q + 1 + 1) = lo (dp - 1) (q / 2 + 1)) by (rewrite (dlo_child L B (dp - 1)) by lia; f_equal; lia).
      destruct (N.leb_spec (lenN nodes) (vv dp (q + 1))) as [Hm|Hm].
      * right. split; [reflexivity|]. intros j J1 J2. apply node_missing in Hm; [|lia|lia]. lia.
      * rewrite (idx_ok node0) by auto. cbn [bind]. pose proof (fwd_test dp (q + 1) Hd Hq1 Hm Hr) as Ht.
        destruct ((nmin (nd dp (q + 1)%N) <=? T - E (lo dp (q + 1)%N)) && (T - E (lo dp (q + 1)%N) <=? nmax (nd dp (q + 1)%N)))%Z.
        -- left. apply (fwd_down_ok (N.to_nat (h - dp))); auto; try lia; try (pose proof fuel_ok; lia). now apply Ht.
        -- assert (Hno : forall j, lo dp (q + 1) < j -> j <= lo dp (q + 1 + 1) -> E j <> T) by (intros j J1 J2 J3; enough (false = true) by discriminate; apply Ht; eauto).
           pose proof (node_at dp (q + 1) Hd Hq1 Hm) as (Htot & _). rewrite Htot.
           replace (T - E (lo dp (q + 1)%N) - (E (lo dp (q + 1 + 1)%N) - E (lo dp (q + 1)%N)))%Z with (T - E (lo dp (q + 1 + 1)%N))%Z by lia. rewrite i64_ok by auto. cbn [bind].
           pose proof (dlo_mono L B dp (q + 1) (q + 1 + 1) ltac:(lia)) as M.
           assert (Hr2 : (T - E (lo dp (q + 1 + 1)) <> 0)%Z) by (destruct (N.eq_dec (lo dp (q + 1 + 1)) (lo dp (q + 1))) as [->|]; auto; intros E0; apply (Hno (lo dp (q + 1 + 1))); lia).
           rewrite Hc in *. destruct (IH (dp - 1) (q / 2) fuel) as [(b & Eb & Hb & B1 & B2 & B3 & B4)|[Eb Hn]]; auto; try lia.
           ++ left. exists b. split; [exact Eb|]. split; [auto|]. split; [lia|]. split; [auto|]. split; [|auto].
              intros j J1 J2. destruct (N.leb_spec j (lo (dp - 1) (q / 2 + 1))); [apply Hno; auto|apply B3; auto].
           ++ right. split; [exact Eb|]. intros j J1 J2. destruct (N.leb_spec j (lo (dp - 1) (q / 2 + 1))); [apply Hno; auto|apply Hn; auto].
Qed.

Lemma mmt_fwd_search_ok block : block < nn -> let from := N.min ((block + 1) * B) L in (T - E from <> 0)%Z ->
  (exists b, mmt_fwd_search nodes block (T - E from) = Ok (Some (b, (T - E (b * B))%Z)) /\ block < b /\ b * B < L /\ E (b * B) <> T /\
     (forall j, from < j -> j <= b * B -> E j <> T) /\ exists j, b * B < j /\ j <= N.min ((b + 1) * B) L /\ E j = T) \/
  (mmt_fwd_search nodes block (T - E from) = Ok None /\ forall j, from < j -> j <= L -> E j <> T).
Proof using HB HL Hok HT.
  intros Hb from Hr. unfold mmt_fwd_search. rewrite first_leaf_ok. cbn [bind]. pose proof nodes_len as Hl. pose proof (leaves_le nn (leaves_pos L B HB HL)) as Hle. pose proof (height_pos nn) as Hh.
  destruct (N.leb_spec (lenN nodes) (block + (2 ^ h - 1))); [lia|]. pose proof (N.pow_le_mono_r 2 1 h ltac:(lia) ltac:(lia)) as HH. change (2 ^ 1) with 2 in HH.
  destruct (N.eqb_spec (block + (2 ^ h - 1)) 0); [lia|]. cbn [negb assert bind]. replace (block + (2 ^ h - 1)) with (vv h block) by (unfold vv; lia).
  unfold from in *. rewrite <- (dlo_leaf L B (block + 1)) in *.
  destruct (fwd_up_ok (N.to_nat (h - 1)) h block (length nodes)) as [(b & Eb & Hbn & B1 & B2 & B3 & B4)|[Eb Hn]]; auto; try lia; [pose proof fuel_ok; lia|unfold vv; lia| |].
  - rewrite Eb. cbn [bind]. rewrite (sub_ok (vv h b)) by (unfold vv; lia). cbn [bind]. replace (vv h b - (2 ^ h - 1)) with b by (unfold vv; lia).
    pose proof (proj1 (leaf_iff L B b HB HL) Hbn) as HbB. assert (Eb2 : lo h b = b * B) by (rewrite dlo_leaf; lia). rewrite Eb2 in *. rewrite dlo_leaf in B4.
    left. exists b. split; [reflexivity|]. split; [|auto]. rewrite dlo_leaf in B1. nia.
  - rewrite Eb. right. auto.
Qed.

(** ** Backward *)
Lemma full_node dp q : dp <= h -> (q + 1) * 2 ^ (h - dp) <= nn -> q < 2 ^ dp /\ vv dp q < lenN nodes.
Proof using HB HL Hok HT.
  intros Hd Hq. pose proof (leaves_le nn (leaves_pos L B HB HL)) as Hle. pose proof (pow2_pos (h - dp)) as Hp. assert (E2 : 2 ^ h = 2 ^ dp * 2 ^ (h - dp)) by (rewrite <- N.pow_add_r; f_equal; lia).
  assert (Hq' : q < 2 ^ dp) by (rewrite E2 in Hle; nia). split; [auto|]. pose proof nodes_len as Hl. destruct (N.eq_dec dp h) as [->|].
  - rewrite N.sub_diag in Hq. change (2 ^ 0) with 1 in Hq. unfold vv. pose proof (pow2_pos h). lia.
  - pose proof (vv_lt_depth dp h q 0 ltac:(lia) Hq'). unfold vv in *. lia.
Qed.
Lemma bwd_down_ok (k : nat) : forall dp q fuel, h - dp = N.of_nat k -> dp <= h -> (k < fuel)%nat -> (q + 1) * 2 ^ (h - dp) <= nn ->
  (T - E (lo dp (q + 1)) <> 0)%Z -> (exists j, lo dp q <= j /\ j < lo dp (q + 1) /\ E j = T) ->
  exists b, mmt_bwd_down fuel nodes (vv dp q) (T - E (lo dp (q + 1))) = Ok (Some (vv h b, (T - E (lo h (b + 1)))%Z)) /\ b < nn /\ lo h (b + 1) <= lo dp (q + 1) /\ b < (q + 1) * 2 ^ (h - dp) /\
    E (lo h (b + 1)) <> T /\ (forall j, lo h (b + 1) <= j -> j < lo dp (q + 1) -> E j <> T) /\ exists j, lo h b <= j /\ j < lo h (b + 1) /\ E j = T.
Proof using HB HL Hok HT.
  induction k as [|k IH]; intros dp q fuel Hk Hd Hf Hfull Hr Hex; (destruct fuel as [|fuel]; [lia|]); cbn [mmt_bwd_down]; destruct (full_node dp q Hd Hfull) as [Hq Hv];
    (destruct (N.ltb_spec (vv dp q) (lenN nodes)); [|lia]); cbn [assert bind]; rewrite leaf_test by auto; cbn [bind].
  - assert (dp = h) by lia. subst dp. rewrite N.eqb_refl. pose proof (height_pos nn) as Hh. destruct (N.eqb_spec (vv h q) 0) as [E0|_].
    { unfold vv in E0. pose proof (N.pow_le_mono_r 2 1 h ltac:(lia) ltac:(lia)) as HH. change (2 ^ 1) with 2 in HH. lia. }
    exists q. rewrite N.sub_diag in *. change (2 ^ 0) with 1 in *. split; [reflexivity|]. split; [lia|]. split; [lia|]. split; [lia|]. split; [lia|]. split; [intros; lia|auto].
  - destruct (N.eqb_spec dp h); [lia|]. replace (h - dp) with (h - (dp + 1) + 1) in Hfull |- * by lia. rewrite pow2_succ in Hfull |- *.
    assert (Hc0 : lo dp q = lo (dp + 1) (2 * q)) by (apply dlo_child; lia).
    assert (Hc1 : lo dp (q + 1) = lo (dp + 1) (2 * q + 1 + 1)) by (rewrite dlo_child by lia; f_equal; lia).
    assert (Hf1 : (2 * q + 1 + 1) * 2 ^ (h - (dp + 1)) <= nn) by nia. assert (Hf0 : (2 * q + 1) * 2 ^ (h - (dp + 1)) <= nn) by nia.
    destruct (full_node (dp + 1) (2 * q + 1) ltac:(lia) Hf1) as [Hq1 Hv1]. destruct (full_node (dp + 1) (2 * q) ltac:(lia) Hf0) as [Hq0 Hv0].
    pose proof (dlo_mono L B (dp + 1) (2 * q + 1) (2 * q + 1 + 1) ltac:(lia)) as M2.
    rewrite right_ok. destruct (N.ltb_spec (vv (dp + 1) (2 * q + 1)) (lenN nodes)); [|lia]. rewrite (idx_ok node0) by auto. cbn [bind]. rewrite Hc1 in *.
    destruct (bwd_test (dp + 1) (2 * q + 1) ltac:(lia) Hq1 Hv1 Hr) as (t & Et & Ht). rewrite Et. cbn [bind]. destruct t.
    + destruct (IH (dp + 1) (2 * q + 1) fuel) as (b & Eb & Hb & B1 & B0 & B2 & B3 & B4); auto; try lia; [now apply Ht|].
      exists b. split; [exact Eb|]. split; [auto|]. split; [auto|]. split; [nia|]. auto.
    + assert (Hno : forall j, lo (dp + 1) (2 * q + 1) <= j -> j < lo (dp + 1) (2 * q + 1 + 1) -> E j <> T).
      { intros j J1 J2 J3. enough (false = true) by discriminate. apply Ht. eauto. }
      destruct Hex as (j & J1 & J2 & J3). assert (Hj : j < lo (dp + 1) (2 * q + 1)) by (destruct (N.ltb_spec j (lo (dp + 1) (2 * q + 1))); auto; exfalso; eapply Hno; eauto).
      rewrite left_ok. destruct (N.ltb_spec (vv (dp + 1) (2 * q)) (lenN nodes)); [|lia].
      pose proof (node_at (dp + 1) (2 * q + 1) ltac:(lia) Hq1 Hv1) as (Htot & _). rewrite Htot.
      replace (T - E (lo (dp + 1)%N (2 * q + 1 + 1)%N) + (E (lo (dp + 1)%N (2 * q + 1 + 1)%N) - E (lo (dp + 1)%N (2 * q + 1)%N)))%Z with (T - E (lo (dp + 1)%N (2 * q + 1)%N))%Z by lia.
      rewrite i64_ok by auto. cbn [bind]. rewrite (idx_ok node0) by auto. cbn [bind].
      assert (Hr2 : (T - E (lo (dp + 1) (2 * q + 1)) <> 0)%Z).
      { destruct (N.eq_dec (lo (dp + 1) (2 * q + 1)) (lo (dp + 1) (2 * q + 1 + 1))) as [->|]; auto. intros E0. apply (Hno (lo (dp + 1) (2 * q + 1))); lia. }
      destruct (bwd_test (dp + 1) (2 * q) ltac:(lia) Hq0 Hv0 Hr2) as (t2 & Et2 & Ht2). rewrite Et2. cbn [bind].
      assert (Hex2 : exists j, lo (dp + 1) (2 * q) <= j /\ j < lo (dp + 1) (2 * q + 1) /\ E j = T) by (exists j; rewrite <- Hc0; auto).
      rewrite (proj2 Ht2 Hex2). destruct (IH (dp + 1) (2 * q) fuel) as (b & Eb & Hb & B1 & B0 & B2 & B3 & B4); auto; try lia.
      exists b. split; [exact Eb|]. split; [auto|]. split; [lia|]. split; [nia|]. split; [auto|]. split; [|auto].
      intros j' H1' H2'. destruct (N.ltb_spec j' (lo (dp + 1) (2 * q + 1))); [apply B3; auto|apply Hno; auto].
Qed.

Definition bwd_found (block from : N) (r : res (option (N * Z))) : Prop :=
  (exists b, r = Ok (Some (vv h b, (T - E (lo h (b + 1)))%Z)) /\ b < block /\ lo h (b + 1) <= from /\
     E (lo h (b + 1)) <> T /\ (forall j, lo h (b + 1) <= j -> j < from -> E j <> T) /\ exists j, lo h b <= j /\ j < lo h (b + 1) /\ E j = T) \/
  (r = Ok None /\ forall j, j < from -> E j <> T).

Lemma bwd_up_ok block (k : nat) : block < nn -> forall dp q fuel, dp = N.of_nat (S k) -> dp <= h -> (S k < fuel)%nat -> q < 2 ^ dp -> vv dp q < lenN nodes -> q * 2 ^ (h - dp) <= block ->
  (T - E (lo dp q) <> 0)%Z -> bwd_found block (lo dp q) (mmt_bwd_up fuel nodes (vv dp q) (T - E (lo dp q))).
Proof using HB HL Hok HT.
  intros Hblock. induction k as [|k IH]; intros dp q fuel Hk Hd Hf Hq Hv Hqb Hr; (destruct fuel as [|fuel]; [lia|]); cbn [mmt_bwd_up];
    (destruct (N.ltb_spec (vv dp q) (lenN nodes)); [|lia]); cbn [assert bind]; unfold mmt_is_left_child, mmt_left_sibling, mmt_parent; pose proof (vv_odd dp q ltac:(lia)) as Hodd; rewrite Hodd;
    (destruct (N.ltb_spec (vv dp q) (lenN nodes)); [|lia]); rewrite vv_parent, vv_parent0 by (auto; lia).
  - assert (Ed1 : dp = 1) by lia. clear Hk. subst dp. change (2 ^ 1) with 2 in Hq. change (1 =? 1) with true.
    destruct (mod2_cases q) as [[Em Eq]|[Em Eq]]; rewrite Em in *; cbn [N.eqb Pos.eqb] in *.
    + assert (q = 1) by lia. subst q. change (vv 1 1 mod 2 =? 0) with true. change (vv 1 1 - 1 =? 0) with false. change (vv 1 1 - 1) with (vv 1 0). cbn beta iota.
      assert (Hfull : (0 + 1) * 2 ^ (h - 1) <= nn) by lia. destruct (full_node 1 0 Hd Hfull) as [Hq0 Hv0].
      rewrite (idx_ok node0) by auto. cbn [bind]. destruct (bwd_test 1 0 Hd Hq0 Hv0 Hr) as (t & Et & Ht). change (0 + 1) with 1 in Et, Ht. rewrite Et. cbn [bind]. destruct t.
      * left. destruct (bwd_down_ok (N.to_nat (h - 1)) 1 0 (length nodes)) as (b & Eb & Hb & B1 & B0 & B2 & B3 & B4); auto; try lia; try (pose proof fuel_ok; lia); try (now apply Ht).
        exists b. change (0 + 1) with 1 in *. split; [exact Eb|]. split; [lia|]. auto.
      * right. split; [reflexivity|]. intros j J1 J3. enough (false = true) by discriminate. apply Ht. exists j. rewrite dlo_0. split; [lia|auto].
    + assert (q = 0) by lia. subst q. right. split; [reflexivity|]. intros j J1. rewrite dlo_0 in J1. lia.
  - destruct (N.eqb_spec dp 1); [lia|]. assert (Hq' : q / 2 < 2 ^ (dp - 1)) by (rewrite (pow2_pred dp) in Hq by lia; apply N.div_lt_upper_bound; lia).
    assert (Hd1 : 1 < dp) by (clear - Hk; lia). assert (Hvp : vv (dp - 1) (q / 2) < lenN nodes).
    { pose proof (vv_lt_depth (dp - 1) h (q / 2) 0 ltac:(lia) Hq') as V1. pose proof nodes_len as V2. pose proof (leaves_pos L B HB HL) as V3. clear - V1 V2 V3. unfold vv in *. lia. }
    assert (Hqb' : q / 2 * 2 ^ (h - (dp - 1)) <= block).
    { replace (h - (dp - 1)) with (h - dp + 1) by lia. rewrite pow2_succ. pose proof (N.mul_div_le q 2 ltac:(discriminate)) as Hq2. apply (N.mul_le_mono_r _ _ (2 ^ (h - dp))) in Hq2. clear - Hq2 Hqb. lia. }
    destruct (mod2_cases q) as [[Em Eq]|[Em Eq]]; rewrite Em in *; cbn [N.eqb Pos.eqb] in *.
    + assert (Hodd' : vv dp q mod 2 =? 0 = true) by (destruct (mod2_cases (vv dp q)) as [[E1 _]|[E1 _]]; rewrite E1 in *; [discriminate|reflexivity]). rewrite Hodd'.
      destruct (N.eqb_spec (vv dp q - 1) 0) as [E0|_]; [unfold vv in E0; pose proof (N.pow_le_mono_r 2 1 dp ltac:(discriminate) ltac:(lia)) as HH; change (2 ^ 1) with 2 in HH; clear - E0 HH Eq; lia|].
      assert (Hq1 : q - 1 + 1 = q) by (clear - Eq; lia). replace (vv dp q - 1) with (vv dp (q - 1)) by (clear - Hq1; unfold vv; lia). assert (Hfull : (q - 1 + 1) * 2 ^ (h - dp) <= nn) by (rewrite Hq1; clear - Hqb Hblock; lia).
      destruct (full_node dp (q - 1) Hd Hfull) as [Hqn Hv1]. assert (Hc : lo dp (q - 1) = lo (dp - 1) (q / 2)) by (rewrite (dlo_child L B (dp - 1)) by (clear - Hd Hd1; lia); clear - Eq Hd1; f_equal; lia).
      assert (Hqq : lo dp q = lo dp (q - 1 + 1)) by (now rewrite Hq1). rewrite Hqq in *.
      rewrite (idx_ok node0) by auto. cbn [bind]. destruct (bwd_test dp (q - 1) Hd Hqn Hv1 Hr) as (t & Et & Ht). rewrite Et. cbn [bind]. destruct t.
      * left. destruct (bwd_down_ok (N.to_nat (h - dp)) dp (q - 1) (length nodes)) as (b & Eb & Hb & B1 & B0 & B2 & B3 & B4); auto; try (clear - Hd Hd1; lia); try (pose proof fuel_ok as Hfk; clear - Hfk Hd Hd1; lia); try (now apply Ht).
        exists b. split; [exact Eb|]. split; [rewrite Hq1 in B0; clear - B0 Hqb; lia|]. auto.
      * assert (Hno : forall j, lo dp (q - 1) <= j -> j < lo dp (q - 1 + 1) -> E j <> T) by (intros j J1 J2 J3; enough (false = true) by discriminate; apply Ht; eauto).
        pose proof (node_at dp (q - 1) Hd Hqn Hv1) as (Htot & _). rewrite Htot.
        replace (T - E (lo dp (q - 1 + 1)%N) + (E (lo dp (q - 1 + 1)%N) - E (lo dp (q - 1)%N)))%Z with (T - E (lo dp (q - 1)%N))%Z by lia. rewrite i64_ok by auto. cbn [bind].
        pose proof (dlo_mono L B dp (q - 1) (q - 1 + 1) ltac:(lia)) as M.
        assert (Hr2 : (T - E (lo dp (q - 1)) <> 0)%Z) by (destruct (N.eq_dec (lo dp (q - 1)) (lo dp (q - 1 + 1))) as [->|]; auto; intros E0; apply (Hno (lo dp (q - 1))); lia).
        rewrite Hc in *. destruct (IH (dp - 1) (q / 2) fuel) as [(b & Eb & Hb & B1 & B2 & B3 & B4)|[Eb Hn]]; auto; try (clear - Hd Hd1 Hk Hf; lia).
        -- left. exists b. split; [exact Eb|]. split; [auto|]. split; [clear - B1 M; lia|]. split; [auto|]. split; [|auto].
           intros j J1 J2. destruct (N.leb_spec (lo (dp - 1) (q / 2)) j); [apply Hno; auto|apply B3; auto].
        -- right. split; [exact Eb|]. intros j J1. destruct (N.leb_spec (lo (dp - 1) (q / 2)) j); [apply Hno; auto|apply Hn; auto].
    + assert (Hc : lo dp q = lo (dp - 1) (q / 2)) by (rewrite (dlo_child L B (dp - 1)) by lia; f_equal; lia). rewrite Hc in *. apply IH; auto; lia.
Qed.

Lemma mmt_bwd_search_ok block : block < nn -> (T - E (block * B) <> 0)%Z ->
  (exists b, mmt_bwd_search nodes block (T - E (block * B)) = Ok (Some (b, (T - E ((b + 1) * B))%Z)) /\ b < block /\ E ((b + 1) * B) <> T /\
     (forall j, (b + 1) * B <= j -> j < block * B -> E j <> T) /\ exists j, b * B <= j /\ j < (b + 1) * B /\ E j = T) \/
  (mmt_bwd_search nodes block (T - E (block * B)) = Ok None /\ forall j, j < block * B -> E j <> T).
Proof using HB HL Hok HT.
  intros Hb Hr. unfold mmt_bwd_search. rewrite first_leaf_ok. cbn [bind]. pose proof nodes_len as Hl. pose proof (leaves_le nn (leaves_pos L B HB HL)) as Hle. pose proof (height_pos nn) as Hh.
  destruct (N.leb_spec (lenN nodes) (block + (2 ^ h - 1))); [lia|]. pose proof (N.pow_le_mono_r 2 1 h ltac:(lia) ltac:(lia)) as HH. change (2 ^ 1) with 2 in HH.
  destruct (N.eqb_spec (block + (2 ^ h - 1)) 0); [lia|]. cbn [negb assert bind]. replace (block + (2 ^ h - 1)) with (vv h block) by (unfold vv; lia).
  pose proof (proj1 (leaf_iff L B block HB HL) Hb) as HbB. assert (Elo : lo h block = block * B) by (rewrite dlo_leaf; lia). rewrite <- Elo in *.
  destruct (bwd_up_ok block (N.to_nat (h - 1)) Hb h block (length nodes)) as [(b & Eb & Hbn & B1 & B2 & B3 & B4)|[Eb Hn]]; auto; try lia; [pose proof fuel_ok; lia|unfold vv; lia|rewrite N.sub_diag; change (2 ^ 0) with 1; lia| |].
  - rewrite Eb. cbn [bind]. rewrite (sub_ok (vv h b)) by (unfold vv; lia). cbn [bind]. replace (vv h b - (2 ^ h - 1)) with b by (unfold vv; lia).
    assert (Eb2 : lo h b = b * B) by (rewrite dlo_leaf; nia). assert (Eb3 : lo h (b + 1) = (b + 1) * B) by (rewrite dlo_leaf; nia). rewrite Eb2, Eb3 in *.
    left. exists b. split; [reflexivity|]. auto.
  - rewrite Eb. right. auto.
Qed.
End Search.
