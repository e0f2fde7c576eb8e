(** * Property C118: the total cost of iterating over the one-bits. *)
From Verif Require Import Base Spec BaseFacts WordFacts BitVecModel BitVecProofs RsVecModel
  PdepProofs RsVecProofs RsVecSelect IterSpec IterFacts RsIterModel RsIterProofs CostModel CostIterModel
  PropsBitVec PropsRsVec PropsCost PropsCostIter.

Definition total (ks : list nat) : N := fold_right (fun k t => N.of_nat k + t) 0 ks.
Fixpoint sum_to (f : N -> N) (n : nat) : N :=
  match n with O => 0 | S n => sum_to f n + f (N.of_nat n) end.

(** ** The sum of the distances from the samples telescopes *)
Section Sum.
Variables (P : N -> N) (c : N).
Hypothesis Hm : forall a b, a <= b -> b < c -> P a <= P b.
Local Notation s k := (if k =? 0 then 0 else P (8192 * k - 1)).

Lemma sum_inv n : N.of_nat n <= c -> let m := N.of_nat n in
  sum_to (fun r => P r - s (r / 8192)) n <= 8192 * s (m / 8192) + (m mod 8192) * (P (m - 1) - s (m / 8192)).
Proof.
  induction n as [|n IH]; intros Hn m; [cbn [sum_to]; lia|]. cbn [sum_to]. specialize (IH ltac:(lia)). cbn zeta in IH.
  subst m. set (r := N.of_nat n) in *. replace (N.of_nat (S n)) with (r + 1) by lia. replace (r + 1 - 1) with r by lia.
  assert (Hr : r < c) by (unfold r; lia). set (k := r / 8192) in *. set (j := r mod 8192) in *.
  assert (D : r = 8192 * k + j /\ j < 8192) by (unfold k, j; dlia). destruct D as [D1 D2].
  assert (S0 : s k <= P r).
  { destruct (N.eqb_spec k 0); [lia|]. apply Hm; auto. lia. }
  assert (S1 : j * (P (r - 1) - s k) <= j * (P r - s k)).
  { apply N.mul_le_mono_l. pose proof (Hm (r - 1) r ltac:(lia) Hr). lia. }
  set (sk := s k) in *. destruct (N.eq_dec j 8191) as [E|E].
  - assert (Ek : (r + 1) / 8192 = k + 1 /\ (r + 1) mod 8192 = 0) by (clear - D1 E; dlia). destruct Ek as [-> ->].
    destruct (N.eqb_spec (k + 1) 0); [lia|]. replace (8192 * (k + 1) - 1) with r by lia.
    rewrite E in *. clear - IH S0 S1. lia.
  - assert (Ek : (r + 1) / 8192 = k /\ (r + 1) mod 8192 = j + 1) by (clear - D1 D2 E; dlia). destruct Ek as [-> ->].
    fold sk. clear - IH S1. lia.
Qed.
Lemma sum_total n : 0 < N.of_nat n -> N.of_nat n <= c ->
  sum_to (fun r => P r - s (r / 8192)) n <= 8192 * P (N.of_nat n - 1).
Proof.
  intros H0 Hn. pose proof (sum_inv n Hn) as I. cbn zeta in I. set (m := N.of_nat n) in *.
  set (j := m mod 8192) in *. assert (j < 8192) by (unfold j; dlia).
  assert (S0 : s (m / 8192) <= P (m - 1)).
  { destruct (N.eqb_spec (m / 8192) 0); [lia|]. apply Hm; [dlia|lia]. }
  set (sk := s (m / 8192)) in *.
  assert (j * (P (m - 1) - sk) <= 8192 * (P (m - 1) - sk)) by (apply N.mul_le_mono_r; lia). lia.
Qed.
End Sum.

Lemma sum_to_le f g n : (forall i, i < N.of_nat n -> f i <= g i) -> sum_to f n <= sum_to g n.
Proof.
  induction n as [|n IH]; intros H; cbn [sum_to]; [lia|].
  pose proof (H (N.of_nat n) ltac:(lia)). specialize (IH ltac:(intros; apply H; lia)). lia.
Qed.

Lemma sel_le b bv i j : i <= j -> j < count b (bits bv) -> select_spec b (bits bv) i <= select_spec b (bits bv) j.
Proof.
  intros H Hj. destruct b.
  - destruct (hit1 bv j Hj) as (p & P1 & P2 & P3 & ->). destruct (hit1 bv i ltac:(lia)) as (q & Q1 & Q2 & Q3 & ->).
    apply N.leb_le. rewrite <- (cnt_leb (bit_at (bdata bv))) by auto. apply N.leb_le. lia.
  - destruct (hit0 bv j Hj) as (p & P1 & P2 & P3 & ->). destruct (hit0 bv i ltac:(lia)) as (q & Q1 & Q2 & Q3 & ->).
    apply N.leb_le. rewrite <- (cnt_leb (zbit (bdata bv))) by auto. apply N.leb_le. lia.
Qed.

Lemma steps_total bv n : 0 < N.of_nat n -> N.of_nat n <= count true (bits bv) ->
  sum_to (next_steps true (bits bv)) n <= select_spec true (bits bv) (N.of_nat n - 1).
Proof.
  intros H0 Hn. set (P := fun r => select_spec true (bits bv) r / 8192).
  assert (Hm : forall a b, a <= b -> b < count true (bits bv) -> P a <= P b).
  { intros a b H H'. apply N.div_le_mono; [discriminate|]. now apply sel_le. }
  pose proof (sum_total P _ Hm n H0 Hn) as T. etransitivity; [|etransitivity; [exact T|unfold P; clear; dlia]].
  apply sum_to_le. intros i Hi. unfold next_steps. cbn zeta. destruct (_ && _); [lia|].
  unfold sample_super, P. destruct (N.ltb_spec i 8192).
  - rewrite (N.div_small i) by auto. cbn [N.eqb]. lia.
  - destruct (N.eqb_spec (i / 8192) 0) as [E|E]; [exfalso; clear - H E; dlia|]. lia.
Qed.

(** ** Iterating *)
Section Run.
Variables (bv : bitvec) (rs : rsvec) (kb : nat).
Hypothesis Hwf : wf bv.
Hypothesis G : rs_good bv rs.
Hypothesis Hkb : N.log2_up (lenN (bits bv) / 8192 + 1) <= N.of_nat kb.
Local Notation c := (count true (bits bv)).
Local Notation sel := (select_spec true (bits bv)).
Local Notation steps := (next_steps true (bits bv)).

Lemma run_step r : r < c -> exists it it', fresh_after false rs (N.to_nat r) = Ok it /\
  fresh_after false rs (N.to_nat (r + 1)) = Ok it' /\
  forall k, select_next_1_cut kb k rs it = if steps r <=? N.of_nat k then Ok (it', Some (sel r)) else Diverge.
Proof.
  intros Hr. destruct (iter1_cost bv rs r kb 0 Hwf G Hr Hkb) as (it & it' & Ef & En & _).
  exists it, it'. split; auto. split.
  - replace (N.to_nat (r + 1)) with (S (N.to_nat r)) by lia.
    unfold fresh_after in *. destruct (sel_new false rs) as [i0| |]; try discriminate. cbn [bind] in *.
    rewrite after_add, Ef. cbn [bind sel_next]. now rewrite En.
  - intros k. destruct (iter1_cost bv rs r kb k Hwf G Hr Hkb) as (it2 & it2' & Ef2 & En2 & Ec).
    rewrite Ef in Ef2. injection Ef2 as <-. rewrite En in En2. injection En2 as <-. exact Ec.
Qed.

(** Whether each budget covers its call. *)
Fixpoint covers (r : N) (ks : list nat) : bool :=
  match ks with [] => true | k :: ks => (steps r <=? N.of_nat k) && covers (r + 1) ks end.
Lemma run_ok ks : forall r it, r + lenN ks <= c -> fresh_after false rs (N.to_nat r) = Ok it ->
  iter1_cut kb ks rs it = if covers r ks then Ok (map sel (range r (r + lenN ks))) else Diverge.
Proof.
  induction ks as [|k ks IH]; intros r it Hl Ef.
  - cbn [iter1_cut covers]. change (lenN (@nil nat)) with 0. now rewrite N.add_0_r, range_nil by lia.
  - rewrite lenN_cons in *. destruct (run_step r) as (it0 & it' & Ef0 & Ef' & H); [lia|].
    rewrite Ef in Ef0. injection Ef0 as <-. cbn [iter1_cut covers]. rewrite H.
    destruct (steps r <=? N.of_nat k); cbn [andb bind]; [|reflexivity].
    rewrite (IH (r + 1) it') by (auto; lia). destruct (covers (r + 1) ks); cbn [bind]; auto.
    rewrite (range_cons r) by lia. cbn [map]. do 4 f_equal. lia.
Qed.
Lemma covers_total ks : forall r, covers r ks = true ->
  sum_to steps (N.to_nat r + length ks) <= sum_to steps (N.to_nat r) + total ks.
Proof using Type.
  clear Hkb.
  induction ks as [|k ks IH]; intros r H; cbn [covers length total fold_right] in *.
  - rewrite Nat.add_0_r. lia.
  - apply andb_true_iff in H as [H1 H2]. apply N.leb_le in H1. specialize (IH (r + 1) H2).
    replace (N.to_nat (r + 1)) with (S (N.to_nat r)) in IH by lia. cbn [sum_to] in IH. rewrite N2Nat.id in IH.
    replace (S (N.to_nat r) + length ks)%nat with (N.to_nat r + S (length ks))%nat in IH by lia.
    fold (total ks). lia.
Qed.
Definition best (r : N) (n : nat) : list nat := map (fun i => N.to_nat (steps i)) (range r (r + N.of_nat n)).
Lemma best_cons r n : best r (S n) = N.to_nat (steps r) :: best (r + 1) n.
Proof using Type. clear Hkb. unfold best. rewrite (range_cons r) by lia. cbn [map]. do 3 f_equal. lia. Qed.
Lemma best_ok n : forall r, length (best r n) = n /\ covers r (best r n) = true /\
  total (best r n) + sum_to steps (N.to_nat r) = sum_to steps (N.to_nat r + n).
Proof using Type.
  clear Hkb.
  induction n as [|n IH]; intros r.
  - unfold best. rewrite range_nil by lia. rewrite Nat.add_0_r. cbn. auto.
  - rewrite best_cons. destruct (IH (r + 1)) as (I1 & I2 & I3). cbn [length covers total fold_right].
    rewrite I1, I2, N2Nat.id, N.leb_refl. split; auto. split; auto.
    fold (total (best (r + 1) n)). replace (N.to_nat (r + 1)) with (S (N.to_nat r)) in I3 by lia.
    replace (N.to_nat r + S n)%nat with (S (N.to_nat r) + n)%nat by lia. rewrite <- I3. cbn [sum_to]. rewrite N2Nat.id. lia.
Qed.
Lemma sels_positions : map sel (range 0 c) = positions true (bits bv).
Proof using Type.
  clear Hkb.
  apply (list_ext 0).
  - now rewrite lenN_map, lenN_range, lenN_positions, N.sub_0_r.
  - intros i Hi. rewrite lenN_map, lenN_range, N.sub_0_r in Hi. rewrite (nthN_map _ 0), nthN_range by (rewrite ?lenN_range; lia).
    rewrite N.add_0_l. unfold select_spec. rewrite (getN_ok 0) by now rewrite lenN_positions. reflexivity.
Qed.
End Run.

(** ** C118 *)
Theorem C118_total bv rs kb : wf bv -> rs_from_bit_vec bv = Ok rs ->
  N.log2_up (lenN (bits bv) / 8192 + 1) <= N.of_nat kb ->
  exists it ks, sel_new false rs = Ok it /\ lenN ks = count true (bits bv) /\
    iter1_cut kb ks rs it = Ok (positions true (bits bv)) /\
    (0 < count true (bits bv) -> total ks <= select_spec true (bits bv) (count true (bits bv) - 1)) /\
    total ks <= lenN (bits bv).
Proof.
  intros Hwf E Hkb. pose proof (built bv rs Hwf E) as G. destruct (sel_new_ok false bv rs Hwf G) as (it & En & _).
  set (c := count true (bits bv)). exists it, (best bv 0 (N.to_nat c)).
  destruct (best_ok bv (N.to_nat c) 0) as (B1 & B2 & B3). cbn [N.to_nat Nat.add sum_to] in B3. rewrite N.add_0_r in B3.
  assert (B4 : lenN (best bv 0 (N.to_nat c)) = c) by (unfold lenN; rewrite B1; lia).
  split; auto. split; auto. split; [|split].
  - rewrite (run_ok bv rs kb Hwf G Hkb _ 0); [|rewrite B4; unfold c; lia|].
    + rewrite B2, B4. f_equal. apply sels_positions.
    + unfold fresh_after. rewrite En. reflexivity.
  - intros H0. rewrite B3. pose proof (steps_total bv (N.to_nat c)) as T. rewrite N2Nat.id in T. apply T; unfold c in *; lia.
  - rewrite B3. destruct (N.eq_dec c 0) as [->|H0]; [cbn; lia|].
    pose proof (steps_total bv (N.to_nat c)) as T. rewrite N2Nat.id in T. specialize (T ltac:(lia) ltac:(unfold c; lia)).
    destruct (hit1 bv (c - 1) ltac:(unfold c in *; lia)) as (p & P1 & _ & _ & P4). rewrite P4 in T. rewrite lenN_bits. lia.
Qed.

(** [m] super-blocks that start with a one-bit and have no other. *)
Definition comb_block : list N := 1 :: repeat 0 127.
Definition comb_vec (m : nat) : bitvec := mkbv (concat (repeat comb_block m)) (8192 * N.of_nat m).
Lemma comb_block_nth i : i < 128 -> nthN 0 comb_block i = if i =? 0 then 1 else 0.
Proof.
  intros H. unfold nthN, comb_block. destruct (N.eqb_spec i 0) as [->|Hz]; [reflexivity|].
  replace (N.to_nat i) with (S (N.to_nat (i - 1))) by lia. cbn [nth].
  apply (repeat_spec 127 (0 : N)), nth_In. rewrite repeat_length. lia.
Qed.
Lemma comb_nth m : forall i, i < 128 * N.of_nat m ->
  nthN 0 (concat (repeat comb_block m)) i = if i mod 128 =? 0 then 1 else 0.
Proof.
  induction m as [|m IH]; intros i Hi; [lia|]. cbn [repeat concat]. rewrite nthN_app.
  change (lenN comb_block) with 128. destruct (N.ltb_spec i 128) as [H|H].
  - rewrite comb_block_nth, N.mod_small by auto. reflexivity.
  - rewrite IH by lia. replace (i mod 128) with ((i - 128) mod 128); auto. clear - H. dlia.
Qed.
Lemma comb_wf m : wf (comb_vec m).
Proof.
  assert (L : lenN (concat (repeat comb_block m)) = 128 * N.of_nat m).
  { induction m as [|m IH]; [reflexivity|]. cbn [repeat concat]. rewrite lenN_app, IH.
    change (lenN comb_block) with 128. lia. }
  split; cbn [blen bdata comb_vec]; [rewrite L; dlia|].
  apply Forall_forall. intros x Hx. apply In_getN in Hx as (k & Hk & Ek). rewrite (getN_ok 0) in Ek by auto. injection Ek as <-.
  rewrite comb_nth by lia. destruct (_ =? 0); reflexivity.
Qed.
Lemma comb_bit m i : i < 8192 * N.of_nat m -> bit_at (bdata (comb_vec m)) i = (i mod 8192 =? 0).
Proof.
  intros H. unfold bit_at. cbn [bdata comb_vec]. rewrite comb_nth by dlia.
  destruct (N.eqb_spec (i / 64 mod 128) 0) as [A|A].
  - destruct (N.eqb_spec (i mod 8192) 0) as [B|B].
    + replace (i mod 64) with 0 by (clear - B; dlia). reflexivity.
    + destruct (i mod 64) eqn:C; [exfalso; clear - A B C; dlia|]. reflexivity.
  - rewrite N.bits_0. symmetry. apply N.eqb_neq. clear - A. dlia.
Qed.
Lemma comb_cnt m r : r <= N.of_nat m -> cnt (bit_at (bdata (comb_vec m))) (8192 * r) = r.
Proof.
  induction r as [|r IH] using N_ind1; intros H; [now rewrite N.mul_0_r, cnt_0|].
  replace (8192 * (r + 1)) with (8192 * r + 8192) by lia. rewrite cnt_add, IH by lia. f_equal.
  rewrite (cnt_ext _ (fun i => i =? 0)).
  - vm_compute. reflexivity.
  - intros i Hi. rewrite comb_bit by lia. replace ((8192 * r + i) mod 8192) with i; auto. clear - Hi. dlia.
Qed.
Lemma comb_count m : count true (bits (comb_vec m)) = N.of_nat m.
Proof. rewrite count_bits_true. cbn [blen comb_vec]. now rewrite comb_cnt. Qed.
Lemma comb_sel m r : r < N.of_nat m -> select_spec true (bits (comb_vec m)) r = 8192 * r.
Proof.
  intros H. pose proof (bits_select_hit true (comb_vec m) (8192 * r)) as S. cbv iota in S. rewrite comb_cnt in S by lia.
  apply S; [cbn [blen comb_vec]; lia|]. rewrite comb_bit by lia. apply N.eqb_eq. clear. dlia.
Qed.

(** The number of steps can be quadratic in the number of super-blocks, so the iterator does not skip the blocks it has passed. *)
Theorem C118_tight m ks rs it kb l : N.of_nat m <= 8192 -> rs_from_bit_vec (comb_vec m) = Ok rs -> sel_new false rs = Ok it ->
  N.log2_up (N.of_nat m + 1) <= N.of_nat kb ->
  lenN ks = count true (bits (comb_vec m)) -> iter1_cut kb ks rs it = Ok l ->
  N.of_nat m * (N.of_nat m - 1) <= 2 * total ks.
Proof.
  intros Hm E En Hkb Hl Hr. pose proof (comb_wf m) as Hwf.
  assert (Hb : lenN (bits (comb_vec m)) / 8192 = N.of_nat m).
  { rewrite lenN_bits. cbn [blen comb_vec]. clear. dlia. }
  rewrite (run_ok (comb_vec m) rs kb Hwf (built _ _ Hwf E) ltac:(now rewrite Hb) ks 0 it) in Hr;
    [|lia|unfold fresh_after; rewrite En; reflexivity].
  destruct (covers (comb_vec m) 0 ks) eqn:C; [|discriminate]. clear Hr.
  pose proof (covers_total (comb_vec m) ks 0 C) as T. cbn [N.to_nat Nat.add sum_to] in T.
  rewrite comb_count in Hl. unfold lenN in Hl. replace (length ks) with m in T by lia. rewrite N.add_0_l in T.
  enough (S : forall n, (n <= m)%nat -> 2 * sum_to (next_steps true (bits (comb_vec m))) n = N.of_nat n * (N.of_nat n - 1)).
  { rewrite <- S by lia. lia. }
  induction n as [|n IH]; intros Hn; [reflexivity|]. cbn [sum_to]. rewrite N.mul_add_distr_l, IH by lia.
  enough (next_steps true (bits (comb_vec m)) (N.of_nat n) = N.of_nat n) as -> by nia.
  unfold next_steps. rewrite comb_sel by lia. set (r := N.of_nat n).
  replace (8192 * r / 8192) with r by (clear; dlia).
  unfold sample_super. destruct (N.ltb_spec r 8192); [|lia].
  destruct (N.eqb_spec r 0) as [Hz|Hz].
  - rewrite Hz. destruct (_ && _); reflexivity.
  - rewrite comb_sel by lia. destruct (N.eqb_spec r (8192 * (r - 1) / 8192)) as [B|B]; [exfalso; clear - B Hz; dlia|].
    cbn [andb]. lia.
Qed.

Example C118_ex : match rs_from_bit_vec (comb_vec 3) with
  | Ok rs => match sel_new false rs with
    | Ok it => iter1_cut 2 [0; 1; 2]%nat rs it = Ok [0; 8192; 16384] /\ iter1_cut 2 [0; 2; 1]%nat rs it = Diverge
    | _ => False end
  | _ => False
  end.
Proof. vm_compute. auto. Qed.
