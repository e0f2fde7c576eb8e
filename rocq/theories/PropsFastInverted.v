(** * Property C107: [FastRmq] on ranges whose first index is above the last. *)
From Verif Require Import Base Spec BaseFacts WordFacts BitVecModel RmqModel RmqProofs FastRmqProofs PropsRmq PropsRmqTies.

(** How many elements the block of [x] has: 128, fewer in the last one. *)
Definition in_block (data : list N) (x : N) : N := N.min 128 (lenN data - 128 * block x).
(** How many places a block of 128 has from [x] on. *)
Definition to_end (x : N) : N := 128 - x mod 128.
(** [p] is the last minimum of the [n] elements that end before [e]. *)
Definition last_minimum (data : list N) (n e p : N) : Prop :=
  e <= p + n /\ p < e /\
  (forall m, e <= m + n -> m < p -> nthN 0 data p <= nthN 0 data m) /\ (forall m, p < m -> m < e -> nthN 0 data p < nthN 0 data m).
(** What a search from [x] to the end of its block finds. In a block of 128 elements it is the last
    minimum. In the last block, if that is shorter, the search runs over the last [to_end x]
    elements and is off by the number of missing elements; if there are not as many elements, it
    finds [x]. *)
Definition suffix_hit (data : list N) (x k : N) : Prop :=
  let e := 128 * block x + in_block data x in
  if in_block data x <? to_end x then k = x
  else exists p, last_minimum data (to_end x) e p /\ k = p + (128 - in_block data x).
(** The first minimum of the elements from the start of the block of [x] to [x]. *)
Definition prefix_hit (data : list N) (x k : N) : Prop :=
  128 * block x <= k /\ k <= x /\
  (forall m, 128 * block x <= m -> m < k -> nthN 0 data k < nthN 0 data m) /\ (forall m, k < m -> m <= x -> nthN 0 data k <= nthN 0 data m).

(** [FastRmq::range_min] with [j < i < len]. *)
Definition inverted_result (data : list N) (i j : N) (o : res N) : Prop :=
  if block i =? block j then
    exists k, suffix_hit data j k /\ o = if k <? i then Ok (k + 1) else Panic
  else
    exists a b, suffix_hit data i a /\ prefix_hit data j b /\
      o = if lenN data <=? a then Panic else Ok (if nthN 0 data b <? nthN 0 data a then b else a).

Section Inv.
Variable data : list N.
Variable r : frmq.
Hypothesis G : fr_good data r.
Local Notation len := (lenN data).
Local Notation D := (nthN 0 data).
Local Notation blk x := (nthN (mkfb 0 0) (fr_blocks r) (block x)).
Local Notation S x := (fb_suffix (blk x)).

Lemma suffix_search x : block x < (len + 127) / 128 -> exists s, s < to_end x /\ N.testbit (S x) s = false /\
  zeros (S x) (to_end x) = zeros (S x) s + 1 /\ sbv_select0 (S x) (zeros (S x) s) = Ok s /\
  suffix_hit data x (128 * block x + 127 - s).
Proof using G.
  intros Hb. destruct G as [Gd (L1 & L2 & L3 & HG) Gs Gm].
  pose proof (N.div_mod x 128 ltac:(lia)) as Ex. pose proof (N.mod_lt x 128 ltac:(lia)) as Lx. fold (block x) in Ex.
  pose proof (HG (block x) Hb) as Gb. pose proof (bg_part _ _ _ _ _ Gb) as R. pose proof (bg_clear _ _ _ _ _ Gb) as C.
  unfold suffix_hit. fold (in_block data x) in R, C. assert (T : to_end x = 128 - x mod 128) by reflexivity.
  assert (I : in_block data x = N.min 128 (len - 128 * block x)) by reflexivity.
  set (n := in_block data x) in *. set (w := to_end x) in *. set (b := block x) in *. clearbody n w.
  destruct (N.ltb_spec n w) as [H|H].
  - exists (w - 1). split; [lia|]. assert (Cw : N.testbit (S x) (w - 1) = false) by (apply C; lia). split; [exact Cw|].
    split; [|split; [apply sbv_select0_ok; [lia|exact Cw]|lia]].
    replace w with (w - 1 + 1) at 1 by lia. rewrite cnt_succ. fold b. fold b in Cw. rewrite Cw. reflexivity.
  - destruct (records_query _ _ _ (w - 1) R) as (s & S1 & S2 & S3 & S4 & S5 & S6); [lia|lia|]. fold b.
    replace (w - 1 + 1) with w in * by lia. exists s. split; [lia|]. split; [exact S5|]. split; [exact S2|]. split; [exact S4|].
    exists (128 * b + (n - 1 - s)). split; [|lia]. split; [lia|]. split; [lia|]. split.
    + intros m M1 M2. specialize (S6 (128 * b + n - 1 - m) ltac:(lia)). cbv beta in S6.
      now replace (128 * b + (n - 1 - (128 * b + n - 1 - m))) with m in S6 by lia.
    + intros m M1 M2. pose proof (proj1 (R s ltac:(lia)) S5 (128 * b + n - 1 - m) ltac:(lia)) as Q. cbv beta in Q.
      now replace (128 * b + (n - 1 - (128 * b + n - 1 - m))) with m in Q by lia.
Qed.
Lemma prefix_search x : x < len -> exists p, p < 128 /\
  sbv_rank0 (fb_prefix (blk x)) (x mod 128 + 1) = Ok (zeros (fb_prefix (blk x)) p + 1) /\
  sbv_select0 (fb_prefix (blk x)) (zeros (fb_prefix (blk x)) p) = Ok p /\ prefix_hit data x (block x * 128 + p).
Proof using G.
  intros Hx. destruct G as [Gd (L1 & L2 & L3 & HG) Gs Gm].
  pose proof (N.div_mod x 128 ltac:(lia)) as Ex. pose proof (N.mod_lt x 128 ltac:(lia)) as Lx. fold (block x) in Ex.
  assert (Hb : block x < (len + 127) / 128) by (unfold block in *; dlia).
  pose proof (HG (block x) Hb) as Gb. pose proof (bg_prefix _ _ _ _ _ Gb) as R. set (b := block x) in *.
  destruct (records_query _ _ _ (x mod 128) R) as (p & P1 & P2 & P3 & P4 & P6 & P5); [lia|lia|].
  exists p. split; [lia|]. split; [exact P3|]. split; [exact P4|]. unfold prefix_hit. fold b. split; [lia|]. split; [lia|].
  replace (b * 128 + p) with (128 * b + p) by lia. split.
  - intros m M1 M2. pose proof (proj1 (R p ltac:(lia)) P6 (m - 128 * b) ltac:(lia)) as Q. cbv beta in Q.
    now replace (128 * b + (m - 128 * b)) with m in Q by lia.
  - intros m M1 M2. specialize (P5 (m - 128 * b) ltac:(lia)). cbv beta in P5. now replace (128 * b + (m - 128 * b)) with m in P5 by lia.
Qed.

Lemma inverted_ok i j : j < i -> block i < (len + 127) / 128 -> inverted_result data i j (fr_range_min r i j).
Proof using G.
  intros Hij Hi. pose proof G as [Gd (L1 & L2 & L3 & HG) Gs Gm]. unfold inverted_result, fr_range_min. rewrite Gd. fold (block i) (block j).
  pose proof (N.div_mod i 128 ltac:(lia)) as Ei. pose proof (N.mod_lt i 128 ltac:(lia)) as Li. fold (block i) in Ei.
  pose proof (N.div_mod j 128 ltac:(lia)) as Ej. pose proof (N.mod_lt j 128 ltac:(lia)) as Lj. fold (block j) in Ej.
  assert (Hbi : block i < lenN (fr_blocks r)) by (now rewrite L3).
  assert (Hbji : block j <= block i) by lia.
  fold (to_end i) (to_end j). assert (Ti : to_end i = 128 - i mod 128) by reflexivity. assert (Tj : to_end j = 128 - j mod 128) by reflexivity.
  destruct (N.eqb_spec (block i) (block j)) as [Eb|Nb].
  - rewrite Eb in *. destruct (suffix_search j) as (s & S1 & S2 & S3 & S4 & S5); [auto|]. exists (128 * block j + 127 - s). split; [exact S5|].
    rewrite (idx_ok (mkfb 0 0)) by lia. cbn [bind]. rewrite !sbv_rank0_ok by lia. cbn [bind].
    pose proof (cnt_mono (fun k => negb (N.testbit (fb_prefix (blk j)) k)) (j mod 128 + 1) (i mod 128 + 1) ltac:(lia)) as M.
    destruct (N.ltb_spec (zeros (fb_prefix (blk j)) (i mod 128 + 1)) (zeros (fb_prefix (blk j)) (j mod 128 + 1))) as [H|_]; [lia|].
    rewrite S3. destruct (N.ltb_spec (zeros (S j) (to_end i)) (zeros (S j) s + 1)) as [H|H].
    + rewrite N.add_sub, S4. cbn [bind]. rewrite sub_ok by lia.
      destruct (N.ltb_spec (128 * block j + 127 - s) i) as [_|H2]; [f_equal; lia|]. exfalso.
      assert (zeros (S j) s < zeros (S j) (to_end i)); [|lia]. apply cnt_lt; [now rewrite S2|lia].
    + destruct (N.ltb_spec (128 * block j + 127 - s) i) as [H2|_].
      * exfalso. pose proof (cnt_mono (fun k => negb (N.testbit (S j) k)) (to_end i) s ltac:(lia)). lia.
      * unfold slice_chk. destruct (N.leb_spec i (j + 1)) as [H3|H3]; cbn [andb]; [|reflexivity].
        replace i with (j + 1) by lia. destruct (N.leb_spec (j + 1) len); [|reflexivity]. rewrite N.sub_diag. reflexivity.
  - destruct (suffix_search i) as (s & S1 & S2 & S3 & S4 & S5); [auto|]. assert (Hj : j < len) by (unfold block in *; dlia).
    destruct (prefix_search j) as (p & P1 & P2 & P3 & P4); [lia|].
    exists (128 * block i + 127 - s), (block j * 128 + p). split; [exact S5|]. split; [exact P4|].
    rewrite (idx_ok (mkfb 0 0)) by lia. cbn [bind]. rewrite sbv_rank0_ok by lia. cbn [bind]. rewrite S3, sub_ok by lia. cbn [bind].
    rewrite N.add_sub, S4. cbn [bind]. rewrite sub_ok by lia. cbn [bind]. rewrite sub_ok by lia. cbn [bind].
    rewrite (idx_ok (mkfb 0 0)) by lia. cbn [bind]. rewrite P2. cbn [bind]. rewrite sub_ok by lia. cbn [bind]. rewrite N.add_sub, P3. cbn [bind].
    destruct (N.ltb_spec (block i + 1) (block j)) as [H|_]; [lia|].
    replace ((block i + 1) * 128 - s - 1) with (128 * block i + 127 - s) by lia. unfold min_by_data. destruct P4 as (Q1 & Q2 & _).
    destruct (N.leb_spec len (128 * block i + 127 - s)) as [H|H]; [now rewrite idx_panic by lia|].
    rewrite (idx_ok 0) by lia. cbn [bind]. rewrite (idx_ok 0) by lia. cbn [bind]. reflexivity.
Qed.
End Inv.

Theorem C107_inverted data r i j : fr_from_vec data = Ok r -> j < i -> i < lenN data ->
  inverted_result data i j (fr_range_min r i j).
Proof.
  intros E H1 H2. destruct (N.le_gt_cases (lenN data) (2 ^ 39 - 128)) as [H|H]; [|apply C57_length_limit in H; congruence].
  destruct (fr_from_vec_ok data) as (r' & E' & G); [lia|apply N.div_lt_upper_bound; lia|]. rewrite E in E'. injection E' as <-.
  apply inverted_ok; auto. unfold block. dlia.
Qed.

(** So [FastRmq::range_min_with_range] is known for all bounds on data that is not empty. *)
Definition bound_overflows (s e : bound) : bool :=
  match s with Excluded i => i =? 2 ^ 64 - 1 | _ => false end || match e with Excluded j => j =? 0 | _ => false end.
Theorem C107_with_range data r s e :
  0 < lenN data -> fr_from_vec data = Ok r -> word_bound s -> word_bound e ->
  let lo := N.min (first_of s) (lenN data - 1) in
  let hi := N.min (last_of (lenN data) e) (lenN data - 1) in
  if bound_overflows s e then fr_range_min_with_range r s e = Panic
  else if hi <? lo then inverted_result data lo hi (fr_range_min_with_range r s e)
  else exists k, fr_range_min_with_range r s e = Ok k /\ fast_choice data lo hi k.
Proof.
  intros Hne E Hs He lo hi. unfold bound_overflows, fr_range_min_with_range.
  assert (Hd : fr_data r = data).
  { unfold fr_from_vec in E. destruct (_ <? _); [|discriminate]. cbn [assert bind] in E.
    destruct (forM _ _ _) as [[[? ?] ?]| |]; try discriminate. cbn [bind] in E.
    destruct (br_from_vec _); try discriminate. cbn [bind] in E. now injection E as <-. }
  rewrite Hd. unfold clamp_bounds. rewrite (sub_ok (lenN data) 1) by lia.
  assert (E1 : (match s with Included i => Ok i | Excluded i => add64 i 1 | Unbounded => Ok 0 end) =
               if match s with Excluded i => i =? 2 ^ 64 - 1 | _ => false end then Panic else Ok (first_of s)).
  { destruct s as [i|i|]; auto. unfold add64. change U64 with (2 ^ 64). cbn in Hs.
    destruct (N.eqb_spec i (2 ^ 64 - 1)), (N.ltb_spec (i + 1) (2 ^ 64)); auto; lia. }
  rewrite E1. destruct (match s with Excluded i => i =? 2 ^ 64 - 1 | _ => false end); [reflexivity|]. cbn [bind orb].
  assert (E2 : (match e with Included i => Ok i | Excluded i => sub i 1 | Unbounded => Ok (lenN data - 1) end) =
               if match e with Excluded j => j =? 0 | _ => false end then Panic else Ok (last_of (lenN data) e)).
  { destruct e as [j|j|]; auto. unfold sub. cbn [last_of]. destruct (N.eqb_spec j 0), (N.leb_spec 1 j); auto; lia. }
  rewrite E2. destruct (match e with Excluded j => j =? 0 | _ => false end); [reflexivity|]. cbn [bind]. fold lo hi.
  destruct (N.ltb_spec hi lo) as [H|H]; [apply C107_inverted; auto; lia|apply C83_fast; auto; lia].
Qed.
(** The outcome is determined by the data. *)
Lemma last_minimum_unique data n e p q : last_minimum data n e p -> last_minimum data n e q -> p = q.
Proof.
  intros (A1 & A2 & A3 & A4) (B1 & B2 & B3 & B4). destruct (N.lt_trichotomy p q) as [L|[L|L]]; auto; exfalso.
  - specialize (A4 q L B2). specialize (B3 p A1 L). lia.
  - specialize (B4 p L A2). specialize (A3 q B1 L). lia.
Qed.
Theorem C107_unique data i j o o' : inverted_result data i j o -> inverted_result data i j o' -> o = o'.
Proof.
  assert (U : forall x k k', suffix_hit data x k -> suffix_hit data x k' -> k = k').
  { intros x k k'. unfold suffix_hit. destruct (_ <? _); [congruence|]. intros (p & P & ->) (q & Q & ->). now rewrite (last_minimum_unique _ _ _ _ _ P Q). }
  assert (V : forall x k k', prefix_hit data x k -> prefix_hit data x k' -> k = k').
  { intros x k k' (A1 & A2 & A3 & A4) (B1 & B2 & B3 & B4). destruct (N.lt_trichotomy k k') as [L|[L|L]]; auto; exfalso.
    - specialize (A4 k' L B2). specialize (B3 k A1 L). lia.
    - specialize (B4 k L A2). specialize (A3 k' B1 L). lia. }
  unfold inverted_result. destruct (_ =? _).
  - intros (k & K & ->) (k' & K' & ->). now rewrite (U _ _ _ K K').
  - intros (a & b & A & B & ->) (a' & b' & A' & B' & ->). now rewrite (U _ _ _ A A'), (V _ _ _ B B').
Qed.
(** The last block has 22 elements here. *)
Definition ex_inv : list N := map (fun i => (i * 37 + 5) mod 101) (range 0 150).
Example C107_ex : match fr_from_vec ex_inv with
  | Ok r => fr_range_min r 127 60 = Ok 121 /\ fr_range_min r 60 20 = Ok 50 /\ fr_range_min r 100 50 = Panic /\ fr_range_min r 140 130 = Ok 131 /\
            fr_range_min r 135 20 = Ok 19 /\ fr_range_min_with_range r (Included 140) (Excluded 140) = Ok 140
  | _ => False end.
Proof. vm_compute. auto 7. Qed.
