(** * Property C132: the min-max tree. *)
From Verif Require Import Base Spec BaseFacts WordFacts BitVecModel BitVecProofs BpModel BpExcess BpMmt BpSearch.

(** Nodes are numbered level by level; node [q] of depth [dp] summarises the blocks below it. *)
Theorem C132_nodes bv B :
  wf bv -> 0 < B -> bits bv <> [] ->
  let L := lenN (bits bv) in
  let E := excess_before (bits bv) in
  let blocks := (L + B - 1) / B in
  let h := N.max 1 (N.log2_up blocks) in
  exists nodes, mmt_excess_tree bv B = Ok nodes /\ lenN nodes = blocks + 2 ^ h - 1 /\
  forall dp q, dp <= h -> q < 2 ^ dp ->
    let x := N.min (q * 2 ^ (h - dp) * B) L in
    let y := N.min ((q + 1) * 2 ^ (h - dp) * B) L in
    if 2 ^ dp - 1 + q <? lenN nodes then
      exists nd, getN nodes (2 ^ dp - 1 + q) = Some nd /\ ntotal nd = (E y - E x)%Z /\
        if x <? y then
          (forall j, x < j -> j <= y -> (nmin nd <= E j - E x <= nmax nd)%Z) /\
          (exists j, x < j /\ j <= y /\ (E j - E x = nmin nd)%Z) /\ (exists j, x < j /\ j <= y /\ (E j - E x = nmax nd)%Z)
        else nmin nd = 0%Z /\ nmax nd = 0%Z
    else dp = h /\ x = L.
Proof.
  intros Hw HB Hne L E blocks h. assert (HL : 0 < lenN (bits bv)) by (destruct (bits bv); [easy|rewrite lenN_cons; lia]). clear Hne.
  destruct (mmt_excess_tree_ok bv B Hw HB) as (nodes & En & Hl & Hn); [now rewrite <- lenN_bits|]. change (nleaves (lenN (bits bv)) B) with blocks in *. change (height blocks) with h in *.
  exists nodes. split; [auto|]. pose proof (pow2_pos h) as P. split; [rewrite Hl; lia|]. intros dp q Hd Hq x y. change (2 ^ dp - 1 + q) with (vv dp q).
  destruct (N.ltb_spec (vv dp q) (lenN nodes)) as [Lv|Lv].
  - exists (nthN node0 nodes (vv dp q)). rewrite (getN_ok node0) by auto. split; [auto|]. specialize (Hn dp q Hd Hq Lv).
    change (dlo (lenN (bits bv)) B dp q) with x in Hn. change (dlo (lenN (bits bv)) B dp (q + 1)) with y in Hn. fold E in Hn.
    destruct Hn as (N1 & N2 & (j1 & N3 & N4 & N5) & (j2 & N6 & N7 & N8)). split; [auto|]. destruct (N.ltb_spec x y) as [Lx|Lx].
    + clear - N2 N3 N4 N5 N6 N7 N8 Lx. clearbody x y. split; [auto|]. split; [exists j1|exists j2]; (split; [lia|split; assumption]).
    + assert (Exy : x = y) by (assert (x <= y); [|lia]; subst x y; nia). clear - N3 N4 N5 N6 N7 N8 Exy. clearbody x y. assert (j1 = x) by lia. assert (j2 = x) by lia. subst j1 j2. lia.
  - assert (Ed : dp = h).
    { destruct (N.eq_dec dp h); auto. pose proof (vv_lt_depth dp h q 0 ltac:(lia) Hq) as Hv. unfold vv in Hv, Lv. lia. }
    split; [auto|]. subst dp. subst x. rewrite N.sub_diag. change (2 ^ 0) with 1. rewrite N.mul_1_r. unfold vv in Lv.
    pose proof (proj2 (leaf_iff (lenN (bits bv)) B q HB HL)) as Hlf. change (nleaves (lenN (bits bv)) B) with blocks in Hlf. fold L in Hlf. lia.
Qed.

(** The search goes to the nearest block that attains the excess, and translates the excess to it. *)
Theorem C132_fwd_search bv B nodes block T :
  wf bv -> 0 < B -> mmt_excess_tree bv B = Ok nodes ->
  let L := lenN (bits bv) in
  let E := excess_before (bits bv) in
  let attains b := exists j, b * B < j /\ j <= (b + 1) * B /\ j <= L /\ E j = T in
  (forall p, Z.abs (T - E p) < 2 ^ 63)%Z -> block * B < L -> E (N.min ((block + 1) * B) L) <> T ->
  exists o, mmt_fwd_search nodes block (T - E (N.min ((block + 1) * B) L)) = Ok o /\
    match o with
    | Some (b, r) => block < b /\ attains b /\ (forall b', block < b' -> b' < b -> ~ attains b') /\ r = (T - E (b * B)%N)%Z
    | None => forall b', block < b' -> ~ attains b'
    end.
Proof.
  intros Hw HB En L E att HT Hb Hne. assert (HL : 0 < lenN (bits bv)) by (fold L; lia).
  destruct (mmt_excess_tree_ok bv B Hw HB) as (nodes' & En' & Hok); [rewrite <- lenN_bits; auto|]. rewrite En in En'. injection En' as <-.
  assert (Hbl : block < nleaves (lenN (bits bv)) B) by (apply leaf_iff; auto).
  assert (HT' : forall p, (Z.abs (T - excess_before (bits bv) p) <= 9223372036854775807)%Z).
  { intros p. specialize (HT p). fold E. change (2 ^ 63)%Z with 9223372036854775808%Z in HT. lia. }
  assert (Hne' : (T - excess_before (bits bv) (N.min ((block + 1) * B) (lenN (bits bv))) <> 0)%Z) by (fold L E; lia).
  destruct (mmt_fwd_search_ok (bits bv) B nodes T HB HL Hok HT' block Hbl Hne') as [(b & Eb & B1 & B2 & B3 & B4 & (j & J1 & J2 & J3))|[Eb Hno]].
  - exists (Some (b, (T - E (b * B)%N)%Z)). split; [exact Eb|]. split; [auto|]. split; [exists j; subst L; split; [auto|]; split; [lia|]; split; [lia|exact J3]|]. split; [|reflexivity].
    intros b' Hb1 Hb2 (j' & K1 & K2 & K3 & K4). assert ((block + 1) * B <= b' * B) by nia. assert ((b' + 1) * B <= b * B) by nia. apply (B4 j'); [lia|lia|exact K4].
  - exists None. split; [exact Eb|]. intros b' Hb1 (j' & K1 & K2 & K3 & K4). assert ((block + 1) * B <= b' * B) by nia. apply (Hno j'); [lia|exact K3|exact K4].
Qed.
Theorem C132_bwd_search bv B nodes block T :
  wf bv -> 0 < B -> mmt_excess_tree bv B = Ok nodes ->
  let L := lenN (bits bv) in
  let E := excess_before (bits bv) in
  let attains b := exists j, b * B <= j /\ j < (b + 1) * B /\ E j = T in
  (forall p, Z.abs (T - E p) < 2 ^ 63)%Z -> block * B < L -> E (block * B) <> T ->
  exists o, mmt_bwd_search nodes block (T - E (block * B)) = Ok o /\
    match o with
    | Some (b, r) => b < block /\ attains b /\ (forall b', b < b' -> b' < block -> ~ attains b') /\ r = (T - E ((b + 1) * B)%N)%Z
    | None => forall b', b' < block -> ~ attains b'
    end.
Proof.
  intros Hw HB En L E att HT Hb Hne. assert (HL : 0 < lenN (bits bv)) by (fold L; lia).
  destruct (mmt_excess_tree_ok bv B Hw HB) as (nodes' & En' & Hok); [rewrite <- lenN_bits; auto|]. rewrite En in En'. injection En' as <-.
  assert (Hbl : block < nleaves (lenN (bits bv)) B) by (apply leaf_iff; auto).
  assert (HT' : forall p, (Z.abs (T - excess_before (bits bv) p) <= 9223372036854775807)%Z).
  { intros p. specialize (HT p). fold E. change (2 ^ 63)%Z with 9223372036854775808%Z in HT. lia. }
  assert (Hne' : (T - excess_before (bits bv) (block * B) <> 0)%Z) by (fold E; lia).
  destruct (mmt_bwd_search_ok (bits bv) B nodes T HB HL Hok HT' block Hbl Hne') as [(b & Eb & B1 & B2 & B3 & (j & J1 & J2 & J3))|[Eb Hno]].
  - exists (Some (b, (T - E ((b + 1) * B)%N)%Z)). split; [exact Eb|]. split; [auto|]. split; [exists j; auto|]. split; [|reflexivity].
    intros b' Hb1 Hb2 (j' & K1 & K2 & K3). assert ((b + 1) * B <= b' * B) by nia. assert ((b' + 1) * B <= block * B) by nia. apply (B3 j'); [lia|lia|exact K3].
  - exists None. split; [exact Eb|]. intros b' Hb1 (j' & K1 & K2 & K3). assert ((b' + 1) * B <= block * B) by nia. apply (Hno j'); [lia|exact K3].
Qed.

(** "(()())(" in blocks of two: four leaves, the last of a single parenthesis. *)
Definition ex_mmt : bitvec := mkbv [75] 7.
Example C132_ex :
  exists nodes, mmt_excess_tree ex_mmt 2 = Ok nodes /\ lenN nodes = 7 /\
    map (fun nd => (ntotal nd, nmin nd, nmax nd)) nodes = [(1, 0, 2); (2, 1, 2); (-1, -2, -1); (2, 1, 2); (0, -1, 0); (-2, -2, -1); (1, 1, 1)]%Z /\
    mmt_fwd_search nodes 0 (-2) = Ok (Some (2, (-2)%Z)) /\ mmt_bwd_search nodes 3 1 = Ok (Some (2, 1%Z)) /\ mmt_fwd_search nodes 2 5 = Ok None.
Proof. eexists. split; [vm_compute; reflexivity|]. vm_compute. repeat split. Qed.
