(** * Property C131: Elias-Fano vectors of unsorted data in a release build. *)
From Verif Require Import Base Spec BaseFacts WordFacts BitVecModel BitVecProofs BitVecProofs2
  RsVecModel RsVecProofs RsVecSelect RsEqProofs EFModel EFProofs EFQuery PropsEF PropsEFUnchecked GenIterModel ReleaseModel PropsRelease
  UncheckedReleaseModel PropsUncheckedRelease PropsSurplus PropsStored WaveletBuild WaveletCount PropsBuildRelease EFReleaseModel PropsEFRelease.

Local Notation wsub := wrapping_sub.
Local Notation wadd := wrapping_add.
Local Notation wmul := wrapping_mul.

Lemma flip_any up p : wf up -> p < 64 * lenN (bdata up) -> exists up', bv_flip_bit_unchecked up p = Ok up' /\ wf up' /\ blen up' = blen up /\
  forall q, q < blen up -> bit_at (bdata up') q = if q =? p then negb (bit_at (bdata up) q) else bit_at (bdata up) q.
Proof.
  intros Hw Hp. pose proof (C110_writes up p 0 Hw) as H. rewrite lenN_flat in H. pose proof (proj1 Hw) as El.
  destruct (N.ltb_spec p (64 * lenN (bdata up))) as [L|L]; [|lia]. destruct H as (_ & up' & E1 & W1 & L1 & F1). rewrite !lenN_bits in L1.
  exists up'. do 3 (split; [auto|]). intros q Hq. assert (Hq2 : q < 64 * lenN (bdata up)) by (rewrite El; dlia).
  assert (Hq3 : q < 64 * lenN (bdata up')) by (rewrite (proj1 W1), L1; dlia).
  rewrite <- (nthN_flat (bdata up')) by auto. rewrite F1, nthN_app, lenN_takeN, lenN_flat, nthN_cons, nthN_dropN.
  replace (N.min p (64 * lenN (bdata up))) with p by lia. destruct (N.ltb_spec q p) as [L2|L2].
  - rewrite nthN_takeN by auto. destruct (N.eqb_spec q p); [lia|]. now apply nthN_flat.
  - destruct (N.eqb_spec (q - p) 0); destruct (N.eqb_spec q p); try lia.
    + subst q. now rewrite nthN_flat.
    + replace (p + 1 + (q - p - 1)) with q by lia. now apply nthN_flat.
Qed.
Lemma cnt_but f g p n : (forall i, i < n -> i <> p -> f i = g i) -> cnt f n <= cnt g n + 1.
Proof.
  induction n as [|n IH] using N_ind1; intros H; [rewrite !cnt_0; lia|]. rewrite !cnt_succ. destruct (N.eq_dec n p) as [->|E].
  - rewrite (cnt_ext f g p) by (intros; apply H; lia). destruct (f p), (g p); lia.
  - rewrite (H n) by lia. specialize (IH ltac:(intros; apply H; lia)). lia.
Qed.
Lemma first_bad (good : N -> bool) n : (forall k, k < n -> good k = true) \/ exists k, k < n /\ good k = false /\ forall i, i < k -> good i = true.
Proof.
  induction n as [|n [IH|(k & H1 & H2 & H3)]] using N_ind1; [left; lia| |right; exists k; split; [lia|auto]].
  destruct (good n) eqn:E; [left|right; exists n; split; [lia|auto]]. intros k Hk. destruct (N.eq_dec k n); [now subst|apply IH; lia].
Qed.

Section Any.
Variables (data : list N) (w : N).
Hypothesis Hd : Forall (fun x => x < 2 ^ 64) data.
Hypothesis Hne : 0 < lenN data.
Hypothesis Hw : w < 64.
Local Notation n := (lenN data).
(** The distance of an element from the first one, and its high and low part. *)
Definition distance (k : N) : N := (nthN 0 data k + 2 ^ 64 - nthN 0 data 0) mod 2 ^ 64.
Definition high (k : N) : N := distance k / 2 ^ w.
Definition low (k : N) : N := distance k mod 2 ^ w.
Local Notation B := (high (n - 1)).
Local Notation m := (2 + n + B).
Hypothesis Hm : m + 64 <= 2 ^ 64.
(** Where the bit of an element is. *)
Definition place (k : N) : N := (high k + k + 1) mod 2 ^ 64.

Lemma pow_nz : 2 ^ w <> 0.
Proof using All. now apply N.pow_nonzero. Qed.
Lemma low_lt k : low k < 2 ^ w.
Proof using All. apply N.mod_lt, pow_nz. Qed.
Lemma dist_lt k : distance k < 2 ^ 64.
Proof using All. apply N.mod_lt. lia. Qed.
Lemma dist_split k : distance k = high k * 2 ^ w + low k.
Proof using All. unfold high, low. pose proof (N.div_mod (distance k) (2 ^ w) pow_nz). lia. Qed.
Lemma dist_0 : distance 0 = 0.
Proof using All. unfold distance. replace (nthN 0 data 0 + 2 ^ 64 - nthN 0 data 0) with (1 * 2 ^ 64) by lia. apply N.mod_mul. lia. Qed.
Lemma high_0 : high 0 = 0.
Proof using All. unfold high. rewrite dist_0. apply N.div_0_l, pow_nz. Qed.
Lemma elem_lt k : nthN 0 data k < 2 ^ 64.
Proof using All.
  destruct (N.lt_ge_cases k n) as [L|L]; [|rewrite nthN_overflow by auto; lia]. rewrite Forall_forall in Hd. apply Hd. apply nth_In. unfold lenN in L. lia.
Qed.
Lemma dist_add k : (distance k + nthN 0 data 0) mod 2 ^ 64 = nthN 0 data k.
Proof using All.
  unfold distance. rewrite N.add_mod_idemp_l by lia. pose proof (elem_lt k). pose proof (elem_lt 0).
  replace (nthN 0 data k + 2 ^ 64 - nthN 0 data 0 + nthN 0 data 0) with (nthN 0 data k + 1 * 2 ^ 64) by lia.
  rewrite N.mod_add by lia. now apply N.mod_small.
Qed.
Lemma high_lt k : high k < 2 ^ (64 - w).
Proof using All.
  apply N.div_lt_upper_bound; [apply pow_nz|]. rewrite <- N.pow_add_r. replace (w + (64 - w)) with 64 by lia. apply dist_lt.
Qed.

Definition low_inv (i : N) (l : bitvec) : Prop :=
  if w =? 0 then blen l = 0 /\ lenN (bdata l) = i /\ Forall (fun x => x = 0) (bdata l)
  else wf l /\ zero_tail l /\ bits l = concat (map (fun x => lowbits x w) (map low (range 0 i))).
Lemma push_any i up l : i < n -> wf up -> blen up = m -> low_inv i l ->
  ef_push_rel w (nthN 0 data 0) (up, l) (i, nthN 0 data i) =
    (let* up' := bv_flip_bit_unchecked up (place i) in let* l' := bv_append_bits_unchecked l (low i) w in Ok (up', l')) /\
  exists l', bv_append_bits_unchecked l (low i) w = Ok l' /\ low_inv (i + 1) l'.
Proof using All.
  intros Hi Hup Elen Hlow. split.
  { unfold ef_push_rel. change (wsub (nthN 0 data i) (nthN 0 data 0)) with (distance i). rewrite N.shiftr_div_pow2, land_lowmask by auto.
    fold (high i) (low i). f_equal. unfold wrapping_add, place. change U64 with (2 ^ 64). now rewrite N.add_mod_idemp_l by lia. }
  pose proof (low_lt i) as HL. unfold low_inv in *. destruct (N.eqb_spec w 0) as [E0|E0].
  - destruct Hlow as (L0 & Ld & LF). unfold bv_append_bits_unchecked. rewrite L0. cbn [bind].
    change (0 mod 64 =? 0) with true. cbn [bind]. exists (mkbv (bdata l ++ [low i]) (0 + w)). split; [reflexivity|]. cbn [bdata blen].
    split; [lia|]. split; [rewrite lenN_app, Ld; reflexivity|].
    apply Forall_app. split; auto. constructor; auto. rewrite E0 in HL. change (2 ^ 0) with 1 in HL. lia.
  - destruct Hlow as (Hwf & Hz & Hb).
    assert (HL64 : low i < U64).
    { pose proof (N.pow_lt_mono_r 2 w 64). rewrite U64_pow. lia. }
    destruct (bv_append_bits_unchecked_ok l (low i) w Hwf (zero_tail_clean _ Hz) HL64) as (l' & El & Hwf' & Hbl); try lia.
    exists l'. split; [auto|]. split; [auto|]. split.
    + apply (append_unchecked_zero_tail l (low i) w l'); auto; lia.
    + rewrite Hbl, Hb. rewrite range_succ_r by lia. rewrite !map_app, concat_app. cbn [map concat]. now rewrite app_nil_r.
Qed.
Definition fits (k : N) : bool := place k <? 64 * ((m + 63) / 64).
Definition state (i : N) (s : bitvec * bitvec) : Prop :=
  wf (fst s) /\ blen (fst s) = m /\ low_inv i (snd s) /\ cnt (bit_at (bdata (fst s))) m <= i /\
  ((forall a b, a < b -> b < n -> place a < place b) -> forall p, p < m -> bit_at (bdata (fst s)) p = true <-> exists k, k < i /\ place k = p).
Lemma state_0 : state 0 (bv_from_zeros m, bv_new).
Proof using All.
  destruct (bv_from_zeros_ok m) as [Hz1 Hz2]. assert (Hzl : blen (bv_from_zeros m) = m) by reflexivity.
  assert (Hz : forall p, p < m -> bit_at (bdata (bv_from_zeros m)) p = false).
  { intros p Hp. rewrite <- (nthN_bits false (bv_from_zeros m) p) by (rewrite Hzl; lia). rewrite Hz2. now apply nthN_replicate. }
  unfold state. cbn [fst snd]. split; [auto|]. split; [auto|]. split; [|split].
  - unfold low_inv. destruct (w =? 0); [repeat split; auto; constructor|]. split; [apply bv_new_wf|]. split; [apply bv_new_zero_tail|]. reflexivity.
  - rewrite (cnt_ext _ (fun _ => false)), cnt_false by auto. lia.
  - intros _ p Hp. rewrite Hz by auto. split; [discriminate|]. intros (k & Hk & _). lia.
Qed.
Lemma state_step i s : i < n -> state i s -> fits i = true -> exists s', ef_push_rel w (nthN 0 data 0) s (i, nthN 0 data i) = Ok s' /\ state (i + 1) s'.
Proof using All.
  destruct s as [up l]. intros Hi (H1 & H2 & H3 & H4 & H5) Hf. cbn [fst snd] in *.
  destruct (push_any i up l Hi H1 H2 H3) as (-> & l' & El & H3').
  assert (Hp : place i < 64 * lenN (bdata up)) by (rewrite (proj1 H1), H2; unfold fits in Hf; lia).
  destruct (flip_any up (place i) H1 Hp) as (up' & Eu & H1' & H2' & Hb). rewrite Eu, El. cbn [bind]. exists (up', l'). split; [reflexivity|].
  unfold state. cbn [fst snd]. rewrite H2 in H2', Hb. split; [auto|]. split; [auto|]. split; [auto|]. split.
  - assert (cnt (bit_at (bdata up')) m <= cnt (bit_at (bdata up)) m + 1); [|lia]. apply (cnt_but _ _ (place i)). intros q Hq Hqp. rewrite Hb by auto.
    destruct (N.eqb_spec q (place i)); [easy|auto].
  - intros Hinc p Hq. rewrite Hb by auto. specialize (H5 Hinc). destruct (N.eqb_spec p (place i)) as [->|Np].
    + assert (Ef : bit_at (bdata up) (place i) = false).
      { destruct (bit_at (bdata up) (place i)) eqn:Eb; auto. apply H5 in Eb; [|auto]. destruct Eb as (k & Hk & Ek). pose proof (Hinc k i Hk Hi). lia. }
      rewrite Ef. split; [|auto]. intros _. exists i. split; [lia|auto].
    + rewrite H5 by auto. split; intros (k & Hk & Ek); exists k; split; auto; [lia|]. destruct (N.eq_dec k i); [subst; congruence|lia].
Qed.
Lemma state_stop i s : i < n -> state i s -> fits i = false -> ef_push_rel w (nthN 0 data 0) s (i, nthN 0 data i) = Panic.
Proof using All.
  destruct s as [up l]. intros Hi (H1 & H2 & H3 & H4 & H5) Hf. cbn [fst snd] in *.
  destruct (push_any i up l Hi H1 H2 H3) as (-> & _). pose proof (C110_writes up (place i) 0 H1) as H. rewrite lenN_flat, (proj1 H1), H2 in H.
  unfold fits in Hf. rewrite Hf in H. destruct H as [_ ->]. reflexivity.
Qed.
Lemma from_any : (exists k, k < n /\ fits k = false) /\ ef_from_slice_rel w data = Panic \/
  (forall k, k < n -> fits k = true) /\ exists up l u, state n (up, l) /\ rs_good up u /\
     ef_from_slice_rel w data = Ok (mkef u l (nthN 0 data 0) (nthN 0 data (n - 1)) w n).
Proof using All.
  unfold ef_from_slice_rel. destruct (N.eqb_spec n 0) as [Hn|Hn]; [lia|]. rewrite !(idx_ok 0) by lia. cbn [bind].
  rewrite assert_true by lia. cbn [bind]. change (wsub (nthN 0 data (n - 1)) (nthN 0 data 0)) with (distance (n - 1)). rewrite N.shiftr_div_pow2. fold B.
  assert (Em : wadd (wadd 2 n) B = m) by (rewrite (wadd_lt 2), wadd_lt by lia; reflexivity). rewrite Em. rewrite (combine_range 0), forM_map.
  destruct (first_bad fits n) as [Hg|(k & Hk & Hb & Hg)].
  - right. split; [auto|]. destruct (forM_range_inv state 0 n (bv_from_zeros m, bv_new) (fun s x => ef_push_rel w (nthN 0 data 0) s (x, nthN 0 data x))) as ([up l] & E & S).
    + lia.
    + apply state_0.
    + intros i s _ Hi Hs. apply state_step; auto.
    + rewrite E. cbn [bind]. destruct (rs_from_bit_vec_ok up (proj1 S)) as (u & Eu & G). rewrite Eu. cbn [bind]. exists up, l, u. auto.
  - left. split; [eauto|]. rewrite (range_app 0 k n), forM_app by lia.
    destruct (forM_range_inv state 0 k (bv_from_zeros m, bv_new) (fun s x => ef_push_rel w (nthN 0 data 0) s (x, nthN 0 data x))) as (s & E & S).
    + lia.
    + apply state_0.
    + intros i s _ Hi Hs. apply state_step; auto. lia.
    + rewrite E. cbn [bind]. rewrite range_cons by auto. cbn [forM]. rewrite state_stop by auto. reflexivity.
Qed.

Hypothesis Hl : n * w <= 2 ^ 64.
Lemma low_any l k : low_inv n l -> k < n -> bv_get_bits_unchecked l (wmul k w) w = Ok (low k).
Proof using All.
  intros H4 Hk. unfold wrapping_mul. change U64 with (2 ^ 64). unfold low_inv in H4. destruct (N.eqb_spec w 0) as [E0|E0].
  - destruct H4 as (L0 & Ld & LF). rewrite E0, N.mul_0_r. pose proof (low_lt k) as X.
    assert (EL : low k = 0) by (rewrite E0 in X; change (2 ^ 0) with 1 in X; lia). rewrite EL.
    assert (exists x r, bdata l = x :: r) as (x & r & Ex).
    { destruct (bdata l) as [|x r]; [exfalso; change (lenN (@nil N)) with 0 in Ld; lia|eauto]. }
    rewrite Ex in LF. inversion LF as [|? ? Hx _]. subst x.
    unfold bv_get_bits_unchecked, limbs_get_bits_unchecked. rewrite Ex. reflexivity.
  - destruct H4 as (Hwf & Hz & Hb).
    assert (Elen : blen l = w * n).
    { rewrite <- lenN_bits, Hb, lenN_concat_lowbits, lenN_map, lenN_range. lia. }
    assert (Hkw : k * w < 2 ^ 64) by (clear - Hl Hk E0; nia). rewrite N.mod_small by exact Hkw.
    rewrite bv_get_bits_unchecked_ok by (auto; try lia; nia). f_equal. rewrite Hb.
    rewrite slice_concat_lowbits by (rewrite lenN_map, lenN_range; lia).
    rewrite value_lowbits. rewrite (nthN_map low 0 0), nthN_range by (rewrite ?lenN_range; lia).
    now rewrite N.mod_small by apply low_lt.
Qed.
(** The bits of the upper vector found by select. *)
Lemma sel_any up u k : wf up -> blen up = m -> rs_good up u ->
  let c := cnt (bit_at (bdata up)) m in
  exists s, rs_select1 u k = Ok s /\ if k <? c then s < m /\ bit_at (bdata up) s = true /\ cnt (bit_at (bdata up)) s = k else s = m.
Proof using All.
  intros H1 H2 G c. rewrite (rs_select1_ok up) by auto. eexists. split; [reflexivity|]. destruct (N.ltb_spec k c) as [L|L].
  - destruct (cnt_exists (bit_at (bdata up)) m k L) as (p & Hp & Hb & Hc). pose proof (bits_select_hit true up p ltac:(lia) Hb) as Es. cbn [Bool.eqb] in Es.
    rewrite Hc in Es. rewrite Es. auto.
  - rewrite select_spec_over; [now rewrite lenN_bits|]. rewrite count_bits_true, H2. exact L.
Qed.
(** An element is read right if the position found fits its high part. *)
Lemma get_any up l u k s : state n (up, l) -> k < n -> rs_select1 u k = Ok s -> s < 2 ^ 64 ->
  ef_get_rel (mkef u l (nthN 0 data 0) (nthN 0 data (n - 1)) w n) k = Ok (Some (nthN 0 data k)) <->
  (wsub (wsub s k) 1) mod 2 ^ (64 - w) = high k.
Proof using All.
  intros (_ & _ & HL & _) Hk Es Hs. unfold ef_get_rel. cbn [ef_n]. destruct (N.leb_spec n k); [lia|]. unfold ef_get_unchecked_rel. cbn [ef_upper ef_lower ef_w ef_zero].
  rewrite Es. cbn [bind]. cbn [snd] in HL. rewrite (low_any l k HL Hk). cbn [bind]. rewrite shl_lor by (auto using low_lt). set (v := wsub (wsub s k) 1).
  assert (EP : 2 ^ 64 = 2 ^ (64 - w) * 2 ^ w) by (rewrite <- N.pow_add_r; f_equal; lia).
  assert (P2 : 2 ^ (64 - w) <> 0) by now apply N.pow_nonzero. pose proof pow_nz as P1.
  assert (Ev : (v * 2 ^ w) mod 2 ^ 64 = v mod 2 ^ (64 - w) * 2 ^ w) by (rewrite EP; now apply N.mul_mod_distr_r). rewrite Ev.
  pose proof (low_lt k) as HLk. pose proof (N.mod_lt v _ P2) as Hv. set (x := v mod 2 ^ (64 - w)) in *. clearbody x.
  pose proof (dist_add k) as Ed. pose proof (dist_lt k) as Hdl. pose proof (dist_split k) as Edd. pose proof (elem_lt 0) as H0.
  assert (Hx : x * 2 ^ w + low k < 2 ^ 64) by (rewrite EP; clear - Hv HLk; nia).
  unfold wrapping_add. change U64 with (2 ^ 64). split.
  - intros E. apply (f_equal (fun r => match r with Ok (Some v) => v | _ => 0 end)) in E. cbv beta iota in E. rewrite <- Ed in E.
    assert (Eq : x * 2 ^ w + low k = distance k).
    { clear - E Hx Hdl H0. revert E Hx Hdl. generalize (x * 2 ^ w + low k) (distance k). revert H0. generalize (nthN 0 data 0). intros z Hz a b E Ha Hb.
      pose proof (N.div_mod (a + z) (2 ^ 64) ltac:(lia)). pose proof (N.div_mod (b + z) (2 ^ 64) ltac:(lia)). rewrite E in H.
      pose proof (N.mod_lt (b + z) (2 ^ 64) ltac:(lia)).
      set (q1 := (a + z) / 2 ^ 64) in *. set (q2 := (b + z) / 2 ^ 64) in *. set (r := (b + z) mod 2 ^ 64) in *. clearbody q1 q2 r. lia. }
    rewrite Edd in Eq. clear - Eq P1. apply (N.mul_cancel_r _ _ (2 ^ w)); auto. lia.
  - intros ->. rewrite <- Edd, Ed. reflexivity.
Qed.
End Any.

(** ** C131 *)
Theorem C131_from_slice data w :
  Forall (fun x => x < 2 ^ 64) data -> data <> [] -> w < 64 ->
  let n := lenN data in
  let len := 2 + n + (nthN 0 data (n - 1) + 2 ^ 64 - nthN 0 data 0) mod 2 ^ 64 / 2 ^ w in
  let pos k := ((nthN 0 data k + 2 ^ 64 - nthN 0 data 0) mod 2 ^ 64 / 2 ^ w + k + 1) mod 2 ^ 64 in
  len + 64 <= 2 ^ 64 ->
  ((exists k, k < n /\ 64 * ((len + 63) / 64) <= pos k) -> ef_from_slice_rel w data = Panic) /\
  ((forall k, k < n -> pos k < 64 * ((len + 63) / 64)) -> exists e, ef_from_slice_rel w data = Ok e).
Proof.
  intros Hd Hne Hw n len pos Hm. assert (Hn : 0 < lenN data) by (destruct data; [easy|rewrite lenN_cons; lia]).
  destruct (from_any data w Hd Hn Hw Hm) as [[(k & Hk & Hf) E]|[Hf (up & l & u & S & G & E)]].
  - split; [auto|]. intros H. specialize (H k Hk). unfold fits in Hf. apply N.ltb_ge in Hf. exfalso. apply (N.lt_irrefl (pos k)). eapply N.lt_le_trans; [exact H|exact Hf].
  - split; [|eauto]. intros (k & Hk & H). specialize (Hf k Hk). unfold fits in Hf. apply N.ltb_lt in Hf. exfalso. apply (N.lt_irrefl (pos k)). eapply N.lt_le_trans; [exact Hf|exact H].
Qed.

Lemma mod_near a b M : a mod M = b -> M <> 0 -> exists q, a = q * M + b.
Proof. intros <- H. exists (a / M). pose proof (N.div_mod a M H). lia. Qed.
Theorem C131_get data w e :
  Forall (fun x => x < 2 ^ 64) data -> data <> [] -> w < 64 -> ef_from_slice_rel w data = Ok e ->
  let n := lenN data in
  let high k := (nthN 0 data k + 2 ^ 64 - nthN 0 data 0) mod 2 ^ 64 / 2 ^ w in
  2 + n + high (n - 1) + 64 <= 2 ^ 64 -> n * w <= 2 ^ 64 -> w < 63 \/ n <= 2 ->
  (forall i, ef_get_rel e i = Ok (getN data i)) <-> (forall i j, i <= j -> j < n -> high i <= high j).
Proof.
  intros Hd Hne Hw E n hi Hm Hl H63. assert (Hn : 0 < lenN data) by (destruct data; [easy|rewrite lenN_cons; lia]). clear Hne.
  change hi with (high data w) in *. clear hi.
  destruct (from_any data w Hd Hn Hw Hm) as [[_ E']|[_ (up & l & u & S & G & E')]]; [congruence|]. rewrite E in E'. injection E' as ->.
  pose proof S as (W & Lm & HL & Hc & Hinc). cbn [fst snd] in *. subst n. set (n := lenN data) in *. set (B := high data w (n - 1)) in *. set (m := 2 + n + B) in *.
  pose proof (fun k => high_lt data w Hd Hn Hw Hm k) as Hh. set (M := 2 ^ (64 - w)) in *.
  assert (Sel : forall k, exists s, rs_select1 u k = Ok s /\ if k <? cnt (bit_at (bdata up)) m then s < m /\ bit_at (bdata up) s = true /\ cnt (bit_at (bdata up)) s = k else s = m)
    by (intros k; apply (sel_any data w Hd Hn Hw Hm Hl); auto).
  assert (Get : forall k s, k < n -> rs_select1 u k = Ok s -> s < 2 ^ 64 ->
    ef_get_rel (mkef u l (nthN 0 data 0) (nthN 0 data (n - 1)) w n) k = Ok (getN data k) <-> (wsub (wsub s k) 1) mod M = high data w k).
  { intros k s Hk Es Hs. rewrite (getN_ok 0) by auto. now apply (get_any data w Hd Hn Hw Hm Hl up). }
  assert (M2 : 2 <= M) by (subst M; pose proof (N.pow_le_mono_r 2 1 (64 - w) ltac:(lia) ltac:(lia)); lia).
  split.
  - intros HG i j Hij Hj. destruct (N.le_gt_cases n 2) as [L2|L2].
    { destruct (N.eq_dec i j) as [->|]; [lia|]. replace i with 0 by lia. rewrite (high_0 data w Hd Hn Hw Hm). lia. }
    assert (M4 : 4 <= M) by (subst M; pose proof (N.pow_le_mono_r 2 2 (64 - w) ltac:(lia) ltac:(lia)); lia).
    clear L2 H63. set (c := cnt (bit_at (bdata up)) m) in *.
    destruct (Sel (n - 1)) as (sl & Esl & Hsl).
    assert (Hsl' : wsub (wsub sl (n - 1)) 1 mod M = B).
    { apply Get; auto; [lia|]. destruct (n - 1 <? c); lia. }
    assert (HB : B < M) by apply Hh.
    destruct (N.ltb_spec (n - 1) c) as [Lc|Lc].
    2:{ exfalso. subst sl. rewrite (wsub_ge m), wsub_ge in Hsl' by (subst m; lia). apply mod_near in Hsl'; [|lia]. destruct Hsl' as (q & Eq).
        replace (m - (n - 1) - 1) with (B + 2) in Eq by (subst m; lia). assert (q * M = 2) by lia. clear - H M4. destruct (N.eq_dec q 0); nia. }
    destruct Hsl as (Ls & Bs & Cs).
    destruct (Sel 0) as (s0 & Es0 & Hs0). destruct (N.ltb_spec 0 c) as [_|]; [|lia]. destruct Hs0 as (L0 & B0 & C0).
    assert (P0 : 0 < s0).
    { destruct (N.eq_dec s0 0) as [->|]; [exfalso|lia]. pose proof (proj1 (Get 0 0 ltac:(lia) Es0 ltac:(lia)) (HG 0)) as H. rewrite (high_0 data w Hd Hn Hw Hm) in H.
      change (wsub (wsub 0 0) 1) with (2 ^ 64 - 1) in H. apply mod_near in H; [|lia]. destruct H as (q & Eq).
      assert (EP : 2 ^ 64 = M * 2 ^ w) by (subst M; rewrite <- N.pow_add_r; f_equal; lia). rewrite EP in Eq. clear - Eq M2.
      assert (1 <= 2 ^ w) by (pose proof (N.pow_nonzero 2 w); lia). set (p := 2 ^ w) in *. clearbody p. assert (p * M = q * M + 1) by nia. destruct (N.le_gt_cases p q); nia. }
    assert (Mono : forall a b s t, a <= b -> b < n -> rs_select1 u a = Ok s -> rs_select1 u b = Ok t -> s + (b - a) <= t).
    { intros a b s t Hab Hb Ea Eb. destruct (Sel a) as (s1 & E1 & H1). destruct (Sel b) as (t1 & E2 & H2).
      rewrite E1 in Ea. rewrite E2 in Eb. injection Ea as ->. injection Eb as ->.
      destruct (N.ltb_spec a c); [|lia]. destruct (N.ltb_spec b c); [|lia]. destruct H1 as (L1 & B1 & C1). destruct H2 as (L2 & B2 & C2).
      destruct (N.le_gt_cases s t) as [Lst|Lst]; [|pose proof (cnt_lt _ t s B2 Lst); lia].
      pose proof (cnt_diff_le (bit_at (bdata up)) s t Lst). lia. }
    assert (Esl2 : sl = n + B).
    { pose proof (Mono 0 (n - 1) s0 sl ltac:(lia) ltac:(lia) Es0 Esl) as H. rewrite (wsub_ge sl), wsub_ge in Hsl' by (subst m; lia).
      apply mod_near in Hsl'; [|lia]. destruct Hsl' as (q & Eq). assert (Hq : q = 0) by (clear - Eq Ls M4 HB H P0 Hn; fold n in Hn; subst m; destruct (N.eq_dec q 0); nia). lia. }
    assert (Ex : forall k, k < n -> exists s, rs_select1 u k = Ok s /\ s = high data w k + k + 1).
    { intros k Hk. destruct (Sel k) as (s & Es & _). exists s. split; [auto|].
      pose proof (Mono 0 k s0 s ltac:(lia) Hk Es0 Es) as Q1. pose proof (Mono k (n - 1) s sl ltac:(lia) ltac:(lia) Es Esl) as Q2.
      pose proof (proj1 (Get k s Hk Es ltac:(lia)) (HG k)) as H. rewrite (wsub_ge s), wsub_ge in H by lia.
      rewrite N.mod_small in H by lia. lia. }
    destruct (Ex i ltac:(lia)) as (s & Es & Hs). destruct (Ex j Hj) as (t & Et & Ht). pose proof (Mono i j s t Hij Hj Es Et). lia.
  - intros HG i. destruct (N.lt_ge_cases i n) as [L|L].
    2:{ unfold ef_get_rel. cbn [ef_n]. destruct (N.leb_spec n i); [|lia]. now rewrite getN_none. }
    assert (Pl : forall k, k < n -> place data w k = high data w k + k + 1).
    { intros k Hk. unfold place. apply N.mod_small. pose proof (HG k (n - 1) ltac:(lia) ltac:(lia)) as H. fold B in H. lia. }
    assert (Inc : forall a b, a < b -> b < n -> place data w a < place data w b).
    { intros a b Hab Hb. rewrite !Pl by lia. pose proof (HG a b ltac:(lia) Hb). lia. }
    specialize (Hinc Inc). pose proof (HG i (n - 1) ltac:(lia) ltac:(lia)) as Hi. fold B in Hi.
    assert (Es : rs_select1 u i = Ok (high data w i + i + 1)).
    { rewrite <- Pl by auto. rewrite (rs_select1_ok up) by auto. assert (Hp : place data w i < m) by (rewrite Pl by auto; subst m; lia).
      assert (Hb : bit_at (bdata up) (place data w i) = true) by (apply Hinc; eauto).
      pose proof (bits_select_hit true up (place data w i) ltac:(lia) Hb) as Es. cbn [Bool.eqb] in Es.
      rewrite (cnt_image (place data w) (bit_at (bdata up)) n m Inc Hinc) in Es by lia.
      rewrite (cnt_ext _ (fun j => j <? i)), cnt_below in Es; [now rewrite Es|lia|].
      intros k Hk. destruct (N.lt_trichotomy k i) as [T|[T|T]]; [pose proof (Inc k i T L); lia|subst; lia|pose proof (Inc i k T Hk); lia]. }
    apply (Get i _ L Es); [lia|]. rewrite (wsub_ge _ i), wsub_ge by lia. replace (high data w i + i + 1 - i - 1) with (high data w i) by lia. apply N.mod_small, Hh.
Qed.

Theorem C131_sorted data w :
  nondecreasing data -> Forall (fun x => x < 2 ^ 64) data -> w < 64 ->
  2 + lenN data + (nthN 0 data (lenN data - 1) - nthN 0 data 0) / 2 ^ w + 64 <= 2 ^ 64 ->
  ef_from_slice_rel w data = ef_from_slice w data.
Proof.
  intros Hs Hd Hw Hm. unfold ef_from_slice_rel, ef_from_slice. destruct (N.eqb_spec (lenN data) 0) as [|Hn]; [auto|]. assert (Hne : 0 < lenN data) by lia.
  rewrite (assert_true (windows_sorted data)) by now apply nondecreasing_windows. cbn [bind]. rewrite !(idx_ok 0) by lia. cbn [bind].
  pose proof (nondecreasing_nth data Hs 0 (lenN data - 1) ltac:(lia) ltac:(lia)) as H0.
  pose proof (data_lt data w Hs Hd Hne Hw (lenN data - 1) ltac:(lia)) as Hlast. change U64 with (2 ^ 64) in Hlast.
  rewrite sub_ok by auto. cbn [bind]. rewrite wsub_ge by auto. rewrite N.shiftr_div_pow2.
  change ((nthN 0 data (lenN data - 1) - nthN 0 data 0) / 2 ^ w) with (eU data w (lenN data - 1)) in *.
  rewrite (wadd_lt 2), wadd_lt by lia. destruct (assert (w <? 64)); cbn [bind]; auto.
  rewrite (combine_range 0), !forM_map. f_equal. apply forM_ext_in. intros [up l] i Hi. apply In_range in Hi. unfold ef_push_rel, ef_push.
  pose proof (nondecreasing_nth data Hs 0 i ltac:(lia) ltac:(lia)) as H1. pose proof (data_lt data w Hs Hd Hne Hw i ltac:(lia)) as Hx. change U64 with (2 ^ 64) in Hx.
  rewrite sub_ok by auto. cbn [bind]. rewrite wsub_ge by auto. rewrite N.shiftr_div_pow2.
  pose proof (eU_mono data w Hs Hd Hne Hw i (lenN data - 1) ltac:(lia) ltac:(lia)) as Hu.
  change ((nthN 0 data i - nthN 0 data 0) / 2 ^ w) with (eU data w i).
  rewrite (wadd_lt (eU data w i)), wadd_lt by lia. reflexivity.
Qed.

(** 9 and 8 share a bucket: both are read right, but the successor of 9 is said to be 30. The bits of 30 and 7 fall on the
    same place and cancel: no element but the first is read right. Two decreasing elements are stored right with the width
    chosen for them, and 200 does not fit between 0 and 1. *)
Definition ex_swapped : list N := [7; 9; 8; 30].
Definition ex_swappedv : ef := match ef_from_slice_rel 4 ex_swapped with Ok e => e | _ => ef_dummy end.
Definition ex_back : list N := [0; 30; 7; 35].
Definition ex_backv : ef := match ef_from_slice_rel 4 ex_back with Ok e => e | _ => ef_dummy end.
Definition ex_down : list N := [5; 4].
Definition ex_downv : ef := match ef_from_slice_rel 63 ex_down with Ok e => e | _ => ef_dummy end.
Example C131_ex :
  ef_from_slice 4 ex_swapped = Panic /\ ef_from_slice_rel 4 ex_swapped = Ok ex_swappedv /\
  map (ef_get_rel ex_swappedv) [0; 1; 2; 3] = [Ok (Some 7); Ok (Some 9); Ok (Some 8); Ok (Some 30)] /\
  ef_successor_rel ex_swappedv 9 = Ok (Some 30) /\ ef_rank_rel ex_swappedv 9 = Ok 1 /\
  ef_from_slice_rel 4 ex_back = Ok ex_backv /\
  map (ef_get_rel ex_backv) [0; 1; 2; 3] = [Ok (Some 0); Ok (Some 78); Ok (Some 87); Ok (Some 67)] /\
  ef_from_slice_rel 63 ex_down = Ok ex_downv /\ map (ef_get_rel ex_downv) [0; 1; 2] = [Ok (Some 5); Ok (Some 4); Ok None] /\
  ef_width [0; 200; 1] = 1 /\ ef_from_slice_rel 1 [0; 200; 1] = Panic.
Proof. vm_compute. repeat split. Qed.
(** With a width of 63, which [from_slice] never chooses for three elements, the bits of the last two cancel and yet all are read right. *)
Definition ex_cancel : list N := [0; 2 ^ 63; 1].
Definition ex_cancelv : ef := match ef_from_slice_rel 63 ex_cancel with Ok e => e | _ => ef_dummy end.
Example C131_width_ex :
  ef_width ex_cancel = 1 /\ ef_from_slice_rel 63 ex_cancel = Ok ex_cancelv /\
  map (ef_get_rel ex_cancelv) [0; 1; 2] = [Ok (Some 0); Ok (Some (2 ^ 63)); Ok (Some 1)].
Proof. vm_compute. repeat split. Qed.
