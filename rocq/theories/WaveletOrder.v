(** * Wavelet matrix: order statistics, predecessor and successor over the encoded words. *)
From Verif Require Import Base Spec BaseFacts WordFacts BitVecModel BitVecProofs BitVecProofs2 RsVecModel IterFacts WaveletModel WaveletProofs.

(** Numerical value of a word (most significant bit first). *)
Fixpoint mval (w : word) : N :=
  match w with
  | [] => 0
  | b :: r => bitN b * 2 ^ lenN r + mval r
  end.
Lemma mval_lt w : mval w < 2 ^ lenN w.
Proof.
  induction w as [|b w IH]; [reflexivity|]. cbn [mval]. rewrite lenN_cons', N.pow_add_r. change (2 ^ 1) with 2. destruct b; cbn [bitN]; nia.
Qed.
Lemma mval_inj v w : lenN v = lenN w -> mval v = mval w -> v = w.
Proof.
  revert w. induction v as [|b v IH]; intros [|c w] Hl H; auto; try (unfold lenN in Hl; cbn in Hl; lia).
  rewrite !lenN_cons' in Hl. cbn [mval] in H. assert (El : lenN v = lenN w) by lia. pose proof (mval_lt v). pose proof (mval_lt w).
  rewrite El in *. assert (b = c /\ mval v = mval w) as [-> Hv]; [|f_equal; auto].
  destruct b, c; cbn [bitN] in H; split; auto; nia.
Qed.
Lemma mval_snoc w b : mval (w ++ [b]) = 2 * mval w + bitN b.
Proof.
  induction w as [|c w IH]; cbn [app mval].
  - change (2 ^ lenN (@nil bool)) with 1. lia.
  - rewrite IH, lenN_app'. change (lenN [b]) with 1. rewrite N.pow_add_r. change (2 ^ 1) with 2. nia.
Qed.
Lemma mval_value w : mval w = value (rev w).
Proof.
  induction w as [|b w IH] using rev_ind; [reflexivity|]. rewrite mval_snoc, rev_app_distr. cbn [rev app value]. rewrite IH. destruct b; cbn [bitN]; lia.
Qed.

Definition below (v : word) (S : list word) : N := lenN (filter (fun w => mval w <? mval v) S).
Definition upto (v : word) (S : list word) : N := lenN (filter (fun w => mval w <=? mval v) S).

Definition uniform (m : N) (S : list word) : Prop := Forall (fun w => lenN w = m) S.
Lemma uniform_sel b m S : uniform (m + 1) S -> uniform m (sel b S).
Proof.
  intros H. unfold uniform, sel in *. rewrite Forall_forall in *. intros w Hw. apply in_map_iff in Hw as (x & <- & Hx).
  apply filter_In in Hx as [Hx _]. specialize (H x Hx). destruct x as [|b' x]; [unfold lenN in H; cbn in H; lia|]. rewrite lenN_cons' in H. cbn [tl]. lia.
Qed.
Lemma filter_cons_len {A} (f : A -> bool) x l : lenN (filter f (x :: l)) = (if f x then 1 else 0) + lenN (filter f l).
Proof. cbn [filter]. destruct (f x); [rewrite lenN_cons'|]; lia. Qed.
Lemma count_below (cmp : N -> N -> bool) b v S :
  (forall x y z, cmp (z + x) (z + y) = cmp x y) -> (forall x y, x < y -> cmp x y = true) -> (forall x y, y < x -> cmp x y = false) ->
  uniform (lenN v + 1) S ->
  lenN (filter (fun w => cmp (mval w) (mval (b :: v))) S) =
    (if b then lenN (sel false S) else 0) + lenN (filter (fun w => cmp (mval w) (mval v)) (sel b S)).
Proof.
  intros Hadd Hlt Hgt. induction S as [|x S IH]; intros H; [now destruct b|].
  inversion H as [|y T Hx HT]; subst. specialize (IH HT). destruct x as [|c x]; [unfold lenN in Hx; cbn in Hx; lia|].
  rewrite lenN_cons' in Hx. assert (El : lenN x = lenN v) by lia. rewrite filter_cons_len, IH, !sel_cons. cbn [hdb hd tl].
  cbn [mval]. rewrite El. pose proof (mval_lt v). pose proof (mval_lt x). rewrite El in *.
  destruct b, c; cbn [Bool.eqb bitN]; rewrite ?filter_cons_len, ?lenN_cons'.
  - rewrite Hadd. lia.
  - rewrite Hlt by lia. lia.
  - rewrite Hgt by lia. lia.
  - replace (0 * 2 ^ lenN v) with 0 by lia. rewrite !N.add_0_l. lia.
Qed.
Lemma below_cons b v S : uniform (lenN v + 1) S ->
  below (b :: v) S = (if b then lenN (sel false S) else 0) + below v (sel b S).
Proof.
  intros H. unfold below. apply (count_below N.ltb); auto.
  - intros. destruct (N.ltb_spec (z + x) (z + y)), (N.ltb_spec x y); auto; lia.
  - intros. now apply N.ltb_lt.
  - intros. apply N.ltb_ge. lia.
Qed.
Lemma upto_cons b v S : uniform (lenN v + 1) S ->
  upto (b :: v) S = (if b then lenN (sel false S) else 0) + upto v (sel b S).
Proof.
  intros H. unfold upto. apply (count_below N.leb); auto.
  - intros. destruct (N.leb_spec (z + x) (z + y)), (N.leb_spec x y); auto; lia.
  - intros. apply N.leb_le. lia.
  - intros. apply N.leb_gt. lia.
Qed.
Lemma In_sel b v S : Forall (fun w => w <> []) S -> (In v (sel b S) <-> In (b :: v) S).
Proof.
  intros H. unfold sel. rewrite in_map_iff. split.
  - intros (x & <- & Hx). apply filter_In in Hx as [Hx Hb]. rewrite Forall_forall in H. specialize (H x Hx). destruct x as [|c x]; [congruence|].
    cbn in *. apply Bool.eqb_prop in Hb. now subst.
  - intros Hv. exists (b :: v). split; auto. apply filter_In. split; auto. cbn. apply Bool.eqb_reflx.
Qed.

Lemma lenN_sel_le b S : lenN (sel b S) <= lenN S.
Proof. pose proof (lenN_sel_split S). destruct b; lia. Qed.
Lemma rank0_ok2 d S1 S2 S3 : level_ok d (map hdb (S1 ++ S2 ++ S3)) ->
  rs_rank0 d (lenN S1) = Ok (lenN (sel false S1)) /\
  rs_rank0 d (lenN S1 + lenN S2) = Ok (lenN (sel false S1) + lenN (sel false S2)).
Proof. intros H. rewrite !(lv_r0 _ _ H), rank_sel, rank_sel2. auto. Qed.
Lemma one_bounds d S1 S2 S3 : level_ok d (map hdb (S1 ++ S2 ++ S3)) ->
  sub (lenN S1) (lenN (sel false S1)) = Ok (lenN (sel true S1)) /\
  sub (lenN S1 + lenN S2) (lenN (sel false S1) + lenN (sel false S2)) = Ok (lenN (sel true S1) + lenN (sel true S2)) /\
  rrank0 d + lenN (sel true S1) = lenN (pre true (S1 ++ S2 ++ S3) S1) /\
  rrank0 d + (lenN (sel true S1) + lenN (sel true S2)) = lenN (pre true (S1 ++ S2 ++ S3) S1) + lenN (sel true S2).
Proof.
  intros H. pose proof (lenN_sel_split S1). pose proof (lenN_sel_split S2).
  rewrite (sub_ok (lenN S1)), (sub_ok (lenN S1 + lenN S2)) by lia. unfold pre. rewrite lenN_app', (lv_rank0 _ _ H), count_sel.
  split; [f_equal; lia|]. split; [f_equal; lia|]. split; lia.
Qed.

Definition is_pred (S : list word) (s v : word) : Prop :=
  In v S /\ mval v <= mval s /\ forall u, In u S -> mval u <= mval s -> mval u <= mval v.
Definition is_succ (S : list word) (s v : word) : Prop :=
  In v S /\ mval s <= mval v /\ forall u, In u S -> mval s <= mval u -> mval v <= mval u.

Lemma upto_all v S : lenN S <= upto v S -> forall u, In u S -> mval u <= mval v.
Proof.
  unfold upto. induction S as [|x S IH]; intros H u Hu; [destruct Hu|]. rewrite filter_cons_len, lenN_cons' in H.
  assert (Hle : lenN (filter (fun w => mval w <=? mval v) S) <= lenN S).
  { clear. induction S as [|y S IH]; [reflexivity|]. rewrite filter_cons_len, lenN_cons'. destruct (_ <=? _); lia. }
  destruct (N.leb_spec (mval x) (mval v)); [|lia]. destruct Hu as [->|Hu]; auto. apply IH; auto. lia.
Qed.
Lemma below_none v S : below v S = 0 -> forall u, In u S -> mval v <= mval u.
Proof.
  unfold below. induction S as [|x S IH]; intros H u Hu; [destruct Hu|]. rewrite filter_cons_len in H.
  destruct (N.ltb_spec (mval x) (mval v)); [lia|]. destruct Hu as [->|Hu]; auto.
Qed.
Lemma skipn_S {A} (l : list A) i x r : skipn i l = x :: r -> skipn (S i) l = r.
Proof. revert i. induction l as [|y l IH]; intros [|i] H; cbn in *; try congruence. apply IH, H. Qed.
Lemma mval_cmp b c v u : lenN v = lenN u -> mval (b :: v) <= mval (c :: u) <->
  match b, c with false, true => True | true, false => False | _, _ => mval v <= mval u end.
Proof. intros H. cbn [mval]. rewrite H. pose proof (mval_lt v). pose proof (mval_lt u). rewrite H in *. destruct b, c; cbn [bitN]; split; intros; try tauto; nia. Qed.

Section Order.
Context {T : Type}.
Variable K : N.
Variable Rep : word -> T -> Prop.
Variable wr wrq : N -> N -> T -> res T.
Hypothesis Hwr : forall b p t, Rep p t -> lenN p < K -> exists t', wr (bitN b) (lenN p) t = Ok t' /\ Rep (p ++ [b]) t'.
Hypothesis Hwrq : forall b p t, Rep p t -> lenN p < K -> exists t', wrq (bitN b) (lenN p) t = Ok t' /\ Rep (p ++ [b]) t'.

Lemma quantile_loop_ok ds : forall p S1 S2 S3 k t,
  enc ds (S1 ++ S2 ++ S3) -> lenN p + lenN ds = K -> Rep p t -> k < lenN S2 ->
  exists v t', wm_quantile_loop wrq ds (lenN p) (lenN S1) (lenN S1 + lenN S2) k t = Ok t' /\ Rep (p ++ v) t' /\
    In v S2 /\ below v S2 <= k /\ k < upto v S2.
Proof using Hwr Hwrq.
  induction ds as [|d ds IH]; intros p S1 S2 S3 k t H Hp Hr Hk; cbn [wm_quantile_loop enc] in *.
  - assert (H2 : Forall (fun w : word => w = []) S2) by (apply Forall_app in H as [_ H]; now apply Forall_app in H as [H _]).
    exists [], t. split; [reflexivity|]. rewrite app_nil_r. split; [auto|].
    assert (E : forall f : word -> bool, filter f S2 = if f [] then S2 else []).
    { intros f. clear -H2. induction H2 as [|x l Hx Hl IH]; [now destruct (f [])|]. subst x. cbn [filter]. rewrite IH. now destruct (f []). }
    unfold below, upto. rewrite !E. cbn [mval N.ltb N.leb N.compare]. split.
    + destruct S2 as [|x S2]; [unfold lenN in Hk; cbn in Hk; lia|]. inversion H2; subst. now left.
    + change (lenN (@nil word)) with 0. lia.
  - pose proof (enc_length (d :: ds) _ H) as Hu. destruct H as (Hn & Hl & H). rewrite lenN_cons' in Hp.
    assert (Hu2 : uniform (lenN ds + 1) S2).
    { rewrite lenN_cons' in Hu. apply Forall_app in Hu as [_ Hu]. now apply Forall_app in Hu as [Hu _]. }
    assert (Hn2 : Forall (fun w => w <> []) S2).
    { apply Forall_app in Hn as [_ Hn]. now apply Forall_app in Hn as [Hn _]. }
    destruct (rank0_ok2 d S1 S2 S3 Hl) as [-> ->]. cbn [bind]. rewrite (sub_ok (lenN (sel false S1) + lenN (sel false S2))) by lia. cbn [bind].
    replace (lenN (sel false S1) + lenN (sel false S2) - lenN (sel false S1)) with (lenN (sel false S2)) by lia.
    assert (Hlen : lenN (p ++ [false]) = lenN p + 1 /\ lenN (p ++ [true]) = lenN p + 1) by (rewrite !lenN_app'; auto).
    assert (Hstep : forall b k', k' < lenN (sel b S2) -> k = (if b then lenN (sel false S2) else 0) + k' ->
      forall t', Rep (p ++ [b]) t' ->
      exists v t'', wm_quantile_loop wrq ds (lenN p + 1) (lenN (pre b (S1 ++ S2 ++ S3) S1)) (lenN (pre b (S1 ++ S2 ++ S3) S1) + lenN (sel b S2)) k' t' = Ok t'' /\
        Rep (p ++ v) t'' /\ In v S2 /\ below v S2 <= k /\ k < upto v S2).
    { intros b k' Hk' Ek t' Ht'. rewrite (part_b b) in H.
      destruct (IH (p ++ [b]) _ _ _ k' t' H) as (v & t'' & E & HR & Hin & Hb & Hup); auto.
      { rewrite lenN_app'. change (lenN [b]) with 1. lia. }
      rewrite lenN_app' in E. change (lenN [b]) with 1 in E. rewrite E. exists (b :: v), t''. split; [reflexivity|].
      rewrite <- app_assoc in HR. split; [exact HR|]. split; [now apply In_sel|].
      assert (Hv : lenN v = lenN ds).
      { pose proof (uniform_sel b _ _ Hu2) as Hs. unfold uniform in Hs. rewrite Forall_forall in Hs. now apply Hs. }
      rewrite below_cons, upto_cons by (rewrite Hv; auto). lia. }
    destruct (N.ltb_spec k (lenN (sel false S2))) as [Hlt|Hge].
    + destruct (Hwrq false p t Hr) as (t' & Et & Ht); [lia|]. cbn [bitN] in Et. rewrite Et. cbn [bind]. apply (Hstep false k); auto; lia.
    + destruct (Hwrq true p t Hr) as (t' & Et & Ht); [lia|]. cbn [bitN] in Et. rewrite Et. cbn [bind]. rewrite (sub_ok k) by lia. cbn [bind].
      destruct (one_bounds d S1 S2 S3 Hl) as (-> & -> & E1 & E2). cbn [bind]. rewrite E1, E2. pose proof (lenN_sel_split S2).
      apply (Hstep true); auto; lia.
Qed.

(** The quantile function used by predecessor and successor searches the levels from [level] on. *)
Variable w : wavelet.
Variable n : N.
Variable quantile : N -> N -> N -> N -> T -> res T.
Hypothesis HK : lenN w = K.
Hypothesis Hq : forall level p S1 S2 S3 k t,
  level = lenN p -> enc (skipn (N.to_nat level) w) (S1 ++ S2 ++ S3) -> lenN (S1 ++ S2 ++ S3) = n -> level <= K -> Rep p t -> k < lenN S2 ->
  exists v t', quantile (lenN S1) (lenN S1 + lenN S2) k level t = Ok t' /\ Rep (p ++ v) t' /\
    In v S2 /\ below v S2 <= k /\ k < upto v S2.

Lemma quantile_max level p S1 S2 S3 t :
  level = lenN p -> enc (skipn (N.to_nat level) w) (S1 ++ S2 ++ S3) -> lenN (S1 ++ S2 ++ S3) = n -> level <= K -> Rep p t -> 0 < lenN S2 ->
  exists v t', quantile (lenN S1) (lenN S1 + lenN S2) (lenN S2 - 1) level t = Ok t' /\ Rep (p ++ v) t' /\
    In v S2 /\ forall u, In u S2 -> mval u <= mval v.
Proof using HK Hq Hwr Hwrq.
  intros. destruct (Hq level p S1 S2 S3 (lenN S2 - 1) t) as (v & t' & E & HR & Hin & _ & Hu); auto; [lia|].
  exists v, t'. repeat (split; auto). apply upto_all. lia.
Qed.
Lemma quantile_min level p S1 S2 S3 t :
  level = lenN p -> enc (skipn (N.to_nat level) w) (S1 ++ S2 ++ S3) -> lenN (S1 ++ S2 ++ S3) = n -> level <= K -> Rep p t -> 0 < lenN S2 ->
  exists v t', quantile (lenN S1) (lenN S1 + lenN S2) 0 level t = Ok t' /\ Rep (p ++ v) t' /\
    In v S2 /\ forall u, In u S2 -> mval v <= mval u.
Proof using HK Hq Hwr Hwrq.
  intros. destruct (Hq level p S1 S2 S3 0 t) as (v & t' & E & HR & Hin & Hb & _); auto.
  exists v, t'. repeat (split; auto). apply below_none. lia.
Qed.

(** What the search returns if the current interval has no suitable element. *)
Definition pred_fb (fb : option (N * N * N * T)) : res (option T) :=
  match fb with
  | None => Ok None
  | Some (l, ra, rb, prefix) =>
      let* m := sub rb ra in
      let* i := sub m 1 in
      let* prefix := wr 0 l prefix in
      let* v := quantile ra rb i (l + 1) prefix in
      Ok (Some v)
  end.
Definition succ_fb (fb : option (N * N * N * T)) : res (option T) :=
  match fb with
  | None => Ok None
  | Some (l, ra, rb, prefix) =>
      let* prefix := wr 1 l prefix in
      let* v := quantile ra rb 0 (l + 1) prefix in
      Ok (Some v)
  end.

Section Step.
Variables (rd : N -> res N).

Lemma pred_loop_ok ds : forall p s S1 S2 S3 t fb,
  skipn (length p) w = ds -> enc ds (S1 ++ S2 ++ S3) -> lenN (S1 ++ S2 ++ S3) = n -> lenN p + lenN ds = K ->
  Rep p t -> 0 < lenN S2 -> lenN s = lenN ds -> reads rd (lenN p) s ->
  (exists v t', is_pred S2 s v /\ wm_pred_loop rd wr quantile ds (lenN p) (lenN S1) (lenN S1 + lenN S2) t fb = Ok (Some t') /\ Rep (p ++ v) t') \/
  ((forall u, In u S2 -> mval s < mval u) /\ wm_pred_loop rd wr quantile ds (lenN p) (lenN S1) (lenN S1 + lenN S2) t fb = pred_fb fb).
Proof using HK Hq Hwr Hwrq.
  induction ds as [|d ds IH]; intros p s S1 S2 S3 t fb Hsk H Hlen Hp Hr Hne Hs Hrd; cbn [wm_pred_loop] in *.
  - left. cbn [enc] in H. destruct s; [|unfold lenN in Hs; cbn in Hs; lia].
    assert (H2 : Forall (fun w : word => w = []) S2) by (apply Forall_app in H as [_ H]; now apply Forall_app in H as [H _]).
    exists [], t. rewrite app_nil_r. split; [|auto]. destruct S2 as [|x S2]; [unfold lenN in Hne; cbn in Hne; lia|]. inversion H2 as [|? ? Hx HS]; subst.
    split; [now left|]. split; [reflexivity|]. intros u Hu _. rewrite Forall_forall in H2. now rewrite (H2 u Hu).
  - pose proof (enc_length (d :: ds) _ H) as Hu. pose proof H as Henc. cbn [enc] in H. destruct H as (Hn & Hl & H). rewrite lenN_cons' in Hp, Hs.
    destruct s as [|b s]; [unfold lenN in Hs; cbn in Hs; lia|]. rewrite lenN_cons' in Hs.
    apply reads_cons in Hrd as [Hb Hrd]. rewrite Hb. cbn [bind].
    assert (Hu2 : uniform (lenN ds + 1) S2).
    { rewrite lenN_cons' in Hu. apply Forall_app in Hu as [_ Hu]. now apply Forall_app in Hu as [Hu _]. }
    assert (Hn2 : Forall (fun w => w <> []) S2).
    { apply Forall_app in Hn as [_ Hn]. now apply Forall_app in Hn as [Hn _]. }
    assert (Hul : forall c u, In (c :: u) S2 -> lenN u = lenN s).
    { intros c u Hin. unfold uniform in Hu2. rewrite Forall_forall in Hu2. specialize (Hu2 _ Hin). rewrite lenN_cons' in Hu2. lia. }
    assert (Hul2 : forall c u c' u', In (c :: u) S2 -> In (c' :: u') S2 -> lenN u = lenN u') by (intros c u c' u' Ha Hc; now rewrite (Hul _ _ Ha), (Hul _ _ Hc)).
    assert (Hcons : forall u, In u S2 -> exists c u', u = c :: u').
    { intros u Hin. rewrite Forall_forall in Hn2. specialize (Hn2 _ Hin). destruct u as [|c u]; [congruence|]. eauto. }
    destruct (rank0_ok2 d S1 S2 S3 Hl) as [-> ->]. cbn [bind]. rewrite (sub_ok (lenN (sel false S1) + lenN (sel false S2))) by lia. cbn [bind].
    replace (lenN (sel false S1) + lenN (sel false S2) - lenN (sel false S1)) with (lenN (sel false S2)) by lia.
    pose proof (skipn_S _ _ _ _ Hsk) as Hsk'.
    assert (Hsel : forall c u, In u (sel c S2) -> In (c :: u) S2) by (intros; now apply In_sel).
    assert (Hemp : forall c, lenN (sel c S2) = 0 -> forall u, In (c :: u) S2 -> False).
    { intros c Hc u Hin. apply In_sel in Hin; auto. destruct (sel c S2); [destruct Hin|]. rewrite lenN_cons' in Hc. lia. }
    destruct b; cbn [bitN N.eqb Pos.eqb].
    + rewrite (sub_ok _ (lenN S1)) by lia. cbn [bind]. replace (lenN S1 + lenN S2 - lenN S1) with (lenN S2) by lia.
      pose proof (lenN_sel_split S2) as Hspl. destruct (N.eqb_spec (lenN (sel false S2)) (lenN S2)) as [Hall|Hsome].
      * left. rewrite (sub_ok (lenN S2)) by lia. cbn [bind].
        destruct (quantile_max (lenN p) p S1 S2 S3 t) as (v & t' & E & HR & Hin & Hmax); auto; try lia.
        { unfold lenN at 1. rewrite Nat2N.id, Hsk. exact Henc. }
        rewrite E. cbn [bind]. exists v, t'. split; [|auto]. split; [auto|]. split; [|auto].
        destruct (Hcons v Hin) as (c & v' & ->). destruct c; [exfalso; eapply (Hemp true); eauto; lia|].
        rewrite mval_cmp by eauto. auto.
      * destruct (Hwr true p t Hr) as (t' & Et & Ht); [lia|]. cbn [bitN] in Et.
        destruct (one_bounds d S1 S2 S3 Hl) as (E1 & E2 & E3 & E4).
        set (fb' := if lenN (sel false S1) <? lenN (sel false S1) + lenN (sel false S2) then Some (lenN p, lenN (sel false S1), lenN (sel false S1) + lenN (sel false S2), t) else fb).
        rewrite Et, E1, E2. cbn [bind]. rewrite E3, E4. pose proof H as H1. rewrite (part_b true) in H1.
        destruct (IH (p ++ [true]) s _ _ _ t' fb' ltac:(rewrite app_length; cbn [length]; now rewrite Nat.add_1_r) H1) as [(v & t'' & Hpv & Ev & HR)|(Hno & Ev)]; auto.
        { rewrite <- part_b, lenN_part. auto. }
        { rewrite lenN_app'. change (lenN [true]) with 1. lia. }
        { lia. }
        { lia. }
        { rewrite lenN_app'. exact Hrd. }
        { left. rewrite lenN_app' in Ev. change (lenN [true]) with 1 in Ev. rewrite Ev. exists (true :: v), t''. split; [|split; [reflexivity|now rewrite <- app_assoc in HR]].
          destruct Hpv as (Hin & Hle & Hmx). split; [auto|]. split; [rewrite mval_cmp by eauto; auto|].
          intros u Hu' Hle'. destruct (Hcons u Hu') as (c & u' & ->). rewrite mval_cmp in Hle' by eauto. rewrite mval_cmp by (eapply Hul2; eauto).
          destruct c; auto. apply Hmx; auto. now apply In_sel. }
        { rewrite lenN_app' in Ev. change (lenN [true]) with 1 in Ev. rewrite Ev. unfold fb'.
          destruct (N.ltb_spec (lenN (sel false S1)) (lenN (sel false S1) + lenN (sel false S2))) as [Hz|Hz].
          - left. cbn [pred_fb]. rewrite (sub_ok _ (lenN (sel false S1))) by lia. cbn [bind].
            replace (lenN (sel false S1) + lenN (sel false S2) - lenN (sel false S1)) with (lenN (sel false S2)) by lia. rewrite (sub_ok _ 1) by lia. cbn [bind].
            destruct (Hwr false p t Hr) as (t0 & Et0 & Ht0); [lia|]. cbn [bitN] in Et0. rewrite Et0. cbn [bind].
            pose proof H as H0. rewrite (part_b false) in H0.
            destruct (quantile_max (lenN p + 1) (p ++ [false]) (pre false (S1 ++ S2 ++ S3) S1) (sel false S2) (post false (S1 ++ S2 ++ S3) S3) t0) as (v & t2 & E & HR & Hin & Hmax); auto; try lia.
            { rewrite lenN_app'. reflexivity. }
            { unfold lenN. replace (N.to_nat (N.of_nat (length p) + 1)) with (S (length p)) by lia. now rewrite Hsk'. }
            { rewrite <- part_b, lenN_part. auto. }
            cbn [pre] in E. rewrite E. cbn [bind]. exists (false :: v), t2. split; [|split; [reflexivity|now rewrite <- app_assoc in HR]].
            split; [auto|]. split; [rewrite mval_cmp by eauto; auto|]. intros u Hu' Hle'. destruct (Hcons u Hu') as (c & u' & ->).
            rewrite mval_cmp in Hle' by eauto. destruct c.
            + exfalso. specialize (Hno u' ltac:(now apply In_sel)). lia.
            + rewrite mval_cmp by (eapply Hul2; eauto). apply Hmax. now apply In_sel.
          - right. split; [|reflexivity]. intros u Hu'. destruct (Hcons u Hu') as (c & u' & ->). destruct c; [|exfalso; eapply (Hemp false); eauto; lia].
            apply N.lt_nge. rewrite mval_cmp by eauto. specialize (Hno u' ltac:(now apply In_sel)). lia. }
    + destruct (N.eqb_spec (lenN (sel false S2)) 0) as [Hz|Hz].
      * right. split; [|reflexivity]. intros u Hu'. destruct (Hcons u Hu') as (c & u' & ->). destruct c; [|exfalso; eapply (Hemp false); eauto].
        apply N.lt_nge. rewrite mval_cmp by eauto. auto.
      * destruct (Hwr false p t Hr) as (t' & Et & Ht); [lia|]. cbn [bitN] in Et. rewrite Et. cbn [bind].
        pose proof H as H0. rewrite (part_b false) in H0. change (lenN (sel false S1)) with (lenN (pre false (S1 ++ S2 ++ S3) S1)).
        destruct (IH (p ++ [false]) s _ _ _ t' fb ltac:(rewrite app_length; cbn [length]; now rewrite Nat.add_1_r) H0) as [(v & t'' & Hpv & Ev & HR)|(Hno & Ev)]; auto.
        { rewrite <- part_b, lenN_part. auto. }
        { rewrite lenN_app'. change (lenN [false]) with 1. lia. }
        { lia. }
        { lia. }
        { rewrite lenN_app'. exact Hrd. }
        { left. rewrite lenN_app' in Ev. change (lenN [false]) with 1 in Ev. rewrite Ev. exists (false :: v), t''. split; [|split; [reflexivity|now rewrite <- app_assoc in HR]].
          destruct Hpv as (Hin & Hle & Hmx). split; [auto|]. split; [rewrite mval_cmp by eauto; auto|].
          intros u Hu' Hle'. destruct (Hcons u Hu') as (c & u' & ->). rewrite mval_cmp in Hle' by eauto. destruct c; [tauto|].
          rewrite mval_cmp by (eapply Hul2; eauto). apply Hmx; auto. now apply In_sel. }
        { right. rewrite lenN_app' in Ev. change (lenN [false]) with 1 in Ev. rewrite Ev. split; [|reflexivity].
          intros u Hu'. destruct (Hcons u Hu') as (c & u' & ->). apply N.lt_nge. rewrite mval_cmp by eauto. destruct c; auto.
          specialize (Hno u' ltac:(now apply In_sel)). lia. }
Qed.

Lemma succ_loop_ok ds : forall p s S1 S2 S3 t fb,
  skipn (length p) w = ds -> enc ds (S1 ++ S2 ++ S3) -> lenN (S1 ++ S2 ++ S3) = n -> lenN p + lenN ds = K ->
  Rep p t -> 0 < lenN S2 -> lenN s = lenN ds -> reads rd (lenN p) s ->
  (exists v t', is_succ S2 s v /\ wm_succ_loop rd wr quantile ds (lenN p) (lenN S1) (lenN S1 + lenN S2) t fb = Ok (Some t') /\ Rep (p ++ v) t') \/
  ((forall u, In u S2 -> mval u < mval s) /\ wm_succ_loop rd wr quantile ds (lenN p) (lenN S1) (lenN S1 + lenN S2) t fb = succ_fb fb).
Proof using HK Hq Hwr Hwrq.
  induction ds as [|d ds IH]; intros p s S1 S2 S3 t fb Hsk H Hlen Hp Hr Hne Hs Hrd; cbn [wm_succ_loop] in *.
  - left. cbn [enc] in H. destruct s; [|unfold lenN in Hs; cbn in Hs; lia].
    assert (H2 : Forall (fun w : word => w = []) S2) by (apply Forall_app in H as [_ H]; now apply Forall_app in H as [H _]).
    exists [], t. rewrite app_nil_r. split; [|auto]. destruct S2 as [|x S2]; [unfold lenN in Hne; cbn in Hne; lia|]. inversion H2 as [|? ? Hx HS]; subst.
    split; [now left|]. split; [reflexivity|]. intros u Hu _. rewrite Forall_forall in H2. now rewrite (H2 u Hu).
  - pose proof (enc_length (d :: ds) _ H) as Hu. pose proof H as Henc. cbn [enc] in H. destruct H as (Hn & Hl & H). rewrite lenN_cons' in Hp, Hs.
    destruct s as [|b s]; [unfold lenN in Hs; cbn in Hs; lia|]. rewrite lenN_cons' in Hs.
    apply reads_cons in Hrd as [Hb Hrd]. rewrite Hb. cbn [bind].
    assert (Hu2 : uniform (lenN ds + 1) S2).
    { rewrite lenN_cons' in Hu. apply Forall_app in Hu as [_ Hu]. now apply Forall_app in Hu as [Hu _]. }
    assert (Hn2 : Forall (fun w => w <> []) S2).
    { apply Forall_app in Hn as [_ Hn]. now apply Forall_app in Hn as [Hn _]. }
    assert (Hul : forall c u, In (c :: u) S2 -> lenN u = lenN s).
    { intros c u Hin. unfold uniform in Hu2. rewrite Forall_forall in Hu2. specialize (Hu2 _ Hin). rewrite lenN_cons' in Hu2. lia. }
    assert (Hul' : forall c u, In (c :: u) S2 -> lenN s = lenN u) by (intros; symmetry; eauto).
    assert (Hul2 : forall c u c' u', In (c :: u) S2 -> In (c' :: u') S2 -> lenN u = lenN u') by (intros c u c' u' Ha Hc; now rewrite (Hul _ _ Ha), (Hul _ _ Hc)).
    assert (Hcons : forall u, In u S2 -> exists c u', u = c :: u').
    { intros u Hin. rewrite Forall_forall in Hn2. specialize (Hn2 _ Hin). destruct u as [|c u]; [congruence|]. eauto. }
    destruct (rank0_ok2 d S1 S2 S3 Hl) as [-> ->]. cbn [bind]. rewrite (sub_ok (lenN (sel false S1) + lenN (sel false S2))) by lia. cbn [bind].
    replace (lenN (sel false S1) + lenN (sel false S2) - lenN (sel false S1)) with (lenN (sel false S2)) by lia.
    pose proof (skipn_S _ _ _ _ Hsk) as Hsk'.
    assert (Hsel : forall c u, In u (sel c S2) -> In (c :: u) S2) by (intros; now apply In_sel).
    assert (Hemp : forall c, lenN (sel c S2) = 0 -> forall u, In (c :: u) S2 -> False).
    { intros c Hc u Hin. apply In_sel in Hin; auto. destruct (sel c S2); [destruct Hin|]. rewrite lenN_cons' in Hc. lia. }
    pose proof (lenN_sel_split S2) as Hspl.
    destruct (one_bounds d S1 S2 S3 Hl) as (E1 & E2 & E3 & E4).
    destruct b; cbn [bitN N.eqb Pos.eqb].
    + rewrite (sub_ok _ (lenN S1)) by lia. cbn [bind]. replace (lenN S1 + lenN S2 - lenN S1) with (lenN S2) by lia.
      destruct (N.eqb_spec (lenN (sel false S2)) (lenN S2)) as [Hall|Hsome].
      * right. split; [|reflexivity]. intros u Hu'. destruct (Hcons u Hu') as (c & u' & ->). destruct c; [exfalso; eapply (Hemp true); eauto; lia|].
        apply N.lt_nge. rewrite mval_cmp by eauto. auto.
      * destruct (Hwr true p t Hr) as (t' & Et & Ht); [lia|]. cbn [bitN] in Et. rewrite Et, E1, E2. cbn [bind]. rewrite E3, E4.
        pose proof H as H1. rewrite (part_b true) in H1.
        destruct (IH (p ++ [true]) s _ _ _ t' fb ltac:(rewrite app_length; cbn [length]; now rewrite Nat.add_1_r) H1) as [(v & t'' & Hpv & Ev & HR)|(Hno & Ev)]; auto.
        { rewrite <- part_b, lenN_part. auto. }
        { rewrite lenN_app'. change (lenN [true]) with 1. lia. }
        { lia. }
        { lia. }
        { rewrite lenN_app'. exact Hrd. }
        { left. rewrite lenN_app' in Ev. change (lenN [true]) with 1 in Ev. rewrite Ev. exists (true :: v), t''. split; [|split; [reflexivity|now rewrite <- app_assoc in HR]].
          destruct Hpv as (Hin & Hle & Hmx). split; [auto|]. split; [rewrite mval_cmp by eauto; auto|].
          intros u Hu' Hle'. destruct (Hcons u Hu') as (c & u' & ->). rewrite mval_cmp in Hle' by eauto. destruct c; [|tauto].
          rewrite mval_cmp by (eapply Hul2; eauto). apply Hmx; auto. now apply In_sel. }
        { right. rewrite lenN_app' in Ev. change (lenN [true]) with 1 in Ev. rewrite Ev. split; [|reflexivity].
          intros u Hu'. destruct (Hcons u Hu') as (c & u' & ->). apply N.lt_nge. rewrite mval_cmp by eauto. destruct c; auto.
          specialize (Hno u' ltac:(now apply In_sel)). lia. }
    + destruct (N.eqb_spec (lenN (sel false S2)) 0) as [Hz|Hz].
      * left. destruct (quantile_min (lenN p) p S1 S2 S3 t) as (v & t' & E & HR & Hin & Hmin); auto; try lia.
        { unfold lenN at 1. rewrite Nat2N.id, Hsk. exact Henc. }
        rewrite E. cbn [bind]. exists v, t'. split; [|auto]. split; [auto|]. split; [|auto].
        destruct (Hcons v Hin) as (c & v' & ->). destruct c; [|exfalso; eapply (Hemp false); eauto].
        rewrite mval_cmp by eauto. auto.
      * destruct (Hwr false p t Hr) as (t' & Et & Ht); [lia|]. cbn [bitN] in Et. rewrite Et, E1, E2. cbn [bind]. rewrite E3, E4.
        set (fb' := if lenN (pre true (S1 ++ S2 ++ S3) S1) <? lenN (pre true (S1 ++ S2 ++ S3) S1) + lenN (sel true S2)
                    then Some (lenN p, lenN (pre true (S1 ++ S2 ++ S3) S1), lenN (pre true (S1 ++ S2 ++ S3) S1) + lenN (sel true S2), t) else fb).
        pose proof H as H0. rewrite (part_b false) in H0. change (lenN (sel false S1)) with (lenN (pre false (S1 ++ S2 ++ S3) S1)).
        destruct (IH (p ++ [false]) s _ _ _ t' fb' ltac:(rewrite app_length; cbn [length]; now rewrite Nat.add_1_r) H0) as [(v & t'' & Hpv & Ev & HR)|(Hno & Ev)]; auto.
        { rewrite <- part_b, lenN_part. auto. }
        { rewrite lenN_app'. change (lenN [false]) with 1. lia. }
        { lia. }
        { lia. }
        { rewrite lenN_app'. exact Hrd. }
        { left. rewrite lenN_app' in Ev. change (lenN [false]) with 1 in Ev. rewrite Ev. exists (false :: v), t''. split; [|split; [reflexivity|now rewrite <- app_assoc in HR]].
          destruct Hpv as (Hin & Hle & Hmx). split; [auto|]. split; [rewrite mval_cmp by eauto; auto|].
          intros u Hu' Hle'. destruct (Hcons u Hu') as (c & u' & ->). rewrite mval_cmp in Hle' by eauto.
          rewrite mval_cmp by (eapply Hul2; eauto). destruct c; auto. apply Hmx; auto. now apply In_sel. }
        { rewrite lenN_app' in Ev. change (lenN [false]) with 1 in Ev. rewrite Ev. unfold fb'.
          destruct (N.ltb_spec (lenN (pre true (S1 ++ S2 ++ S3) S1)) (lenN (pre true (S1 ++ S2 ++ S3) S1) + lenN (sel true S2))) as [Hz1|Hz1].
          - left. cbn [succ_fb].
            destruct (Hwr true p t Hr) as (t0 & Et0 & Ht0); [lia|]. cbn [bitN] in Et0. rewrite Et0. cbn [bind].
            pose proof H as H1. rewrite (part_b true) in H1.
            destruct (quantile_min (lenN p + 1) (p ++ [true]) (pre true (S1 ++ S2 ++ S3) S1) (sel true S2) (post true (S1 ++ S2 ++ S3) S3) t0) as (v & t2 & E & HR & Hin & Hmin); auto; try lia.
            { rewrite lenN_app'. reflexivity. }
            { unfold lenN. replace (N.to_nat (N.of_nat (length p) + 1)) with (S (length p)) by lia. now rewrite Hsk'. }
            { rewrite <- part_b, lenN_part. auto. }
            rewrite E. cbn [bind]. exists (true :: v), t2. split; [|split; [reflexivity|now rewrite <- app_assoc in HR]].
            split; [auto|]. split; [rewrite mval_cmp by eauto; auto|]. intros u Hu' Hle'. destruct (Hcons u Hu') as (c & u' & ->).
            rewrite mval_cmp in Hle' by eauto. destruct c.
            + rewrite mval_cmp by (eapply Hul2; eauto). apply Hmin. now apply In_sel.
            + exfalso. specialize (Hno u' ltac:(now apply In_sel)). lia.
          - right. split; [|reflexivity]. intros u Hu'. destruct (Hcons u Hu') as (c & u' & ->). destruct c; [exfalso; eapply (Hemp true); eauto; lia|].
            apply N.lt_nge. rewrite mval_cmp by eauto. specialize (Hno u' ltac:(now apply In_sel)). lia. }
Qed.
End Step.
End Order.
