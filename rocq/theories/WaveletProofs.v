(** * Wavelet matrix queries: correctness over the encoded words. *)
From Verif Require Import Base Spec BaseFacts WordFacts BitVecModel BitVecProofs BitVecProofs2 RsVecModel PdepProofs RsVecProofs RsVecSelect PropsRsVec IterFacts WaveletModel.

(** Words are bit lists with the most significant bit first. *)
Notation word := (list bool).
Definition hdb (w : word) : bool := hd false w.

(** The tails of the words starting with [b], in order; the next level of the matrix. *)
Definition sel (b : bool) (S : list word) : list word := map (@tl bool) (filter (fun w => Bool.eqb (hdb w) b) S).
Definition part (S : list word) : list word := sel false S ++ sel true S.

(** What a level has to provide. *)
Record level_ok (d : rsvec) (B : list bool) : Prop := {
  lv_len : rlen d = lenN B;
  lv_rank0 : rrank0 d = count false B;
  lv_r0 : forall p, rs_rank0 d p = Ok (rank_spec false B p);
  lv_r1 : forall p, rs_rank1 d p = Ok (rank_spec true B p);
  lv_s0 : forall p, rs_select0 d p = Ok (select_spec false B p);
  lv_s1 : forall p, rs_select1 d p = Ok (select_spec true B p);
  lv_get : forall p, p < lenN B -> rs_get_unchecked d p = Ok (bitN (nthN false B p));
  lv_src : exists bv, wf bv /\ rs_from_bit_vec bv = Ok d /\ bits bv = B
}.

Fixpoint enc (ds : list rsvec) (S : list word) : Prop :=
  match ds with
  | [] => Forall (fun w => w = []) S
  | d :: ds => Forall (fun w => w <> []) S /\ level_ok d (map hdb S) /\ enc ds (part S)
  end.

Lemma level_built bv d : wf bv -> rs_from_bit_vec bv = Ok d -> level_ok d (bits bv).
Proof.
  intros H E. pose proof (built bv d H E) as G. constructor.
  - rewrite (good_len _ _ G). now rewrite lenN_bits.
  - assert (Hr : rs_rank0 d (rlen d) = Ok (rrank0 d)).
    { unfold rs_rank0, rs_rank. now rewrite N.leb_refl. }
    destruct (C12_rank bv d (rlen d) H E) as (_ & R0 & _). rewrite Hr in R0. injection R0 as R0. rewrite R0.
    unfold rank_spec. f_equal. rewrite (good_len _ _ G), <- lenN_bits. unfold takeN, lenN. rewrite Nat2N.id. apply firstn_all.
  - intros p. apply (C12_rank bv d p H E).
  - intros p. apply (C12_rank bv d p H E).
  - intros p. apply (C13_select bv d p H E).
  - intros p. apply (C13_select bv d p H E).
  - intros p Hp. destruct (C15_get bv d p H E) as (Hg & _). rewrite (getN_ok false) in Hg by auto.
    unfold rs_get in Hg. rewrite (good_len _ _ G), <- lenN_bits in Hg. destruct (N.leb_spec (lenN (bits bv)) p); [lia|].
    destruct (rs_get_unchecked d p); cbn in Hg; try discriminate. now injection Hg as ->.
  - exists bv. auto.
Qed.

(** ** Counting. *)
Lemma sel_app b S T : sel b (S ++ T) = sel b S ++ sel b T.
Proof. unfold sel. now rewrite filter_app, map_app. Qed.
Lemma sel_cons b x S : sel b (x :: S) = if Bool.eqb (hdb x) b then tl x :: sel b S else sel b S.
Proof. unfold sel. cbn [filter]. now destruct (Bool.eqb (hdb x) b). Qed.
Lemma lenN_cons' {A} (x : A) l : lenN (x :: l) = lenN l + 1.
Proof. unfold lenN. cbn [length]. lia. Qed.
Lemma lenN_app' {A} (l m : list A) : lenN (l ++ m) = lenN l + lenN m.
Proof. unfold lenN. rewrite app_length. lia. Qed.
Lemma count_sel b S : count b (map hdb S) = lenN (sel b S).
Proof.
  induction S as [|x S IH]; [reflexivity|]. cbn [map count]. rewrite sel_cons, IH.
  destruct (Bool.eqb (hdb x) b); [rewrite lenN_cons'|]; lia.
Qed.
Lemma takeN_lenN_app {A} (l m : list A) : takeN (lenN l) (l ++ m) = l.
Proof. unfold takeN, lenN. rewrite Nat2N.id, firstn_app, firstn_all, Nat.sub_diag. now rewrite app_nil_r. Qed.
Lemma rank_sel b S T : rank_spec b (map hdb (S ++ T)) (lenN S) = lenN (sel b S).
Proof.
  unfold rank_spec. rewrite map_app. replace (lenN S) with (lenN (map hdb S)) by (unfold lenN; now rewrite map_length).
  rewrite takeN_lenN_app. apply count_sel.
Qed.
Lemma rank_sel2 b S T U : rank_spec b (map hdb (S ++ T ++ U)) (lenN S + lenN T) = lenN (sel b S) + lenN (sel b T).
Proof. rewrite app_assoc, <- lenN_app', rank_sel, sel_app, lenN_app'. reflexivity. Qed.
Lemma lenN_sel_split S : lenN (sel false S) + lenN (sel true S) = lenN S.
Proof.
  induction S as [|x S IH]; [reflexivity|]. rewrite !sel_cons, !lenN_cons'. destruct (hdb x); cbn [Bool.eqb]; rewrite ?lenN_cons'; lia.
Qed.
Lemma lenN_part S : lenN (part S) = lenN S.
Proof. unfold part. rewrite lenN_app'. apply lenN_sel_split. Qed.
Lemma count_app b l m : count b (l ++ m) = count b l + count b m.
Proof. induction l as [|x l IH]; cbn; [lia|]. rewrite IH. lia. Qed.
Lemma positions_from_app b i l m : positions_from b i (l ++ m) = positions_from b i l ++ positions_from b (i + lenN l) m.
Proof.
  revert i. induction l as [|x l IH]; intros i; cbn [positions_from app].
  - f_equal. unfold lenN. cbn. lia.
  - rewrite IH, lenN_cons'. replace (i + 1 + lenN l) with (i + (lenN l + 1)) by lia. now destruct (Bool.eqb x b).
Qed.
Lemma lenN_positions_from b i l : lenN (positions_from b i l) = count b l.
Proof. revert i. induction l as [|x l IH]; intros i; cbn [positions_from count]; [reflexivity|]. destruct (Bool.eqb x b); rewrite ?lenN_cons', IH; lia. Qed.
Lemma getN_app_mid {A} (l : list A) x m : getN (l ++ x :: m) (lenN l) = Some x.
Proof.
  unfold getN. rewrite lenN_app', lenN_cons'. destruct (N.ltb_spec (lenN l) (lenN l + (lenN m + 1))); [|lia].
  unfold lenN. rewrite Nat2N.id, nth_error_app2, Nat.sub_diag by lia. reflexivity.
Qed.
Lemma select_hit b l m : select_spec b (l ++ b :: m) (count b l) = lenN l.
Proof.
  unfold select_spec, positions. rewrite positions_from_app. cbn [positions_from]. rewrite Bool.eqb_reflx.
  rewrite <- (lenN_positions_from b 0 l), getN_app_mid. lia.
Qed.
Lemma select_miss b l k : count b l <= k -> select_spec b l k = lenN l.
Proof.
  intros H. unfold select_spec, positions. unfold getN. rewrite lenN_positions_from. destruct (N.ltb_spec k (count b l)); [lia|reflexivity].
Qed.
Lemma sel_split b S A w C : Forall (fun w => w <> []) S -> sel b S = A ++ w :: C ->
  exists A1 C1, S = A1 ++ (b :: w) :: C1 /\ sel b A1 = A.
Proof.
  revert A. induction S as [|x S IH]; intros A HS E; [destruct A; discriminate|].
  inversion HS as [|y T Hx HT]; subst. rewrite sel_cons in E. destruct x as [|c x]; [congruence|]. cbn [hdb hd tl] in E.
  destruct (Bool.eqb c b) eqn:Ec.
  - apply Bool.eqb_prop in Ec. subst c. destruct A as [|a A].
    + cbn in E. injection E as -> _. exists [], S. split; [reflexivity|reflexivity].
    + cbn in E. injection E as -> E. destruct (IH A HT E) as (A1 & C1 & -> & Hs). exists ((b :: a) :: A1), C1. split; [reflexivity|].
      rewrite sel_cons. cbn [hdb hd tl]. rewrite Bool.eqb_reflx. now rewrite Hs.
  - destruct (IH A HT E) as (A1 & C1 & -> & Hs). exists ((c :: x) :: A1), C1. split; [reflexivity|].
    rewrite sel_cons. cbn [hdb hd tl]. now rewrite Ec.
Qed.

(** Number of occurrences of a word. *)
Definition weqb (v w : word) : bool := if list_eq_dec Bool.bool_dec v w then true else false.
Lemma weqb_spec v w : weqb v w = true <-> v = w.
Proof. unfold weqb. destruct (list_eq_dec _ v w); split; congruence. Qed.
Definition occ (s : word) (S : list word) : N := lenN (filter (weqb s) S).
Lemma occ_app s S T : occ s (S ++ T) = occ s S + occ s T.
Proof. unfold occ. now rewrite filter_app, lenN_app'. Qed.
Lemma occ_cons s x S : occ s (x :: S) = (if weqb s x then 1 else 0) + occ s S.
Proof. unfold occ. cbn [filter]. destruct (weqb s x); [rewrite lenN_cons'|]; lia. Qed.
Lemma occ_sel b s S : Forall (fun w => w <> []) S -> occ s (sel b S) = occ (b :: s) S.
Proof.
  induction S as [|x S IH]; intros H; [reflexivity|]. inversion H as [|y T Hx HT]; subst. rewrite sel_cons, occ_cons.
  destruct x as [|c x]; [congruence|]. cbn [hdb hd tl]. destruct (Bool.eqb c b) eqn:E.
  - apply Bool.eqb_prop in E. subst c. rewrite occ_cons, IH by auto. f_equal.
    destruct (weqb s x) eqn:E1, (weqb (b :: s) (b :: x)) eqn:E2; auto.
    + apply weqb_spec in E1. subst. assert (weqb (b :: x) (b :: x) = true) by now apply weqb_spec. congruence.
    + apply weqb_spec in E2. injection E2 as ->. assert (weqb x x = true) by now apply weqb_spec. congruence.
  - rewrite IH by auto. destruct (weqb (b :: s) (c :: x)) eqn:E2; [|lia]. apply weqb_spec in E2. injection E2 as -> ->. now rewrite Bool.eqb_reflx in E.
Qed.
Lemma occ_nil S : Forall (fun w : word => w = []) S -> occ [] S = lenN S.
Proof.
  induction S as [|x S IH]; intros H; [reflexivity|]. inversion H; subst. rewrite occ_cons, IH, lenN_cons' by auto. cbn. lia.
Qed.
Lemma enc_length ds S : enc ds S -> Forall (fun w => lenN w = lenN ds) S.
Proof.
  revert S. induction ds as [|d ds IH]; intros S H; cbn [enc] in H.
  - eapply Forall_impl; [|exact H]. intros w ->. reflexivity.
  - destruct H as (Hn & _ & H). specialize (IH _ H). rewrite Forall_forall in *. intros w Hw. specialize (Hn w Hw).
    destruct w as [|b w]; [congruence|]. rewrite !lenN_cons'. f_equal. apply IH. unfold part. apply in_or_app.
    destruct b; [right|left]; unfold sel; apply in_map_iff; [exists (true :: w)|exists (false :: w)]; (split; [reflexivity|]);
      apply filter_In; split; auto.
Qed.

(** ** Mapping boundaries down one level. *)
Lemma part0 S1 S2 S3 : part (S1 ++ S2 ++ S3) = sel false S1 ++ sel false S2 ++ (sel false S3 ++ sel true (S1 ++ S2 ++ S3)).
Proof. unfold part. rewrite !sel_app, <- !app_assoc. reflexivity. Qed.
Lemma part1 S1 S2 S3 : part (S1 ++ S2 ++ S3) = (sel false (S1 ++ S2 ++ S3) ++ sel true S1) ++ sel true S2 ++ sel true S3.
Proof. unfold part. rewrite !sel_app, <- !app_assoc. reflexivity. Qed.
(** The part before the words of [S2] starting with [b]. *)
Definition pre (b : bool) (S S1 : list word) : list word := if b then sel false S ++ sel true S1 else sel false S1.
Definition post (b : bool) (S S3 : list word) : list word := if b then sel true S3 else sel false S3 ++ sel true S.
Lemma part_b b S1 S2 S3 : part (S1 ++ S2 ++ S3) =
  pre b (S1 ++ S2 ++ S3) S1 ++ sel b S2 ++ post b (S1 ++ S2 ++ S3) S3.
Proof. destruct b; [apply part1|apply part0]. Qed.
Lemma pre_app b S S1 S2 : pre b S (S1 ++ S2) = pre b S S1 ++ sel b S2.
Proof. unfold pre. destruct b; now rewrite !sel_app, <- ?app_assoc. Qed.
Lemma down_ok d b S T : level_ok d (map hdb (S ++ T)) -> wm_down d (bitN b) (lenN S) = Ok (lenN (pre b (S ++ T) S)).
Proof.
  intros H. unfold wm_down. destruct b; cbn [bitN N.eqb Pos.eqb pre].
  - rewrite (lv_r1 _ _ H). cbn [bind]. rewrite (lv_rank0 _ _ H), count_sel, rank_sel, lenN_app'. reflexivity.
  - rewrite (lv_r0 _ _ H), rank_sel. reflexivity.
Qed.
Lemma down_ok2 d b S1 S2 S3 : level_ok d (map hdb (S1 ++ S2 ++ S3)) ->
  wm_down d (bitN b) (lenN S1) = Ok (lenN (pre b (S1 ++ S2 ++ S3) S1)) /\
  wm_down d (bitN b) (lenN S1 + lenN S2) = Ok (lenN (pre b (S1 ++ S2 ++ S3) S1) + lenN (sel b S2)).
Proof.
  intros H. split; [now apply down_ok|].
  rewrite <- lenN_app'. rewrite app_assoc in H. rewrite (down_ok d b (S1 ++ S2) S3 H), pre_app, lenN_app', <- app_assoc. reflexivity.
Qed.

(** The reader yields the bits of [s] from [level] on. *)
Definition reads (rd : N -> res N) (level : N) (s : word) : Prop :=
  forall j, j < lenN s -> rd (level + j) = Ok (bitN (nthN false s j)).
Lemma reads_cons rd level b s : reads rd level (b :: s) -> rd level = Ok (bitN b) /\ reads rd (level + 1) s.
Proof.
  intros H. split.
  - specialize (H 0). rewrite N.add_0_r in H. rewrite H by (rewrite lenN_cons'; lia). reflexivity.
  - intros j Hj. specialize (H (j + 1)). replace (level + 1 + j) with (level + (j + 1)) by lia. rewrite H by (rewrite lenN_cons'; lia).
    rewrite nthN_cons. destruct (N.eqb_spec (j + 1) 0); [lia|]. now replace (j + 1 - 1) with j by lia.
Qed.

(** ** rank *)
Lemma rank_loop_ok rd ds : forall level s S1 S2 S3, enc ds (S1 ++ S2 ++ S3) -> lenN s = lenN ds -> reads rd level s ->
  wm_rank_loop rd ds level (lenN S1) (lenN S1 + lenN S2) = Ok (occ s S2).
Proof.
  induction ds as [|d ds IH]; intros level s S1 S2 S3 H Hs Hr; cbn [wm_rank_loop enc] in *.
  - rewrite (sub_ok _ (lenN S1)) by lia. f_equal. destruct s; [|unfold lenN in Hs; cbn in Hs; lia].
    rewrite occ_nil; [lia|]. apply Forall_app in H as [_ H]. now apply Forall_app in H as [H _].
  - destruct H as (Hn & Hl & H). destruct s as [|b s]; [unfold lenN in Hs; cbn in Hs; lia|]. rewrite !lenN_cons' in Hs.
    apply reads_cons in Hr as [Hb Hr]. rewrite Hb. cbn [bind].
    destruct (down_ok2 d b S1 S2 S3 Hl) as [E1 E2]. rewrite E1, E2. cbn [bind].
    rewrite (part_b b) in H. rewrite (IH (level + 1) s _ _ _ H) by (auto; lia). f_equal. apply occ_sel.
    apply Forall_app in Hn as [_ Hn]. now apply Forall_app in Hn as [Hn _].
Qed.

(** ** select *)
Definition sel_found (S1 S2 : list word) (s : word) (r p : N) : Prop :=
  (exists A C, S2 = A ++ s :: C /\ occ s A = r /\ p = lenN S1 + lenN A) \/
  (occ s S2 <= r /\ lenN (S1 ++ S2) <= p).

Lemma app_split_le {A} (a b c : list A) x d : a ++ b = c ++ x :: d -> lenN c < lenN a ->
  exists e, a = c ++ x :: e.
Proof.
  revert c. induction a as [|y a IH]; intros c E H; [unfold lenN in H; cbn in H; lia|].
  destruct c as [|z c].
  - cbn in E. injection E as -> _. now exists a.
  - cbn in E. injection E as -> E. rewrite !lenN_cons' in H. destruct (IH c E) as [e ->]; [lia|]. now exists e.
Qed.
Lemma app_split_ge {A} (a b c : list A) x d : a ++ b = c ++ x :: d -> lenN a <= lenN c ->
  exists e, c = a ++ e.
Proof.
  revert c. induction a as [|y a IH]; intros c E H; [now exists c|].
  destruct c as [|z c]; [rewrite lenN_cons' in H; unfold lenN in H at 2; cbn in H; lia|].
  cbn in E. injection E as -> E. rewrite !lenN_cons' in H. destruct (IH c E) as [e ->]; [lia|]. now exists e.
Qed.
Lemma select_loop_ok rd ds : forall level s S1 S2, enc ds (S1 ++ S2) -> lenN s = lenN ds -> reads rd level s ->
  exists st, wm_start_loop rd ds level (lenN S1) = Ok st /\ st <= lenN (S1 ++ S2) /\
    forall e, st <= e -> exists p, wm_up_loop rd ds level e = Ok p /\ sel_found S1 S2 s (e - st) p /\ lenN S1 <= p.
Proof.
  induction ds as [|d ds IH]; intros level s S1 S2 H Hs Hr; cbn [wm_start_loop wm_up_loop enc] in *.
  - exists (lenN S1). split; [reflexivity|]. split; [rewrite lenN_app'; lia|]. intros e He. exists e. split; [reflexivity|]. split; [|auto].
    destruct s; [|unfold lenN in Hs; cbn in Hs; lia]. apply Forall_app in H as [_ H].
    destruct (N.lt_ge_cases e (lenN S1 + lenN S2)) as [Hlt|Hge].
    + left. assert (Hsp : exists A w C, S2 = A ++ w :: C /\ lenN A = e - lenN S1).
      { assert (Hx : exists w, nth_error S2 (N.to_nat (e - lenN S1)) = Some w).
        { destruct (nth_error S2 (N.to_nat (e - lenN S1))) eqn:E; eauto. apply nth_error_None in E. unfold lenN in *. lia. }
        destruct Hx as [w Hw]. apply nth_error_split in Hw as (A & C & -> & HA). exists A, w, C. split; auto. unfold lenN at 1. lia. }
      destruct Hsp as (A & w & C & -> & HA). apply Forall_app in H as [HA0 Hw]. inversion Hw; subst. exists A, C. split; [reflexivity|].
      split; [rewrite occ_nil by auto; lia|lia].
    + right. rewrite occ_nil by auto. rewrite lenN_app'. lia.
  - destruct H as (Hn & Hl & H). destruct s as [|b s]; [unfold lenN in Hs; cbn in Hs; lia|]. rewrite !lenN_cons' in Hs.
    apply reads_cons in Hr as [Hb Hr]. rewrite Hb. cbn [bind]. rewrite (down_ok d b S1 S2 Hl). cbn [bind].
    assert (HnS2 : Forall (fun w => w <> []) S2) by (apply Forall_app in Hn; tauto).
    pose proof (part_b b S1 S2 []) as Ep. rewrite !app_nil_r in Ep. rewrite Ep in H.
    set (P := pre b (S1 ++ S2) S1) in *. set (Q := post b (S1 ++ S2) []) in *.
    destruct (IH (level + 1) s P (sel b S2 ++ Q) H ltac:(lia) Hr) as (st & Est & Hst & Hup). exists st. split; [auto|].
    split; [rewrite <- Ep, lenN_part in Hst; auto|]. intros e He. destruct (Hup e He) as (p & Ep' & Hf & Hp). rewrite Ep'. cbn [bind].
    assert (Hcnt : lenN (sel b (S1 ++ S2)) = count b (map hdb (S1 ++ S2))) by (symmetry; apply count_sel).
    assert (Hx : exists q, (if bitN b =? 0 then rs_select0 d p else let* x := sub p (rrank0 d) in rs_select1 d x) = Ok (select_spec b (map hdb (S1 ++ S2)) q) /\
                 q + (if b then lenN (sel false (S1 ++ S2)) else 0) = p).
    { destruct b; cbn [bitN N.eqb Pos.eqb].
      - unfold P, pre in Hp. rewrite lenN_app' in Hp. rewrite (lv_rank0 _ _ Hl), count_sel. rewrite (sub_ok p) by lia. cbn [bind].
        eexists. split; [apply (lv_s1 _ _ Hl)|]. lia.
      - eexists. split; [apply (lv_s0 _ _ Hl)|]. lia. }
    destruct Hx as (q & -> & Hq).
    assert (HP : lenN P = (if b then lenN (sel false (S1 ++ S2)) else 0) + lenN (sel b S1)).
    { unfold P, pre. destruct b; rewrite ?lenN_app'; lia. }
    assert (Hmiss : lenN (sel b (S1 ++ S2)) <= q -> occ (b :: s) S2 <= e - st ->
      exists p0, Ok (select_spec b (map hdb (S1 ++ S2)) q) = Ok p0 /\ sel_found S1 S2 (b :: s) (e - st) p0 /\ lenN S1 <= p0).
    { intros Hm Ho. rewrite select_miss by (rewrite <- Hcnt; auto). eexists. split; [reflexivity|].
      assert (El : lenN (map hdb (S1 ++ S2)) = lenN (S1 ++ S2)) by (unfold lenN; now rewrite map_length). rewrite El.
      split; [right; split; [auto|lia]|]. rewrite lenN_app'. lia. }
    destruct Hf as [(A & C & EA & Ho & Epp)|(Ho & Hge)].
    + destruct (N.lt_ge_cases (lenN A) (lenN (sel b S2))) as [HA|HA].
      * destruct (app_split_le _ _ _ _ _ EA HA) as [D ED]. destruct (sel_split b S2 A s D HnS2 ED) as (A1 & C1 & E2 & HA1).
        subst A. assert (Eq : q = count b (map hdb (S1 ++ A1))) by (rewrite count_sel, sel_app, lenN_app'; lia).
        rewrite Eq, E2, app_assoc, map_app. change (map hdb ((b :: s) :: C1)) with (b :: map hdb C1). rewrite select_hit.
        eexists. split; [reflexivity|].
        assert (El : lenN (map hdb (S1 ++ A1)) = lenN S1 + lenN A1) by (unfold lenN; rewrite map_length, app_length; lia). rewrite El.
        split; [|apply N.le_add_r]. left. exists A1, C1. split; [auto|]. split; [|reflexivity]. rewrite <- Ho. symmetry. apply occ_sel. rewrite E2 in HnS2. apply Forall_app in HnS2; tauto.
      * apply Hmiss; [rewrite sel_app, lenN_app'; lia|].
        destruct (app_split_ge _ _ _ _ _ EA HA) as [D ED]. rewrite ED, occ_app in Ho. rewrite <- occ_sel by auto. lia.
    + apply Hmiss.
      * rewrite !lenN_app' in Hge. rewrite sel_app, lenN_app'. lia.
      * rewrite occ_app in Ho. rewrite <- occ_sel by auto. lia.
Qed.

(** ** Access *)
Lemma nthN_mid {A} (d : A) l x m : nthN d (l ++ x :: m) (lenN l) = x.
Proof. pose proof (getN_Some_inv _ _ _ (getN_app_mid l x m)) as [_ H]. apply H. Qed.
Lemma reconstruct_ok {T} (target : N -> T -> res T) ds : forall S1 x S3 t, enc ds (S1 ++ x :: S3) ->
  wm_reconstruct target ds (lenN S1) t = forM x t (fun t b => target (bitN b) t).
Proof.
  induction ds as [|d ds IH]; intros S1 x S3 t H; cbn [wm_reconstruct enc] in *.
  - apply Forall_app in H as [_ H]. inversion H; subst. reflexivity.
  - destruct H as (Hn & Hl & H).
    assert (Hx : x <> []) by (apply Forall_app in Hn as [_ Hn]; now inversion Hn).
    assert (El : lenN (map hdb S1) = lenN S1) by (unfold lenN; now rewrite map_length).
    rewrite (lv_get _ _ Hl) by (unfold lenN; rewrite map_length, app_length; cbn; lia). cbn [bind].
    rewrite map_app. cbn [map]. rewrite <- El, nthN_mid, El. destruct x as [|b x]; [congruence|]. cbn [hdb hd forM].
    destruct (target (bitN b) t) as [t'| |]; auto. cbn [bind]. fold (wm_down d (bitN b) (lenN S1)).
    rewrite (down_ok d b S1 _ Hl). cbn [bind].
    change ((b :: x) :: S3) with ([b :: x] ++ S3) in H. rewrite (part_b b) in H.
    assert (E : sel b [b :: x] = [x]) by (rewrite sel_cons; cbn [hdb hd tl]; now rewrite Bool.eqb_reflx). rewrite E in H.
    apply (IH _ _ _ t' H).
Qed.
