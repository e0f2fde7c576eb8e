(** * Answers of the wavelet matrix queries. *)
From Coq Require Import Permutation Sorting.Sorted.
From Verif Require Import Base Spec BaseFacts WordFacts BitVecModel BitVecProofs BitVecProofs2 RsVecModel RsVecProofs IterFacts WaveletModel WaveletProofs WaveletOrder WaveletBuild WaveletCount WaveletQuery.

(** ** Lists. *)
Lemma Forall_slice {A} (P : A -> Prop) l a n : Forall P l -> Forall P (sliceN a n l).
Proof.
  intros H. rewrite Forall_forall in *. intros x Hx. apply H. unfold sliceN, takeN, dropN in Hx.
  rewrite <- (firstn_skipn (N.to_nat a) l). apply in_or_app. right. rewrite <- (firstn_skipn (N.to_nat n) (skipn (N.to_nat a) l)). apply in_or_app. now left.
Qed.
Lemma getN_split {A} (l : list A) i : i < lenN l -> exists S1 x S3, l = S1 ++ x :: S3 /\ lenN S1 = i /\ getN l i = Some x.
Proof.
  intros Hi. destruct (nth_error l (N.to_nat i)) as [x|] eqn:E; [|apply nth_error_None in E; unfold lenN in Hi; lia].
  destruct (nth_error_split _ _ E) as (S1 & S3 & El & Hl). exists S1, x, S3. split; [auto|]. split; [unfold lenN; lia|].
  unfold getN. destruct (N.ltb_spec i (lenN l)); [auto|lia].
Qed.
(** Positions satisfying a predicate, in order. *)
Lemma filter_range_hit (P : N -> bool) n p : p < n -> P p = true -> getN (filter P (range 0 n)) (ct P p) = Some p.
Proof.
  intros Hp HP. rewrite (range_app 0 p n), (range_cons p n) by lia. rewrite filter_app. cbn [filter]. rewrite HP. apply getN_app_mid.
Qed.
Lemma filter_range_miss (P : N -> bool) n r : ct P n <= r -> getN (filter P (range 0 n)) r = None.
Proof. intros Hr. unfold getN. fold (ct P n). destruct (N.ltb_spec r (ct P n)); [lia|reflexivity]. Qed.
(** Counting positions and counting elements. *)
Lemma ct_list (f : N -> bool) l : ct (fun p => f (nthN 0 l p)) (lenN l) = lenN (filter f l).
Proof.
  induction l as [|x l IH] using rev_ind; [reflexivity|]. rewrite lenN_app'. change (lenN [x]) with 1. rewrite ct_succ, filter_app, lenN_app'.
  assert (E : ct (fun p => f (nthN 0 (l ++ [x]) p)) (lenN l) = ct (fun p => f (nthN 0 l p)) (lenN l)).
  { unfold ct. f_equal. apply filter_ext_in. intros p Hp. apply In_range in Hp. rewrite nthN_app. destruct (N.ltb_spec p (lenN l)); [reflexivity|lia]. }
  rewrite E, IH, nthN_mid. cbn [filter]. destruct (f x); reflexivity.
Qed.
Lemma ct_none f i : (forall j, j < i -> f j = false) -> ct f i = 0.
Proof.
  apply (N_ind1 (fun i => (forall j, j < i -> f j = false) -> ct f i = 0)); [reflexivity|]. clear i. intros i IH Hf. rewrite ct_succ, IH by (intros; apply Hf; lia). rewrite Hf by lia. reflexivity.
Qed.
Lemma ct_shift f a m : ct f (a + m) = ct f a + ct (fun j => f (a + j)) m.
Proof.
  apply (N_ind1 (fun m => ct f (a + m) = ct f a + ct (fun j => f (a + j)) m)); [rewrite N.add_0_r; change (ct (fun j => f (a + j)) 0) with 0; lia|].
  clear m. intros m IH. rewrite N.add_assoc, !ct_succ, IH. lia.
Qed.

(** The element at a rank of a sorted permutation. *)
Lemma sorted_ends (s1 : list N) x s2 : StronglySorted N.le (s1 ++ x :: s2) -> (forall y, In y s1 -> y <= x) /\ (forall y, In y s2 -> x <= y).
Proof.
  induction s1 as [|z s1 IH]; cbn [app]; intros Hs; inversion Hs as [|? ? Hs' Hf]; subst.
  - rewrite Forall_forall in Hf. split; [intros y []|]. auto.
  - destruct (IH Hs') as [I1 I2]. rewrite Forall_forall in Hf. split; [|auto]. intros y [->|Hy]; [|auto]. apply Hf, in_elt.
Qed.
Lemma filter_len_all {A} (f : A -> bool) l : (forall x, In x l -> f x = true) -> lenN (filter f l) = lenN l.
Proof. induction l as [|x l IH]; intros Hf; [reflexivity|]. cbn [filter]. rewrite Hf by now left. rewrite !lenN_cons', IH; auto. intros; apply Hf; now right. Qed.
Lemma filter_len_none {A} (f : A -> bool) l : (forall x, In x l -> f x = false) -> lenN (filter f l) = 0.
Proof. induction l as [|x l IH]; intros Hf; [reflexivity|]. cbn [filter]. rewrite Hf by now left. apply IH. intros; apply Hf; now right. Qed.
Lemma filter_len_le {A} (f : A -> bool) l : lenN (filter f l) <= lenN l.
Proof. induction l as [|x l IH]; [reflexivity|]. cbn [filter]. destruct (f x); rewrite ?lenN_cons'; lia. Qed.
Lemma perm_len {A} (l m : list A) : Permutation l m -> lenN l = lenN m.
Proof. intros Hp. unfold lenN. now rewrite (Permutation_length Hp). Qed.
Lemma perm_filter {A} (f : A -> bool) l m : Permutation l m -> Permutation (filter f l) (filter f m).
Proof.
  induction 1; cbn [filter]; auto.
  - destruct (f x); auto.
  - destruct (f x), (f y); auto. constructor.
  - eapply perm_trans; eauto.
Qed.
Lemma sorted_rank (S sl : list N) i v : Permutation sl S -> Sorted N.le sl -> i < lenN S ->
  lenN (filter (fun x => x <? v) S) <= i -> i < lenN (filter (fun x => x <=? v) S) -> getN sl i = Some v.
Proof.
  intros Hp Hs Hi H1 H2. assert (Hss : StronglySorted N.le sl) by (apply Sorted_StronglySorted; auto; intros x y z; apply N.le_trans).
  rewrite <- (perm_len _ _ Hp) in Hi. destruct (getN_split sl i Hi) as (s1 & x & s2 & E & Hl & Hx). rewrite Hx. f_equal.
  rewrite <- (perm_len _ _ (perm_filter _ _ _ Hp)) in H1. rewrite <- (perm_len _ _ (perm_filter _ _ _ Hp)) in H2. rewrite E in Hss. destruct (sorted_ends _ _ _ Hss) as [I1 I2].
  rewrite E, filter_app, lenN_app' in H1. rewrite E, filter_app, lenN_app' in H2. cbn [filter] in H1, H2.
  destruct (N.lt_trichotomy x v) as [Hlt|[Heq|Hgt]]; [exfalso|auto|exfalso].
  - rewrite (filter_len_all _ s1) in H1 by (intros y Hy; apply N.ltb_lt; specialize (I1 y Hy); lia).
    destruct (N.ltb_spec x v); [|lia]. rewrite lenN_cons' in H1. lia.
  - destruct (N.leb_spec x v); [lia|]. rewrite (filter_len_none _ s2) in H2 by (intros y Hy; apply N.leb_gt; specialize (I2 y Hy); lia).
    pose proof (filter_len_le (fun x => x <=? v) s1). lia.
Qed.

Section Answer.
Variables (w : wavelet) (l : list N) (k : N).
Hypothesis H : wmok w l k.

(** ** Access. *)
Lemma get_value_unchecked_ok i x : getN l i = Some x -> wm_get_value_unchecked w i = Ok (bv_of k x).
Proof using H.
  intros Hi. destruct (getN_Some_inv _ _ _ Hi) as [Hlt _]. destruct (getN_split l i Hlt) as (S1 & x' & S3 & E & Hl & Hx). rewrite Hi in Hx. injection Hx as <-.
  pose proof (wo_enc _ _ _ H) as He. rewrite E, map_app in He. cbn [map] in He. unfold wm_get_value_unchecked. pose proof (wo_pos _ _ _ H) as Hk.
  rewrite (wm_bits_ok _ _ _ H). rewrite (sub_ok k) by lia. cbn [bind].
  replace i with (lenN (map (word_of k) S1)) by (rewrite lenN_map; auto). rewrite (reconstruct_ok _ _ _ _ _ _ He).
  assert (Hgen : forall q p t, lenN p + lenN q = k -> rep_bv k p t ->
    exists t' z, forM q (t, k - 1 - lenN p) (fun t0 b => let (value, level) := t0 in let* value := bv_set_unchecked value level (bitN b) in Ok (value, level - 1)) = Ok (t', z) /\ rep_bv k (p ++ q) t').
  { intros q. induction q as [|b q IH]; intros p t Hlen Hr; cbn [forM].
    - exists t, (k - 1 - lenN p). rewrite app_nil_r. auto.
    - rewrite lenN_cons' in Hlen. destruct (rep_bv_set k b p t Hr) as (t1 & E1 & R1); [lia|]. rewrite E1. cbn [bind].
      destruct (IH (p ++ [b]) t1) as (t' & z & E2 & R2); [rewrite lenN_app'; change (lenN [b]) with 1; lia|auto|].
      rewrite lenN_app' in E2. change (lenN [b]) with 1 in E2. replace (k - 1 - (lenN p + 1)) with (k - 1 - lenN p - 1) in E2 by lia. rewrite E2.
      exists t', z. rewrite <- app_assoc in R2. auto. }
  destruct (Hgen (word_of k x) [] (bv_from_zeros k)) as (t' & z & E2 & R2).
  - rewrite lenN_word_of. reflexivity.
  - pose proof (rep_bv_new w l k H) as R. now rewrite (wm_bits_ok _ _ _ H) in R.
  - change (lenN (@nil bool)) with 0 in E2. rewrite N.sub_0_r in E2. rewrite E2. cbn [bind app] in *. f_equal.
    rewrite (rep_bv_full k (word_of k x) t') by (auto using lenN_word_of). rewrite mval_word_of. f_equal. apply N.mod_small.
    pose proof (wo_small _ _ _ H) as Hs. rewrite Forall_forall in Hs. apply Hs. rewrite E. apply in_elt.
Qed.
Lemma get_u64_unchecked_ok i x : k <= 64 -> getN l i = Some x -> wm_get_u64_unchecked w i = Ok x.
Proof using H.
  intros Hk64 Hi. destruct (getN_Some_inv _ _ _ Hi) as [Hlt _]. destruct (getN_split l i Hlt) as (S1 & x' & S3 & E & Hl & Hx). rewrite Hi in Hx. injection Hx as <-.
  pose proof (wo_enc _ _ _ H) as He. rewrite E, map_app in He. cbn [map] in He. unfold wm_get_u64_unchecked.
  replace i with (lenN (map (word_of k) S1)) by (rewrite lenN_map; auto). rewrite (reconstruct_ok _ _ _ _ _ _ He).
  assert (Hgen : forall q p t, lenN p + lenN q = k -> rep_u64 p t ->
    exists t', forM q t (fun t b => Ok (N.lor (shl64 t 1) (bitN b))) = Ok t' /\ rep_u64 (p ++ q) t').
  { intros q. induction q as [|b q IH]; intros p t Hlen Hr; cbn [forM].
    - exists t. rewrite app_nil_r. auto.
    - rewrite lenN_cons' in Hlen. destruct (wr_u64_ok k b p t Hk64 Hr) as (t1 & E1 & R1); [lia|]. unfold wr_u64 in E1. injection E1 as E1. cbn [bind]. rewrite E1.
      destruct (IH (p ++ [b]) t1) as (t' & E2 & R2); [rewrite lenN_app'; change (lenN [b]) with 1; lia|auto|]. exists t'. rewrite <- app_assoc in R2. auto. }
  destruct (Hgen (word_of k x) [] 0) as (t' & E2 & R2); [rewrite lenN_word_of; reflexivity|reflexivity|]. rewrite E2. f_equal. unfold rep_u64 in R2. cbn [app] in R2.
  rewrite R2, mval_word_of. apply N.mod_small. pose proof (wo_small _ _ _ H) as Hs. rewrite Forall_forall in Hs. apply Hs. rewrite E. apply in_elt.
Qed.
Lemma getN_lt_some {A} (m : list A) i : i < lenN m -> exists x, getN m i = Some x.
Proof using. intros Hi. destruct (getN_split m i Hi) as (_ & x & _ & _ & _ & Hx). eauto. Qed.
Lemma getN_ge {A} (m : list A) i : lenN m <= i -> getN m i = None.
Proof using. intros Hi. unfold getN. destruct (N.ltb_spec i (lenN m)); [lia|reflexivity]. Qed.
Lemma get_value_ok i : wm_get_value w i = Ok (option_map (bv_of k) (getN l i)).
Proof using H.
  unfold wm_get_value. rewrite (wm_bits_ok _ _ _ H), (wm_len_ok _ _ _ H). pose proof (wo_pos _ _ _ H). destruct (N.eqb_spec k 0); [lia|]. cbn [orb].
  destruct (N.leb_spec (lenN l) i); [now rewrite getN_ge|]. destruct (getN_lt_some l i) as [x Hx]; [auto|]. rewrite (get_value_unchecked_ok i x), Hx by auto. reflexivity.
Qed.
Lemma get_u64_ok i : wm_get_u64 w i = Ok (if k <=? 64 then getN l i else None).
Proof using H.
  unfold wm_get_u64. rewrite (wm_bits_ok _ _ _ H), (wm_len_ok _ _ _ H). pose proof (wo_pos _ _ _ H). destruct (N.eqb_spec k 0); [lia|]. rewrite orb_false_r.
  destruct (N.ltb_spec 64 k), (N.leb_spec k 64); try lia; cbn [orb]; [reflexivity|].
  destruct (N.leb_spec (lenN l) i); [now rewrite getN_ge|]. destruct (getN_lt_some l i) as [x Hx]; [auto|]. rewrite (get_u64_unchecked_ok i x), Hx by auto. reflexivity.
Qed.

(** ** Rank. *)
Lemma enc_split a b : a <= b -> b <= lenN l -> exists S1 S3,
  enc w (S1 ++ map (word_of k) (sliceN a (b - a) l) ++ S3) /\ lenN S1 = a /\ lenN (map (word_of k) (sliceN a (b - a) l)) = b - a /\
  lenN (S1 ++ map (word_of k) (sliceN a (b - a) l) ++ S3) = lenN l.
Proof using H.
  intros H1 H2. destruct (split3 l a b H1 H2) as (S1 & S2 & S3 & E & E1 & E2 & L1 & L2). exists (map (word_of k) S1), (map (word_of k) S3).
  rewrite <- E2. rewrite <- !map_app, <- E, !lenN_map. split; [apply (wo_enc _ _ _ H)|auto].
Qed.
Lemma rank_any rd s a b : reads rd 0 (word_of k s) -> a <= b -> b <= lenN l ->
  wm_rank_loop rd w 0 a b = Ok (lenN (filter (N.eqb (s mod 2 ^ k)) (sliceN a (b - a) l))).
Proof using H.
  intros Hr H1 H2. destruct (enc_split a b H1 H2) as (S1 & S3 & He & L1 & L2 & _).
  rewrite <- occ_word_of by (apply Forall_slice, (wo_small _ _ _ H)).
  rewrite <- (rank_loop_ok rd w 0 (word_of k s) _ _ _ He); auto.
  - rewrite L1, L2. f_equal. lia.
  - rewrite lenN_word_of. symmetry. apply (wo_bits _ _ _ H).
Qed.
Lemma value_mod s : lenN (bits s) = k -> value (bits s) mod 2 ^ k = value (bits s).
Proof using. intros Hb. apply N.mod_small. rewrite <- Hb. apply value_lt. Qed.

(** ** Select. *)
Definition occs (s o : N) : list N := filter (fun p => (o <=? p) && (nthN 0 l p =? s)) (range 0 (lenN l)).
Lemma select_any rd s o r : reads rd 0 (word_of k s) -> o <= lenN l ->
  (exists p, wm_select_loop rd w o r = Ok p /\ wm_found w p = getN (occs (s mod 2 ^ k) o) r) \/
  (wm_select_loop rd w o r = Panic /\ U64 <= lenN l + r).
Proof using H.
  intros Hr Ho. set (s' := s mod 2 ^ k). destruct (enc_split o (lenN l) Ho (N.le_refl _)) as (S1 & S3 & He & L1 & L2 & L3).
  set (S2 := sliceN o (lenN l - o) l) in *.
  assert (S3 = []) by (rewrite !lenN_app', L1, L2 in L3; destruct S3; [auto|rewrite lenN_cons' in L3; lia]). subst S3. rewrite app_nil_r in *.
  destruct (select_loop_ok rd w 0 (word_of k s) _ _ He) as (st & E & Hst & Hup); auto.
  { rewrite lenN_word_of. symmetry. apply (wo_bits _ _ _ H). }
  unfold wm_select_loop. rewrite L1 in E. rewrite E. cbn [bind]. unfold add64. destruct (N.ltb_spec (st + r) U64) as [Hov|Hov].
  - left. cbn [bind]. destruct (Hup (st + r)) as (p & Ep & Hf & _); [lia|]. exists p. split; [auto|]. replace (st + r - st) with r in Hf by lia.
    assert (Hsmall : Forall (fun x => x < 2 ^ k) S2) by (apply Forall_slice, (wo_small _ _ _ H)).
    set (P := fun p => (o <=? p) && (nthN 0 l p =? s')).
    assert (Hct : forall m, o + m <= lenN l -> ct P (o + m) = lenN (filter (N.eqb s') (sliceN o m l))).
    { intros m Hm. rewrite ct_shift. rewrite (ct_none P o) by (intros j Hj; unfold P; destruct (N.leb_spec o j); [lia|reflexivity]). rewrite N.add_0_l.
      rewrite <- ct_list. rewrite lenN_sliceN by auto. unfold ct. f_equal. apply filter_ext_in. intros j Hj. apply In_range in Hj. unfold P.
      destruct (N.leb_spec o (o + j)); [|lia]. cbn [andb]. rewrite nthN_sliceN by lia. apply N.eqb_sym. }
    unfold wm_found. rewrite (wm_len_ok _ _ _ H). destruct Hf as [(A & C & E2 & Hocc & Hp)|[Hocc Hp]].
    + assert (HA : exists A' x C', S2 = A' ++ x :: C' /\ A = map (word_of k) A' /\ word_of k x = word_of k s).
      { destruct (map_eq_app _ _ _ _ E2) as (A' & R' & ES & EA & ER). destruct (map_eq_cons _ _ ER) as (x & C' & ER' & Ex & _). exists A', x, C'. subst. auto. }
      destruct HA as (A' & x & C' & ES & -> & Ex). rewrite lenN_map in Hp. rewrite L1 in Hp.
      assert (HlenA : lenN A' < lenN l - o) by (rewrite <- L2, lenN_map, ES, lenN_app', lenN_cons'; lia).
      rewrite lenN_map in L2.
      assert (Hx : x = s').
      { apply (f_equal mval) in Ex. rewrite !mval_word_of in Ex. fold s' in Ex. rewrite <- Ex. symmetry. apply N.mod_small.
        rewrite Forall_forall in Hsmall. apply Hsmall. rewrite ES. apply in_elt. }
      assert (Hn : nthN 0 l p = s').
      { rewrite Hp. rewrite <- (nthN_sliceN 0 o (lenN l - o)) by lia. fold S2. rewrite ES, nthN_mid. auto. }
      destruct (N.ltb_spec p (lenN l)); [|lia].
      assert (Hrr : r = ct P p).
      { rewrite Hp, Hct by lia. rewrite <- Hocc, occ_word_of; [|rewrite ES in Hsmall; now apply Forall_app in Hsmall as [? _]]. fold s'. f_equal. f_equal.
        assert (Et : takeN (lenN A') S2 = A') by (rewrite ES; apply takeN_lenN_app). rewrite <- Et at 1. unfold S2, sliceN. apply takeN_takeN. lia. }
      rewrite Hrr. unfold occs. fold P. symmetry. apply filter_range_hit; auto. unfold P. destruct (N.leb_spec o p); [|lia]. now rewrite Hn, N.eqb_refl.
    + rewrite lenN_app', L1, L2 in Hp. destruct (N.ltb_spec p (lenN l)); [lia|]. symmetry. apply filter_range_miss. fold P.
      replace (lenN l) with (o + (lenN l - o)) by lia. rewrite Hct by lia. fold S2. unfold s'. now rewrite <- occ_word_of.
  - right. cbn [bind]. split; [reflexivity|]. rewrite lenN_app', L1, L2 in Hst. lia.
Qed.

(** ** Order statistics. *)
Lemma below_word v S : Forall (fun x => x < 2 ^ k) S -> v < 2 ^ k -> below (word_of k v) (map (word_of k) S) = lenN (filter (fun x => x <? v) S).
Proof using.
  intros HS Hv. unfold below. rewrite filter_map_len. f_equal. apply filter_ext_in. intros x Hx. rewrite !mval_word_of. rewrite Forall_forall in HS.
  rewrite !N.mod_small; auto.
Qed.
Lemma upto_word v S : Forall (fun x => x < 2 ^ k) S -> v < 2 ^ k -> upto (word_of k v) (map (word_of k) S) = lenN (filter (fun x => x <=? v) S).
Proof using.
  intros HS Hv. unfold upto. rewrite filter_map_len. f_equal. apply filter_ext_in. intros x Hx. rewrite !mval_word_of. rewrite Forall_forall in HS.
  rewrite !N.mod_small; auto.
Qed.

Section Rep.
Context {T : Type}.
Variables (Rep : word -> T -> Prop) (wr wrq : N -> N -> T -> res T) (quantile : N -> N -> N -> N -> T -> res T) (t0 : T) (show : N -> T).
Hypothesis Hwr : forall b p t, Rep p t -> lenN p < k -> exists t', wr (bitN b) (lenN p) t = Ok t' /\ Rep (p ++ [b]) t'.
Hypothesis Hwrq : forall b p t, Rep p t -> lenN p < k -> exists t', wrq (bitN b) (lenN p) t = Ok t' /\ Rep (p ++ [b]) t'.
Hypothesis Ht0 : Rep [] t0.
Hypothesis Hshow : forall p t, lenN p = k -> Rep p t -> t = show (mval p).
Hypothesis Hquant : forall level a b i p t, Rep p t -> lenN p <= k -> a < b -> b <= lenN l ->
  quantile a b i level t = wm_quantile_loop wrq (skipn (N.to_nat level) w) level a b i t.

Lemma Hq_any : forall level p S1 S2 S3 i t,
  level = lenN p -> enc (skipn (N.to_nat level) w) (S1 ++ S2 ++ S3) -> lenN (S1 ++ S2 ++ S3) = lenN l -> level <= k -> Rep p t -> i < lenN S2 ->
  exists v t', quantile (lenN S1) (lenN S1 + lenN S2) i level t = Ok t' /\ Rep (p ++ v) t' /\
    In v S2 /\ below v S2 <= i /\ i < upto v S2.
Proof using H Hwr Hwrq Ht0 Hshow Hquant.
  intros level p S1 S2 S3 i t -> He Hn Hlev Hr Hi. rewrite !lenN_app' in Hn. rewrite (Hquant _ _ _ _ p) by (auto; lia).
  eapply (quantile_loop_ok k Rep wr wrq Hwr Hwrq); eauto.
  assert (Hw : lenN w = k) by apply (wo_bits _ _ _ H). unfold lenN in *. rewrite skipn_length. lia.
Qed.
Lemma quantile_any a b i sl : a < b -> b <= lenN l -> i < b - a -> Permutation sl (sliceN a (b - a) l) -> Sorted N.le sl ->
  exists x, getN sl i = Some x /\ quantile a b i 0 t0 = Ok (show x).
Proof using H Hwr Hwrq Ht0 Hshow Hquant.
  intros H1 H2 Hi Hp Hs. destruct (enc_split a b) as (S1 & S3 & He & L1 & L2 & L3); [lia|auto|].
  destruct (Hq_any 0 [] S1 _ S3 i t0 eq_refl He L3) as (v & t' & E & Hr & Hin & Hb & Hu); [lia|auto|lia|].
  apply in_map_iff in Hin as (x & <- & Hin).
  assert (HS : Forall (fun x => x < 2 ^ k) (sliceN a (b - a) l)) by (apply Forall_slice, (wo_small _ _ _ H)).
  assert (Hx : x < 2 ^ k) by (rewrite Forall_forall in HS; auto).
  rewrite below_word in Hb by auto. rewrite upto_word in Hu by auto. exists x. split.
  - apply (sorted_rank (sliceN a (b - a) l)); auto. rewrite lenN_sliceN; lia.
  - rewrite L1, L2 in E. replace (a + (b - a)) with b in E by lia. rewrite E. f_equal. cbn [app] in Hr. rewrite (Hshow _ _ (lenN_word_of k x) Hr), mval_word_of.
    now rewrite N.mod_small.
Qed.

(** ** Neighbours. *)
Lemma In_word_le S x : Forall (fun x => x < 2 ^ k) S -> In x S -> mval (word_of k x) = x.
Proof using. intros HS Hx. rewrite mval_word_of. apply N.mod_small. rewrite Forall_forall in HS. auto. Qed.
Lemma pred_any rd s a b : reads rd 0 (word_of k s) -> a < b -> b <= lenN l ->
  exists o, wm_pred_loop rd wr quantile w 0 a b t0 None = Ok (option_map show o) /\
    match o with
    | Some x => In x (sliceN a (b - a) l) /\ x <= s mod 2 ^ k /\ forall y, In y (sliceN a (b - a) l) -> y <= s mod 2 ^ k -> y <= x
    | None => forall y, In y (sliceN a (b - a) l) -> s mod 2 ^ k < y
    end.
Proof using H Hwr Hwrq Ht0 Hshow Hquant.
  intros Hrd H1 H2. destruct (enc_split a b) as (S1 & S3 & He & L1 & L2 & L3); [lia|auto|]. set (S2 := sliceN a (b - a) l) in *.
  assert (HS : Forall (fun x => x < 2 ^ k) S2) by (apply Forall_slice, (wo_small _ _ _ H)).
  pose proof (pred_loop_ok k Rep wr wrq Hwr Hwrq w (lenN l) quantile (wo_bits _ _ _ H) Hq_any rd w [] (word_of k s) S1 (map (word_of k) S2) S3 t0 None eq_refl He L3) as HL.
  change (lenN (@nil bool)) with 0 in HL. rewrite L1, L2 in HL. replace (a + (b - a)) with b in HL by lia.
  destruct HL as [(v & t' & (Hin & Hle & Hmax) & E & Hr)|[Hall E]]; auto.
  - apply (wo_bits _ _ _ H).
  - lia.
  - rewrite lenN_word_of. symmetry. apply (wo_bits _ _ _ H).
  - apply in_map_iff in Hin as (x & <- & Hin). exists (Some x). rewrite (In_word_le S2 x) in Hle by auto. split.
    + rewrite E. cbn [option_map app] in *. rewrite (Hshow _ _ (lenN_word_of k x) Hr), (In_word_le S2 x) by auto. reflexivity.
    + split; [auto|]. split; [rewrite mval_word_of in Hle; auto|]. intros y Hy Hys. specialize (Hmax (word_of k y) (in_map _ _ _ Hy)).
      rewrite (In_word_le S2 x), (In_word_le S2 y), mval_word_of in Hmax by auto. auto.
  - exists None. split; [exact E|]. intros y Hy. specialize (Hall (word_of k y) (in_map _ _ _ Hy)). rewrite (In_word_le S2 y), mval_word_of in Hall by auto. auto.
Qed.
Lemma succ_any rd s a b : reads rd 0 (word_of k s) -> a < b -> b <= lenN l ->
  exists o, wm_succ_loop rd wr quantile w 0 a b t0 None = Ok (option_map show o) /\
    match o with
    | Some x => In x (sliceN a (b - a) l) /\ s mod 2 ^ k <= x /\ forall y, In y (sliceN a (b - a) l) -> s mod 2 ^ k <= y -> x <= y
    | None => forall y, In y (sliceN a (b - a) l) -> y < s mod 2 ^ k
    end.
Proof using H Hwr Hwrq Ht0 Hshow Hquant.
  intros Hrd H1 H2. destruct (enc_split a b) as (S1 & S3 & He & L1 & L2 & L3); [lia|auto|]. set (S2 := sliceN a (b - a) l) in *.
  assert (HS : Forall (fun x => x < 2 ^ k) S2) by (apply Forall_slice, (wo_small _ _ _ H)).
  pose proof (succ_loop_ok k Rep wr wrq Hwr Hwrq w (lenN l) quantile (wo_bits _ _ _ H) Hq_any rd w [] (word_of k s) S1 (map (word_of k) S2) S3 t0 None eq_refl He L3) as HL.
  change (lenN (@nil bool)) with 0 in HL. rewrite L1, L2 in HL. replace (a + (b - a)) with b in HL by lia.
  destruct HL as [(v & t' & (Hin & Hle & Hmax) & E & Hr)|[Hall E]]; auto.
  - apply (wo_bits _ _ _ H).
  - lia.
  - rewrite lenN_word_of. symmetry. apply (wo_bits _ _ _ H).
  - apply in_map_iff in Hin as (x & <- & Hin). exists (Some x). rewrite (In_word_le S2 x) in Hle by auto. split.
    + rewrite E. cbn [option_map app] in *. rewrite (Hshow _ _ (lenN_word_of k x) Hr), (In_word_le S2 x) by auto. reflexivity.
    + split; [auto|]. split; [rewrite mval_word_of in Hle; auto|]. intros y Hy Hys. specialize (Hmax (word_of k y) (in_map _ _ _ Hy)).
      rewrite (In_word_le S2 x), (In_word_le S2 y), mval_word_of in Hmax by auto. auto.
  - exists None. split; [exact E|]. intros y Hy. specialize (Hall (word_of k y) (in_map _ _ _ Hy)). rewrite (In_word_le S2 y), mval_word_of in Hall by auto. auto.
Qed.
End Rep.

(** The two instances. *)
Lemma quant_bv level a b i p t : rep_bv k p t -> lenN p <= k -> a < b -> b <= lenN l ->
  wm_partial_quantile w a b i level t = wm_quantile_loop (wr_ones w) (skipn (N.to_nat level) w) level a b i t.
Proof using H.
  intros Hr Hp H1 H2. unfold wm_partial_quantile. rewrite (wm_bits_ok _ _ _ H), (wm_len_ok _ _ _ H).
  assert (Hb : blen t = k) by (rewrite (gb_len _ _ Hr), lenN_app', lenN_replicate, lenN_rev'; lia). rewrite Hb, N.eqb_refl. cbn [assert bind].
  destruct (N.ltb_spec a b); [|lia]. destruct (N.leb_spec b (lenN l)); [|lia]. reflexivity.
Qed.
Lemma quant_u64 level a b i (p : word) (t : N) : k <= 64 -> rep_u64 p t -> lenN p <= k -> a < b -> b <= lenN l ->
  wm_partial_quantile_u64 w a b i level t = wm_quantile_loop wr_u64 (skipn (N.to_nat level) w) level a b i t.
Proof using H.
  intros Hk Hr Hp H1 H2. unfold wm_partial_quantile_u64. rewrite (wm_bits_ok _ _ _ H), (wm_len_ok _ _ _ H). destruct (N.leb_spec k 64); [|lia]. cbn [assert bind].
  destruct (N.ltb_spec a b); [|lia]. destruct (N.leb_spec b (lenN l)); [|lia]. reflexivity.
Qed.
End Answer.
