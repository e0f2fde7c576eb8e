(** * The operations of the tree on encodings of ordered trees. *)
From Verif Require Import Base Spec BaseFacts WordFacts BitVecModel BitVecProofs RsVecModel RsVecProofs RsVecSelect RsEqProofs IterFacts IterSpec
  RsIterModel RsIterProofs BpModel BpExcess BpMmt BpSearch BpBlock BpTreeSpec BpTreeFacts.
From Coq Require Import Sorted.

Lemma fwd_det l i d o o' : fwd_result l i d o -> fwd_result l i d o' -> o = o'.
Proof.
  destruct o as [j|], o' as [j'|]; cbn; auto.
  - intros (A1 & A2 & A3 & A4) (B1 & B2 & B3 & B4). f_equal. destruct (N.lt_trichotomy j j') as [H|[H|H]]; auto; exfalso; [apply (B4 j)|apply (A4 j')]; auto.
  - intros (A1 & A2 & A3 & A4) B. exfalso. apply (B j); auto.
  - intros B (A1 & A2 & A3 & A4). exfalso. apply (B j'); auto.
Qed.
Lemma bwd_det l i d o o' : bwd_result l i d o -> bwd_result l i d o' -> o = o'.
Proof.
  destruct o as [j|], o' as [j'|]; cbn; auto.
  - intros (A1 & A2 & A3) (B1 & B2 & B3). f_equal. destruct (N.lt_trichotomy j j') as [H|[H|H]]; auto; exfalso; [apply (A3 j')|apply (B3 j)]; auto.
  - intros (A1 & A2 & A3) B. exfalso. apply (B j); auto.
  - intros B (A1 & A2 & A3). exfalso. apply (B j'); auto.
Qed.

(** ** First and last crossings of a level *)
Lemma ivt l x y T : x <= y -> (excess_before l x <= T <= excess_before l y \/ excess_before l y <= T <= excess_before l x)%Z ->
  exists m, x <= m /\ m <= y /\ excess_before l m = T.
Proof.
  intros Hxy H. destruct (ex_ivt l x (y - x) (T - excess_before l x)) as (m & Hm & Em); [replace (x + (y - x)) with y by lia; lia|]. exists m. lia.
Qed.
Lemma first_up l a j T : (excess_before l a < T)%Z -> a <= j -> j < lenN l -> excess_before l (j + 1) = T ->
  (forall x, a <= x -> x < j -> excess_before l (x + 1) <> T) -> nthN false l j = true /\ excess_before l j = (T - 1)%Z.
Proof.
  intros Ha Haj Hj E Hn. pose proof (ex_succ l j Hj) as Hs. unfold paren in Hs. destruct (nthN false l j); [split; [auto|lia]|]. exfalso.
  destruct (ivt l a j T Haj ltac:(lia)) as (m & M1 & M2 & M3). assert (m <> a) by (intros ->; lia). assert (m <> j) by (intros ->; lia).
  apply (Hn (m - 1)); try lia. now replace (m - 1 + 1) with m by lia.
Qed.
Lemma last_down l j h T : (excess_before l h < T)%Z -> j < h -> j < lenN l -> excess_before l j = T -> (forall x, j < x -> x < h -> excess_before l x <> T) ->
  excess_before l (j + 1) = (T - 1)%Z.
Proof.
  intros Hh Hjh Hj E Hn. pose proof (ex_succ l j Hj) as Hs. unfold paren in Hs. destruct (nthN false l j); [|lia]. exfalso.
  destruct (ivt l (j + 1) h T ltac:(lia) ltac:(lia)) as (m & M1 & M2 & M3). assert (m <> j + 1) by (intros ->; lia). assert (m <> h) by (intros ->; lia).
  apply (Hn m); lia.
Qed.
Lemma open_up l j' j T : excess_before l j = T -> j' < j -> j' < lenN l -> excess_before l j' = (T - 1)%Z -> (forall x, j' < x -> x < j -> excess_before l x <> (T - 1)%Z) ->
  nthN false l j' = true.
Proof.
  intros Ej Hj Hl E Hn. pose proof (ex_succ l j' Hl) as Hs. unfold paren in Hs. destruct (nthN false l j') eqn:Eb; auto. exfalso.
  destruct (ivt l (j' + 1) j (T - 1) ltac:(lia) ltac:(lia)) as (m & M1 & M2 & M3). assert (m <> j' + 1) by (intros ->; lia). assert (m <> j) by (intros ->; lia).
  apply (Hn m); lia.
Qed.

(** ** Neighbours in increasing lists *)
Lemma ss_get (M : list N) a b x y : StronglySorted N.lt M -> getN M a = Some x -> getN M b = Some y -> a < b -> x < y.
Proof.
  intros HS. revert a b. induction HS as [|z M HS IH Hz]; intros a b Ha Hb Hab; [rewrite getN_none in Ha by (cbn; lia); discriminate|].
  apply getN_Some_inv in Ha, Hb. destruct Ha as [A1 A2], Hb as [B1 B2]. rewrite lenN_cons in *.
  assert (Eb : getN M (b - 1) = Some y).
  { rewrite (getN_ok 0) by lia. f_equal. rewrite <- (B2 0). rewrite nthN_cons. destruct (N.eqb_spec b 0); [lia|reflexivity]. }
  destruct (N.eq_dec a 0) as [->|Ha0].
  - rewrite <- (A2 0). change (nthN 0 (z :: M) 0) with z. rewrite Forall_forall in Hz. apply Hz. eapply getN_In; eauto.
  - apply (IH (a - 1) (b - 1)); auto; [|lia]. rewrite (getN_ok 0) by lia. f_equal. rewrite <- (A2 0). rewrite nthN_cons. destruct (N.eqb_spec a 0); [lia|reflexivity].
Qed.
Definition next_in (M : list N) (h : N) (o : option N) : Prop :=
  match o with Some j => In j M /\ h < j /\ forall x, In x M -> h < x -> j <= x | None => forall x, In x M -> x <= h end.
Definition prev_in (M : list N) (h : N) (o : option N) : Prop :=
  match o with Some j => In j M /\ j < h /\ forall x, In x M -> x < h -> x <= j | None => forall x, In x M -> h <= x end.
Lemma next_in_get M i h o : StronglySorted N.lt M -> getN M i = Some h -> next_in M h o -> o = getN M (i + 1).
Proof.
  intros HS Hi. assert (Hx : forall x, In x M -> h < x -> exists y, getN M (i + 1) = Some y /\ h < y /\ y <= x /\ In y M).
  { intros x Hx Hlt. apply In_getN in Hx as (c & C1 & C2). assert (i < c).
    { destruct (N.lt_trichotomy c i) as [H|[->|H]]; auto; [pose proof (ss_get M c i x h HS C2 Hi H); lia|rewrite Hi in C2; injection C2 as ->; lia]. }
    rewrite (getN_ok 0) by lia. eexists. split; [reflexivity|]. pose proof (ss_get M i (i + 1) h (nthN 0 M (i + 1)) HS Hi (getN_ok 0 M (i + 1) ltac:(lia)) ltac:(lia)). split; [auto|].
    split; [|apply In_nthN; lia]. destruct (N.eq_dec c (i + 1)) as [->|]; [apply getN_Some_inv in C2; destruct C2 as [_ C2]; rewrite C2; lia|].
    pose proof (ss_get M (i + 1) c (nthN 0 M (i + 1)) x HS (getN_ok 0 M (i + 1) ltac:(lia)) C2 ltac:(lia)). lia. }
  destruct o as [j|]; cbn.
  - intros (J1 & J2 & J3). destruct (Hx j J1 J2) as (y & Ey & Y1 & Y2 & Y3). rewrite Ey. f_equal. specialize (J3 y Y3 Y1). lia.
  - intros Hn. destruct (N.ltb_spec (i + 1) (lenN M)) as [Hl|Hl]; [|rewrite getN_none by auto; reflexivity]. exfalso.
    pose proof (ss_get M i (i + 1) h (nthN 0 M (i + 1)) HS Hi (getN_ok 0 M (i + 1) Hl) ltac:(lia)). specialize (Hn (nthN 0 M (i + 1)) (In_nthN 0 M (i + 1) Hl)). lia.
Qed.
Lemma prev_in_get M i h o : StronglySorted N.lt M -> getN M i = Some h -> prev_in M h o -> o = if i =? 0 then None else getN M (i - 1).
Proof.
  intros HS Hi. pose proof (getN_Some_inv _ _ _ Hi) as [Hil _].
  assert (Hx : forall x, In x M -> x < h -> 0 < i /\ exists y, getN M (i - 1) = Some y /\ y < h /\ x <= y /\ In y M).
  { intros x Hx Hlt. apply In_getN in Hx as (c & C1 & C2). assert (c < i).
    { destruct (N.lt_trichotomy c i) as [H|[->|H]]; auto; [rewrite Hi in C2; injection C2 as ->; lia|pose proof (ss_get M i c h x HS Hi C2 H); lia]. }
    split; [lia|]. rewrite (getN_ok 0) by lia. eexists. split; [reflexivity|]. pose proof (ss_get M (i - 1) i (nthN 0 M (i - 1)) h HS (getN_ok 0 M (i - 1) ltac:(lia)) Hi ltac:(lia)). split; [auto|].
    split; [|apply In_nthN; lia]. destruct (N.eq_dec c (i - 1)) as [->|]; [apply getN_Some_inv in C2; destruct C2 as [_ C2]; rewrite C2; lia|].
    pose proof (ss_get M c (i - 1) x (nthN 0 M (i - 1)) HS C2 (getN_ok 0 M (i - 1) ltac:(lia)) ltac:(lia)). lia. }
  destruct o as [j|]; cbn.
  - intros (J1 & J2 & J3). destruct (Hx j J1 J2) as (Hi0 & y & Ey & Y1 & Y2 & Y3). destruct (N.eqb_spec i 0); [lia|]. rewrite Ey. f_equal. specialize (J3 y Y3 Y1). lia.
  - intros Hn. destruct (N.eqb_spec i 0); [reflexivity|]. exfalso.
    pose proof (ss_get M (i - 1) i (nthN 0 M (i - 1)) h HS (getN_ok 0 M (i - 1) ltac:(lia)) Hi ltac:(lia)). specialize (Hn (nthN 0 M (i - 1)) (In_nthN 0 M (i - 1) ltac:(lia))). lia.
Qed.
Lemma first_get (M : list N) o : StronglySorted N.lt M -> match o with Some j => In j M /\ forall x, In x M -> j <= x | None => forall x, ~ In x M end -> o = getN M 0.
Proof.
  intros HS H. destruct M as [|a M]; [destruct o as [j|]; [destruct H as [[] _]|reflexivity]|]. rewrite (getN_ok 0) by (rewrite lenN_cons; lia). change (nthN 0 (a :: M) 0) with a.
  destruct o as [j|]; [|exfalso; apply (H a); now left]. destruct H as [[<-|Hj] H]; [reflexivity|]. inversion HS as [|? ? _ HF]; subst. rewrite Forall_forall in HF. specialize (HF j Hj). specialize (H a (or_introl eq_refl)). lia.
Qed.
Lemma last_get (M : list N) o : StronglySorted N.lt M -> match o with Some j => In j M /\ forall x, In x M -> x <= j | None => forall x, ~ In x M end -> o = getN M (lenN M - 1).
Proof.
  intros HS H. destruct (N.eq_dec (lenN M) 0) as [E|E].
  - assert (M = []) by (destruct M; [auto|rewrite lenN_cons in E; lia]). subst M. destruct o as [j|]; [destruct H as [[] _]|reflexivity].
  - rewrite (getN_ok 0) by lia. pose proof (In_nthN 0 M (lenN M - 1) ltac:(lia)) as Hin. destruct o as [j|]; [|exfalso; apply (H _ Hin)]. destruct H as [Hj H]. f_equal.
    specialize (H _ Hin). apply In_getN in Hj as (c & C1 & C2). destruct (N.eq_dec c (lenN M - 1)) as [->|]; [apply getN_Some_inv in C2; destruct C2 as [_ C2]; now rewrite C2|].
    pose proof (ss_get M c (lenN M - 1) j (nthN 0 M (lenN M - 1)) HS C2 (getN_ok 0 M (lenN M - 1) ltac:(lia)) ltac:(lia)). lia.
Qed.
Lemma ss_positions b i l : StronglySorted N.lt (positions_from b i l).
Proof.
  revert i. induction l as [|x l IH]; intros i; cbn [positions_from]; [constructor|]. destruct (Bool.eqb x b); [|apply IH]. constructor; [apply IH|].
  apply Forall_forall. intros y Hy. apply positions_from_In in Hy. lia.
Qed.
Lemma ss_filter {A} (R : A -> A -> Prop) f M : StronglySorted R M -> StronglySorted R (filter f M).
Proof.
  induction 1 as [|x M HS IH HF]; cbn [filter]; [constructor|]. destruct (f x); [|exact IH]. constructor; [exact IH|]. apply Forall_forall. intros y Hy. apply filter_In in Hy. rewrite Forall_forall in HF. now apply HF.
Qed.
Lemma map_filter_in {A C} (f : A -> bool) (g : C -> bool) (h : A -> C) l : (forall x, In x l -> f x = g (h x)) -> map h (filter f l) = filter g (map h l).
Proof.
  induction l as [|x l IH]; intros H; [reflexivity|]. cbn [map filter]. rewrite (H x) by now left. destruct (g (h x)); cbn [map]; rewrite IH; auto; intros; apply H; now right.
Qed.
Lemma level_handles t k : map (handle t) (level t k) = filter (fun j => (excess_before (enc t) j =? Z.of_N k)%Z) (positions true (enc t)).
Proof.
  unfold level. rewrite <- preorder_handles. apply map_filter_in. intros p Hp. apply in_preorder in Hp. destruct (subtree t p) as [s|] eqn:Es; [|congruence].
  pose proof (an_ex _ _ _ (at_node_ok _ _ _ Es) 0 ltac:(lia)) as E. rewrite N.add_0_r, ex_0 in E. rewrite E. destruct (N.eqb_spec (lenN p) k), (Z.eqb_spec (Z.of_N (lenN p) + 0) (Z.of_N k)); auto; lia.
Qed.
Lemma level_In t k j : In j (map (handle t) (level t k)) <-> j < lenN (enc t) /\ nthN false (enc t) j = true /\ excess_before (enc t) j = Z.of_N k.
Proof.
  rewrite level_handles, filter_In, Z.eqb_eq. unfold positions. rewrite positions_from_In, N.sub_0_r. cbn [negb]. intuition lia.
Qed.
Lemma level_sorted t k : StronglySorted N.lt (map (handle t) (level t k)).
Proof. rewrite level_handles. apply ss_filter, ss_positions. Qed.

(** ** Collecting iterators *)
Lemma collect_ok {S A} (R : S -> list A -> Prop) next : (forall s l, R s l -> exists s', next s = Ok (s', getN l 0) /\ R s' (dropN 1 l)) ->
  forall l s fuel, R s l -> (length l < fuel)%nat -> collect fuel next s = Ok l.
Proof.
  intros Hstep. induction l as [|x l IH]; intros s fuel HR Hf; (destruct fuel as [|fuel]; [cbn in Hf; lia|]); cbn [collect]; destruct (Hstep s _ HR) as (s' & E & HR'); rewrite E; cbn [bind].
  - reflexivity.
  - change (getN (x :: l) 0) with (Some x). cbn beta iota. rewrite (IH s'); [reflexivity|exact HR'|cbn in Hf; lia].
Qed.
Lemma map_step {S A C} (R : S -> list A -> Prop) next (f : A -> res C) (g : A -> C) :
  (forall s l, R s l -> exists s', next s = Ok (s', getN l 0) /\ R s' (dropN 1 l)) ->
  forall s m, (exists l, R s l /\ (forall x, In x l -> f x = Ok (g x)) /\ m = map g l) ->
  exists s', map_next next f s = Ok (s', getN m 0) /\ exists l, R s' l /\ (forall x, In x l -> f x = Ok (g x)) /\ dropN 1 m = map g l.
Proof.
  intros Hstep s m (l & HR & Hf & ->). destruct (Hstep s l HR) as (s' & E & HR'). unfold map_next. rewrite E. cbn [bind]. destruct l as [|x l].
  - exists s'. split; [reflexivity|]. exists []. split; [exact HR'|]. split; [intros ? []|reflexivity].
  - change (getN (x :: l) 0) with (Some x). cbn beta iota. rewrite Hf by now left. cbn [bind]. exists s'. split; [reflexivity|]. exists l. split; [exact HR'|]. split; [intros; apply Hf; now right|reflexivity].
Qed.
Section Sel.
Variables (zero : bool) (bv : bitvec) (rs : rsvec).
Hypothesis Hwf : wf bv.
Hypothesis G : rs_good bv rs.
Lemma skip_step st l : (exists l0, sel_R zero bv rs (fst st) l0 /\ l = dropN (snd st) l0) ->
  exists st', skip_next (sel_next zero rs) (sel_nth zero rs) st = Ok (st', getN l 0) /\ exists l0, sel_R zero bv rs (fst st') l0 /\ dropN 1 l = dropN (snd st') l0.
Proof using Hwf G.
  destruct st as [s n]. cbn [fst snd]. intros (l0 & HR & ->). unfold skip_next. destruct (N.ltb_spec 0 n).
  - destruct (sel_nth_ok zero bv rs Hwf G s l0 n HR) as (s' & E & HR'). rewrite E. cbn [bind]. eexists. split; [rewrite getN_dropN, N.add_0_r; reflexivity|]. cbn [fst snd].
    exists (dropN (n + 1) l0). split; [auto|]. rewrite dropN_dropN. reflexivity.
  - assert (n = 0) by lia. subst n. destruct (sel_next_ok zero bv rs Hwf G s l0 HR) as (s' & E & HR'). rewrite E. cbn [bind]. eexists. split; [rewrite getN_dropN; reflexivity|]. cbn [fst snd].
    exists (dropN 1 l0). split; [auto|]. reflexivity.
Qed.
Lemma take_step st l : (exists l1 l0, sel_R zero bv rs (fst (fst st)) l0 /\ l1 = dropN (snd (fst st)) l0 /\ l = takeN (snd st) l1) ->
  exists st', take_next (skip_next (sel_next zero rs) (sel_nth zero rs)) st = Ok (st', getN l 0) /\
    exists l1 l0, sel_R zero bv rs (fst (fst st')) l0 /\ l1 = dropN (snd (fst st')) l0 /\ dropN 1 l = takeN (snd st') l1.
Proof using Hwf G.
  destruct st as [st m]. cbn [fst snd]. intros (l1 & l0 & HR & -> & ->). unfold take_next. destruct (N.eqb_spec m 0) as [->|Hm].
  - eexists. split; [reflexivity|]. cbn [fst snd]. eexists _, l0. split; [exact HR|]. split; [reflexivity|]. reflexivity.
  - destruct (skip_step st (dropN (snd st) l0)) as (st' & E & l0' & HR' & El); [eauto|]. rewrite E. cbn [bind]. eexists. split; [rewrite getN_takeN; destruct (N.ltb_spec 0 m); [reflexivity|lia]|]. cbn [fst snd].
    eexists _, l0'. split; [exact HR'|]. split; [reflexivity|]. rewrite <- El. unfold takeN, dropN. rewrite skipn_firstn_comm. f_equal. lia.
Qed.
End Sel.

(** ** The tree operations *)
(** Blocks and lookup blocks fit into each other. *)
Definition aligned (lk : lookup) (B : N) : Prop := B mod lk_size lk = 0 \/ lk_size lk mod B = 0.

Section Tree.
Variables (lk : lookup) (B : N) (bv : bitvec) (bt : bptree) (t : tree).
Hypothesis Hlk : lookup_ok lk.
Hypothesis Hgood : bp_good B bv bt.
Hypothesis Hal : aligned lk B.
Hypothesis Hbits : bits bv = enc t.
Hypothesis Hfit : (Z.of_N (blen bv) + 2 <= 9223372036854775807)%Z.
Local Notation e := (enc t).
Local Notation E := (excess_before (enc t)).
Local Notation rs := (bp_vec bt).

Lemma blen_enc : blen bv = lenN e.
Proof. rewrite <- Hbits. symmetry. apply lenN_bits. Qed.
Lemma rlen_enc : rlen rs = lenN e.
Proof. rewrite (good_len _ _ (bg_rs _ _ _ Hgood)). apply blen_enc. Qed.
Lemma get_ok i : rs_get rs i = Ok (option_map bitN (getN e i)).
Proof. rewrite <- Hbits. apply rs_get_ok; apply Hgood. Qed.
Lemma get_ok' i : i < lenN e -> rs_get rs i = Ok (Some (bitN (nthN false e i))).
Proof. intros Hi. rewrite get_ok, (getN_ok false) by auto. reflexivity. Qed.
Lemma get_unchecked_ok i : i < lenN e -> rs_get_unchecked rs i = Ok (bitN (nthN false e i)).
Proof. intros Hi. rewrite (rs_get_unchecked_ok bv); [|apply Hgood|apply Hgood|rewrite blen_enc; auto]. rewrite <- Hbits. rewrite nthN_bits by (rewrite blen_enc; auto). reflexivity. Qed.
Lemma rank1_ok p : rs_rank1 rs p = Ok (rank_spec true e p).
Proof. rewrite <- Hbits, bits_rank. unfold rs_rank1. rewrite (rs_rank_ok bv) by apply Hgood. reflexivity. Qed.
Lemma rank0_ok p : rs_rank0 rs p = Ok (rank_spec false e p).
Proof. rewrite <- Hbits, bits_rank. unfold rs_rank0. rewrite (rs_rank_ok bv) by apply Hgood. reflexivity. Qed.

Lemma fwd_eq i d o : (Z.abs d + Z.of_N (lenN e) <= 9223372036854775807)%Z -> fwd_result e i d o -> bp_fwd_search lk B bt i d = Ok o.
Proof.
  intros Hd Ho. pose proof (len_enc2 t). destruct (bp_fwd_search_ok lk B bv bt i d Hlk Hgood) as (o' & Eo & Ho'); try (rewrite blen_enc; lia).
  rewrite Hbits in Ho'. now rewrite (fwd_det _ _ _ _ _ Ho Ho').
Qed.
Lemma bwd_eq i d o : (Z.abs d + Z.of_N (lenN e) <= 9223372036854775807)%Z -> i < lenN e -> bwd_result e i d o -> bp_bwd_search lk B bt i d = Ok o.
Proof.
  intros Hd Hi Ho. destruct (bp_bwd_search_ok lk B bv bt i d Hlk Hgood Hal) as (o' & Eo & Ho'); try (rewrite blen_enc; lia).
  rewrite blen_enc, Hbits in Ho'. destruct (N.ltb_spec i (lenN e)); [|lia]. now rewrite (bwd_det _ _ _ _ _ Ho Ho').
Qed.
Lemma fits d : (Z.abs d <= 2)%Z -> (Z.abs d + Z.of_N (lenN e) <= 9223372036854775807)%Z.
Proof. pose proof blen_enc. lia. Qed.

Section AtNode.
Variables (p : path) (s : tree).
Hypothesis Hp : subtree t p = Some s.
Local Notation h := (handle t p).
Local Notation c := (closing t p).

Lemma c_eq : c = h + lenN (enc s) - 1.
Proof. unfold closing. now rewrite Hp. Qed.
Lemma hc : h + 1 <= c /\ c < lenN e.
Proof. rewrite c_eq. pose proof (len_enc2 s). pose proof (an_in _ _ _ (at_node_ok _ _ _ Hp)). lia. Qed.
Lemma ex_h : E h = Z.of_N (lenN p).
Proof. pose proof (an_ex _ _ _ (at_node_ok _ _ _ Hp) 0 ltac:(lia)) as H. rewrite N.add_0_r, ex_0 in H. lia. Qed.
Lemma ex_in k : h < k -> k <= c -> (Z.of_N (lenN p) + 1 <= E k)%Z.
Proof.
  intros H1 H2. rewrite c_eq in H2. pose proof (len_enc2 s). pose proof (an_ex _ _ _ (at_node_ok _ _ _ Hp) (k - h) ltac:(lia)) as H3. replace (h + (k - h)) with k in H3 by lia.
  destruct (enc_balanced s) as [_ Hs]. specialize (Hs (k - h)). lia.
Qed.
Lemma ex_c : E c = (Z.of_N (lenN p) + 1)%Z.
Proof.
  rewrite c_eq. pose proof (len_enc2 s). replace (h + lenN (enc s) - 1) with (h + (lenN (enc s) - 1)) by lia. rewrite (an_ex _ _ _ (at_node_ok _ _ _ Hp)) by lia. rewrite enc_ex_last. lia.
Qed.
Lemma ex_c1 : E (c + 1) = Z.of_N (lenN p).
Proof.
  rewrite c_eq. pose proof (len_enc2 s). replace (h + lenN (enc s) - 1 + 1) with (h + lenN (enc s)) by lia. rewrite (an_ex _ _ _ (at_node_ok _ _ _ Hp)) by lia. rewrite (proj1 (enc_balanced s)). lia.
Qed.
Lemma bit_h : nthN false e h = true.
Proof. pose proof (len_enc2 s). pose proof (an_bit _ _ _ (at_node_ok _ _ _ Hp) 0 ltac:(lia)) as H0. rewrite N.add_0_r in H0. rewrite H0. apply enc_first. Qed.
Lemma bit_c : nthN false e c = false.
Proof.
  rewrite c_eq. pose proof (len_enc2 s). replace (h + lenN (enc s) - 1) with (h + (lenN (enc s) - 1)) by lia. rewrite (an_bit _ _ _ (at_node_ok _ _ _ Hp)) by lia. apply enc_last.
Qed.
Lemma assert_ok : bp_assert_node bt h = Ok tt.
Proof. unfold bp_assert_node. pose proof hc. rewrite get_ok' by lia. rewrite bit_h. reflexivity. Qed.
Lemma in_range i : i < lenN e -> (rlen rs <=? i) = false.
Proof. intros Hi. rewrite rlen_enc. now apply N.leb_gt. Qed.

Lemma close_ok : bp_close lk B bt h = Ok (Some c).
Proof.
  unfold bp_close. pose proof hc. rewrite in_range by lia. apply fwd_eq; [apply fits; lia|]. cbn. pose proof ex_c1. pose proof ex_h.
  assert (E1 : E (h + 1) = (E h + 1)%Z) by (rewrite ex_succ by lia; rewrite bit_h; reflexivity). repeat split; try lia. intros k K1 K2. pose proof (ex_in (k + 1) ltac:(lia) ltac:(lia)). lia.
Qed.
Lemma open_ok : bp_open lk B bt c = Ok (Some h).
Proof.
  unfold bp_open. pose proof hc. rewrite in_range by lia. apply bwd_eq; [apply fits; lia|lia|]. cbn. pose proof ex_c. pose proof ex_h.
  repeat split; try lia. intros k K1 K2. pose proof (ex_in k ltac:(lia) ltac:(lia)). lia.
Qed.
Lemma depth_ok : bp_depth bt h = Ok (lenN p).
Proof.
  unfold bp_depth. rewrite assert_ok. cbn [bind]. unfold bp_excess. rewrite rlen_enc. pose proof hc. destruct (N.ltb_spec h (lenN e)); [|lia]. cbn [assert bind]. rewrite rank1_ok, rank0_ok. cbn [bind].
  change (Z.of_N (rank_spec true e (h + 1)) - Z.of_N (rank_spec false e (h + 1)))%Z with (E (h + 1)). rewrite ex_succ by lia. rewrite bit_h, ex_h. cbn [paren].
  destruct (Z.leb_spec 0 (Z.of_N (lenN p) + 1)); [|lia]. f_equal. lia.
Qed.
Lemma rank_h b : rank_spec b e h = count b (takeN h e).
Proof. reflexivity. Qed.
Lemma enc_cut : exists pre post, e = pre ++ enc s ++ post /\ lenN pre = h.
Proof. destruct (node_split t p s Hp) as (pre & post & H1 & H2 & _). eauto. Qed.
Lemma take_c b : count b (takeN c e) = count b (takeN h e) + (if b then tsize s else tsize s - 1).
Proof.
  destruct enc_cut as (pre & post & H1 & H2). rewrite c_eq, H1. pose proof (len_enc2 s). rewrite <- H2, takeN_app_exact. replace (lenN pre + lenN (enc s) - 1) with (lenN pre + (lenN (enc s) - 1)) by lia.
  rewrite takeN_app_ge by lia. replace (lenN pre + (lenN (enc s) - 1) - lenN pre) with (lenN (enc s) - 1) by lia. rewrite takeN_app_le by lia. rewrite count_app. f_equal.
  destruct (count_enc s) as [C1 C2]. destruct s as [cs]. rewrite len_enc. rewrite enc_node in C1, C2 |- *. rewrite app_assoc in *. replace (lenN (encs cs) + 2 - 1) with (lenN ([true] ++ encs cs)) by (rewrite lenN_app; cbn; lia).
  rewrite takeN_app_exact. rewrite count_app in C1, C2. destruct b; cbn [count Bool.eqb] in *; lia.
Qed.
Lemma subtree_size_ok : bp_subtree_size lk B bt h = Ok (Some (tsize s)).
Proof.
  unfold bp_subtree_size. rewrite assert_ok. cbn [bind]. rewrite close_ok. cbn [bind]. rewrite !rank1_ok. cbn [bind]. unfold rank_spec. rewrite take_c.
  rewrite sub_ok by lia. cbn [bind]. do 2 f_equal. lia.
Qed.
Lemma is_leaf_ok : bp_is_leaf bt h = Ok (match children s with [] => true | _ => false end).
Proof.
  unfold bp_is_leaf. rewrite assert_ok. cbn [bind]. pose proof hc. pose proof (len_enc2 s). rewrite get_ok' by lia. cbn [bind]. rewrite (an_bit _ _ _ (at_node_ok _ _ _ Hp)) by lia. destruct s as [cs]. rewrite enc_second. cbn [children]. destruct cs; reflexivity.
Qed.
End AtNode.

(** Children. *)
Lemma child_sub p cs i c : subtree t p = Some (Node cs) -> nth_error cs i = Some c -> subtree t (p ++ [i]) = Some c.
Proof. intros H Hi. rewrite subtree_snoc, H. exact Hi. Qed.
Lemma sub_child p i c : subtree t (p ++ [i]) = Some c -> exists cs, subtree t p = Some (Node cs) /\ nth_error cs i = Some c.
Proof. rewrite subtree_snoc. destruct (subtree t p) as [[cs]|]; [|discriminate]. intros H. exists cs. auto. Qed.
Lemma firstn_S_len (cs : list tree) i c : nth_error cs i = Some c -> lenN (encs (firstn (S i) cs)) = lenN (encs (firstn i cs)) + lenN (enc c).
Proof.
  intros H. assert (E1 : firstn (S i) cs = firstn i cs ++ [c]).
  { revert i H. induction cs as [|x cs IH]; intros [|i] H; try discriminate; cbn in H; [injection H as ->; reflexivity|]. cbn [firstn app]. f_equal. now apply IH. }
  rewrite E1, encs_app, lenN_app. cbn [encs flat_map]. now rewrite app_nil_r.
Qed.
Lemma child_pos p cs i c : subtree t p = Some (Node cs) -> nth_error cs i = Some c ->
  handle t (p ++ [i]) = handle t p + 1 + lenN (encs (firstn i cs)) /\ closing t (p ++ [i]) + 1 = handle t p + 1 + lenN (encs (firstn (S i) cs)) /\
  handle t p < handle t (p ++ [i]) /\ closing t (p ++ [i]) < closing t p.
Proof.
  intros H Hi. assert (Hl : (i < length cs)%nat) by (apply nth_error_Some; congruence). pose proof (handle_snoc t p cs i H Hl) as E1. pose proof (len_enc2 c) as L2.
  pose proof (firstn_S_len cs i c Hi) as E3. rewrite (c_eq (p ++ [i]) c (child_sub p cs i c H Hi)), (c_eq p _ H). rewrite len_enc.
  pose proof (forest_split cs i c Hi) as Ef. assert (lenN (encs (firstn i cs)) + lenN (enc c) <= lenN (encs cs)) by (apply (f_equal (@lenN bool)) in Ef; rewrite !lenN_app in Ef; lia). lia.
Qed.

Lemma enclose_open_ok p i c : subtree t (p ++ [i]) = Some c -> bp_enclose lk B bt (handle t (p ++ [i])) = Ok (Some (handle t p)).
Proof.
  intros H. destruct (sub_child p i c H) as (cs & Hp & Hi). destruct (child_pos p cs i c Hp Hi) as (P1 & P2 & P3 & P4). unfold bp_enclose. pose proof (hc _ _ H). rewrite in_range by lia.
  rewrite get_unchecked_ok by lia. rewrite (bit_h _ _ H). cbn [bind bitN]. change (1 =? 1) with true. cbn beta iota. apply bwd_eq; [apply fits; lia|lia|]. cbn. pose proof (ex_h _ _ H) as X1. pose proof (ex_h _ _ Hp) as X2. rewrite lenN_app in X1. change (lenN [i]) with 1 in X1.
  repeat split; try lia. intros k K1 K2. pose proof (ex_in _ _ Hp k ltac:(lia) ltac:(lia)). lia.
Qed.
Lemma enclose_close_ok p i c : subtree t (p ++ [i]) = Some c -> bp_enclose lk B bt (closing t (p ++ [i])) = Ok (Some (handle t p)).
Proof.
  intros H. destruct (sub_child p i c H) as (cs & Hp & Hi). destruct (child_pos p cs i c Hp Hi) as (P1 & P2 & P3 & P4). unfold bp_enclose. pose proof (hc _ _ H). rewrite in_range by lia.
  rewrite get_unchecked_ok by lia. rewrite (bit_c _ _ H). cbn [bind bitN]. change (0 =? 1) with false. cbn beta iota. apply bwd_eq; [apply fits; lia|lia|]. cbn. pose proof (ex_c _ _ H) as X1. pose proof (ex_h _ _ Hp) as X2. rewrite lenN_app in X1. change (lenN [i]) with 1 in X1.
  repeat split; try lia. intros k K1 K2. pose proof (ex_in _ _ Hp k ltac:(lia) ltac:(lia)). lia.
Qed.
Lemma enclose_root_ok : bp_enclose lk B bt 0 = Ok None /\ bp_enclose lk B bt (closing t []) = Ok None.
Proof.
  pose proof (hc [] t eq_refl) as Hc. split; unfold bp_enclose; rewrite in_range by lia; rewrite get_unchecked_ok by lia.
  - rewrite enc_first. cbn [bind bitN]. change (1 =? 1) with true. apply bwd_eq; [apply fits; lia|lia|]. cbn. intros; lia.
  - rewrite (bit_c [] t eq_refl). cbn [bind bitN]. change (0 =? 1) with false. apply bwd_eq; [apply fits; lia|lia|]. cbn. pose proof (ex_c [] t eq_refl) as X. change (lenN []) with 0 in X. intros k Hk. pose proof (enc_nonneg t k ltac:(lia)). rewrite enc_ex_last. lia.
Qed.
Lemma parent_ok p i c : subtree t (p ++ [i]) = Some c -> bp_parent lk B bt (handle t (p ++ [i])) = Ok (Some (handle t p)).
Proof. intros H. unfold bp_parent. rewrite (assert_ok _ _ H). cbn [bind]. eapply enclose_open_ok; eauto. Qed.
Lemma parent_root_ok : bp_parent lk B bt 0 = Ok None.
Proof. unfold bp_parent. change 0 with (handle t []) at 1. rewrite (assert_ok [] t eq_refl). apply enclose_root_ok. Qed.
Lemma first_child_ok p cs : subtree t p = Some (Node cs) -> bp_first_child bt (handle t p) = Ok (match cs with [] => None | _ => Some (handle t (p ++ [0%nat])) end).
Proof.
  intros H. unfold bp_first_child. rewrite (assert_ok _ _ H). cbn [bind]. pose proof (hc _ _ H). rewrite get_ok' by lia. cbn [bind]. rewrite (an_bit _ _ _ (at_node_ok _ _ _ H)) by (rewrite len_enc; lia). rewrite enc_second.
  destruct cs as [|c cs]; [reflexivity|]. cbn. rewrite (handle_snoc t p (c :: cs) 0 H) by (cbn; lia). cbn. now rewrite N.add_0_r.
Qed.
Lemma next_sibling_ok p cs i c : subtree t p = Some (Node cs) -> nth_error cs i = Some c ->
  bp_next_sibling lk B bt (handle t (p ++ [i])) = Ok (if (S i <? length cs)%nat then Some (handle t (p ++ [S i])) else None).
Proof.
  intros Hp Hi. pose proof (child_sub p cs i c Hp Hi) as H. destruct (child_pos p cs i c Hp Hi) as (P1 & P2 & P3 & P4). unfold bp_next_sibling. rewrite (assert_ok _ _ H). cbn [bind]. rewrite (close_ok _ _ H). cbn [bind]. pose proof (hc _ _ Hp).
  rewrite get_ok' by lia. cbn [bind]. destruct (Nat.ltb_spec (S i) (length cs)) as [Hl|Hl].
  - assert (E1 : handle t (p ++ [S i]) = closing t (p ++ [i]) + 1) by (rewrite (handle_snoc t p cs (S i) Hp Hl); lia). rewrite <- E1.
    destruct (nth_error cs (S i)) as [c'|] eqn:E2; [|apply nth_error_None in E2; lia]. rewrite (bit_h _ _ (child_sub p cs (S i) c' Hp E2)). reflexivity.
  - rewrite firstn_all2 in P2 by lia. assert (E1 : closing t (p ++ [i]) + 1 = closing t p) by (rewrite (c_eq _ _ Hp), len_enc; lia). rewrite E1, (bit_c _ _ Hp). reflexivity.
Qed.
Lemma next_sibling_root_ok : bp_next_sibling lk B bt 0 = Ok None.
Proof.
  unfold bp_next_sibling. change 0 with (handle t []). rewrite (assert_ok [] t eq_refl). cbn [bind]. rewrite (close_ok [] t eq_refl). cbn [bind]. rewrite get_ok, getN_none; [reflexivity|]. rewrite (c_eq [] t eq_refl). pose proof (len_enc2 t). cbn [handle]. lia.
Qed.
Lemma previous_sibling_ok p cs i c : subtree t p = Some (Node cs) -> nth_error cs i = Some c ->
  bp_previous_sibling lk B bt (handle t (p ++ [i])) = Ok (match i with O => None | S j => Some (handle t (p ++ [j])) end).
Proof.
  intros Hp Hi. pose proof (child_sub p cs i c Hp Hi) as H. destruct (child_pos p cs i c Hp Hi) as (P1 & P2 & P3 & P4). unfold bp_previous_sibling. rewrite (assert_ok _ _ H). cbn [bind]. pose proof (hc _ _ H).
  destruct (N.eqb_spec (handle t (p ++ [i])) 0); [lia|]. rewrite get_ok' by lia. cbn [bind]. destruct i as [|j].
  - assert (E1 : handle t (p ++ [0%nat]) - 1 = handle t p) by (rewrite P1; cbn; lia). rewrite E1, (bit_h _ _ Hp). reflexivity.
  - destruct (nth_error cs j) as [c'|] eqn:E2; [|apply nth_error_None in E2; assert (S j < length cs)%nat by (apply nth_error_Some; congruence); lia].
    destruct (child_pos p cs j c' Hp E2) as (Q1 & Q2 & Q3 & Q4). assert (E1 : handle t (p ++ [S j]) - 1 = closing t (p ++ [j])) by lia. rewrite E1.
    pose proof (child_sub p cs j c' Hp E2) as H'. rewrite (bit_c _ _ H'). cbn [bitN N.eqb]. apply (open_ok _ _ H').
Qed.
Lemma previous_sibling_root_ok : bp_previous_sibling lk B bt 0 = Ok None.
Proof. unfold bp_previous_sibling. change 0 with (handle t []) at 1. rewrite (assert_ok [] t eq_refl). reflexivity. Qed.
Lemma last_child_ok p cs : subtree t p = Some (Node cs) -> bp_last_child lk B bt (handle t p) = Ok (match cs with [] => None | _ => Some (handle t (p ++ [(length cs - 1)%nat])) end).
Proof.
  intros H. unfold bp_last_child. rewrite (assert_ok _ _ H). cbn [bind]. pose proof (hc _ _ H). rewrite get_ok' by lia. cbn [bind]. rewrite (an_bit _ _ _ (at_node_ok _ _ _ H)) by (rewrite len_enc; lia). rewrite enc_second.
  destruct cs as [|c cs]; [reflexivity|]. cbn [bitN]. change (1 =? 1) with true. cbn beta iota. rewrite (close_ok _ _ H). cbn [bind]. rewrite sub_ok by lia. cbn [bind].
  set (ds := c :: cs) in *. destruct (nth_error ds (length ds - 1)) as [c'|] eqn:E2; [|apply nth_error_None in E2; cbn in E2; lia].
  destruct (child_pos p ds _ c' H E2) as (Q1 & Q2 & Q3 & Q4). rewrite firstn_all2 in Q2 by (cbn; lia).
  assert (E1 : closing t p - 1 = closing t (p ++ [(length ds - 1)%nat])) by (rewrite (c_eq p _ H), len_enc in *; lia). rewrite E1.
  apply (open_ok _ _ (child_sub p ds _ c' H E2)).
Qed.

(** Numbering. *)
Lemma node_index_ok k p : getN (preorder t) k = Some p -> bp_node_index bt (handle t p) = Ok k /\ bp_node_handle bt k = Ok (handle t p).
Proof.
  intros Hk. assert (Hin : In p (preorder t)) by (eapply getN_In; eauto). apply in_preorder in Hin. destruct (subtree t p) as [s|] eqn:Es; [|congruence].
  assert (Hpos : getN (positions true e) k = Some (handle t p)).
  { rewrite <- preorder_handles. apply getN_Some_inv in Hk as [Hl Hk]. rewrite (getN_ok 0) by (unfold lenN in *; rewrite map_length; auto). f_equal. rewrite (nthN_map (handle t) [] 0) by auto. now rewrite Hk. }
  split.
  - unfold bp_node_index. rewrite (assert_ok _ _ Es). cbn [bind]. rewrite rank1_ok. f_equal. now apply getN_positions in Hpos as (_ & _ & H).
  - unfold bp_node_handle. rewrite (rs_select1_ok bv) by apply Hgood. rewrite Hbits. unfold select_spec. now rewrite Hpos.
Qed.
Lemma size_ok : bp_size bt = Ok (tsize t).
Proof. unfold bp_size. rewrite rlen_enc, rank1_ok. unfold rank_spec. rewrite takeN_all by lia. now rewrite (proj1 (count_enc t)). Qed.
Lemma is_ancestor_ok a d sa sd : subtree t a = Some sa -> subtree t d = Some sd -> bp_is_ancestor lk B bt (handle t a) (handle t d) = Ok (Some (is_prefix a d)).
Proof.
  intros Ha Hd. unfold bp_is_ancestor. rewrite (assert_ok _ _ Ha), (assert_ok _ _ Hd). cbn [bind]. rewrite (close_ok _ _ Ha). cbn [bind]. rewrite (prefix_interval t a d sa sd Ha Hd), (c_eq _ _ Ha). reflexivity.
Qed.

(** Levels. *)
Lemma ancestor_sub p s n : subtree t p = Some s -> exists a, subtree t (firstn n p) = Some a.
Proof. rewrite <- (firstn_skipn n p) at 1. rewrite subtree_app. destruct (subtree t (firstn n p)); [eauto|discriminate]. Qed.
Lemma level_ancestor_ok p s l : subtree t p = Some s -> (Z.of_N l + Z.of_N (lenN e) <= 9223372036854775807)%Z ->
  bp_level_ancestor lk B bt (handle t p) l = Ok (if l <=? lenN p then Some (handle t (firstn (length p - N.to_nat l) p)) else None).
Proof.
  intros Hp Hl. unfold bp_level_ancestor. destruct (N.eqb_spec l 0) as [->|Hl0].
  { destruct (N.leb_spec 0 (lenN p)); [|lia]. change (N.to_nat 0) with 0%nat. now rewrite Nat.sub_0_r, firstn_all. }
  unfold as_i64. destruct (N.ltb_spec l (2 ^ 63)) as [_|Hb]; [|change (2 ^ 63) with 9223372036854775808 in Hb; lia]. rewrite i64_ok by lia. cbn [bind]. pose proof (hc _ _ Hp) as Hc.
  apply bwd_eq; [lia|lia|]. pose proof (ex_h _ _ Hp) as X. destruct (N.leb_spec l (lenN p)) as [Hle|Hle]; cbn.
  - destruct (ancestor_sub p s (length p - N.to_nat l) Hp) as (a & Ha). pose proof (ex_h _ _ Ha) as Xa. assert (El : lenN (firstn (length p - N.to_nat l) p) = lenN p - l) by (unfold lenN in *; rewrite firstn_length; lia). rewrite El in Xa.
    set (q := firstn (length p - N.to_nat l) p) in *. assert (Epq : p = q ++ skipn (length p - N.to_nat l) p) by (symmetry; apply firstn_skipn).
    assert (Hr : subtree a (skipn (length p - N.to_nat l) p) = Some s) by (rewrite Epq, subtree_app, Ha in Hp; exact Hp).
    assert (Eh : handle t p = handle t q + handle a (skipn (length p - N.to_nat l) p)) by (rewrite Epq at 1; apply handle_app; auto).
    pose proof (an_in _ _ _ (at_node_ok _ _ _ Hr)) as Hi1. pose proof (len_enc2 s). assert (Hne : skipn (length p - N.to_nat l) p <> []).
    { intros E0. apply (f_equal (@length nat)) in E0. rewrite skipn_length in E0. cbn in E0. unfold lenN in *. lia. }
    pose proof (an_proper _ _ _ (at_node_ok _ _ _ Hr) Hne) as [Hi2 _]. repeat split; try lia. intros k K1 K2. pose proof (ex_in _ _ Ha k K1). rewrite (c_eq _ _ Ha) in *. rewrite El in *. lia.
  - intros k Hk. pose proof (enc_nonneg t k ltac:(lia)). lia.
Qed.
Lemma level_pos k p i : getN (level t k) i = Some p -> exists s, subtree t p = Some s /\ lenN p = k /\ getN (map (handle t) (level t k)) i = Some (handle t p).
Proof.
  intros H. pose proof (getN_In _ _ _ H) as Hin. unfold level in Hin. apply filter_In in Hin as [Hin Hk]. apply N.eqb_eq in Hk. apply in_preorder in Hin. destruct (subtree t p) as [s|] eqn:Es; [|congruence]. exists s. split; [auto|]. split; [auto|].
  apply getN_Some_inv in H as [Hl H]. rewrite (getN_ok 0) by (unfold lenN in *; rewrite map_length; auto). f_equal. rewrite (nthN_map (handle t) [] 0) by auto. now rewrite H.
Qed.
Lemma level_get k i : getN (map (handle t) (level t k)) i = option_map (handle t) (getN (level t k) i).
Proof. unfold getN, lenN. rewrite map_length, nth_error_map. destruct (i <? _); reflexivity. Qed.

Lemma level_next_ok k p i : getN (level t k) i = Some p -> bp_level_next lk B bt (handle t p) = Ok (option_map (handle t) (getN (level t k) (i + 1))).
Proof.
  intros H. destruct (level_pos k p i H) as (s & Hs & Hk & Hg). unfold bp_level_next. rewrite (close_ok _ _ Hs). cbn [bind]. pose proof (hc _ _ Hs) as Hc. pose proof (ex_c1 _ _ Hs) as X.
  pose proof (len_enc2 t). destruct (bp_fwd_search_ok lk B bv bt (closing t p) 1 Hlk Hgood) as (o & Eo & Ho); try (rewrite blen_enc; lia); try (pose proof (fits 1 ltac:(lia)); rewrite blen_enc; lia). rewrite Eo. f_equal. rewrite <- level_get. rewrite Hbits in Ho.
  apply (next_in_get _ i (handle t p)); [apply level_sorted|exact Hg|]. rewrite Hk in *.
  assert (Hout : forall x, In x (map (handle t) (level t k)) -> handle t p < x -> closing t p < x /\ x < lenN e /\ E (x + 1) = (Z.of_N k + 1)%Z).
  { intros x Hx Hlt. apply level_In in Hx as (X1 & X2 & X3). destruct (N.ltb_spec (closing t p) x) as [Hcx|Hcx]; [|pose proof (ex_in _ _ Hs x Hlt Hcx); lia]. split; [auto|]. split; [auto|]. rewrite ex_succ by auto. rewrite X2. cbn [paren]. lia. }
  destruct o as [j|]; cbn in Ho |- *.
  - destruct Ho as (J1 & J2 & J3 & J4). rewrite X in J3, J4.
    destruct (first_up e (closing t p + 1) j (Z.of_N k + 1) ltac:(lia) ltac:(lia) J2 J3) as [F1 F2]; [intros x X1 X2; apply J4; lia|].
    split; [apply level_In; split; [auto|split; [auto|lia]]|]. split; [lia|]. intros x Hx Hlt. destruct (Hout x Hx Hlt) as (X1 & X2 & X3). destruct (N.leb_spec j x) as [|Hjx]; [auto|]. exfalso. apply (J4 x); auto.
  - intros x Hx. destruct (N.leb_spec x (handle t p)) as [|Hlt]; [auto|]. destruct (Hout x Hx Hlt) as (X1 & X2 & X3). exfalso. apply (Ho x); auto. lia.
Qed.
(** The step shared by [level_prev] and [level_rightmost]. *)
Lemma bwd_open_ok h k d : h < lenN e -> (Z.abs d + Z.of_N (lenN e) <= 9223372036854775807)%Z -> (E h + d = Z.of_N k + 1)%Z -> (0 < d)%Z ->
  exists o, (let* c := bp_bwd_search lk B bt h d in match c with None => Ok None | Some c => bp_open lk B bt c end) = Ok o /\ prev_in (map (handle t) (level t k)) h o.
Proof.
  intros Hh Hd Ed Hdpos. destruct (bp_bwd_search_ok lk B bv bt h d Hlk Hgood Hal) as (o & Eo & Ho); [rewrite blen_enc; lia|]. rewrite blen_enc in Ho. destruct (N.ltb_spec h (lenN e)); [|lia]. rewrite Hbits in Ho. rewrite Eo. cbn [bind].
  assert (Hout : forall x, In x (map (handle t) (level t k)) -> x < h -> x + 1 < h /\ E (x + 1) = (Z.of_N k + 1)%Z /\ E x = Z.of_N k).
  { intros x Hx Hlt. apply level_In in Hx as (X1 & X2 & X3). assert (E1 : E (x + 1) = (Z.of_N k + 1)%Z) by (rewrite ex_succ by auto; rewrite X2; cbn [paren]; lia). split; [|auto]. destruct (N.eq_dec (x + 1) h) as [E2|]; [rewrite E2 in E1; lia|lia]. }
  destruct o as [j|]; cbn in Ho.
  - destruct Ho as (J1 & J2 & J3). rewrite Ed in J2, J3.
    unfold bp_open. rewrite in_range by lia. destruct (bp_bwd_search_ok lk B bv bt j (-1) Hlk Hgood Hal) as (o & Eo' & Ho); [pose proof (fits (-1) ltac:(lia)); rewrite blen_enc; lia|]. rewrite blen_enc in Ho. destruct (N.ltb_spec j (lenN e)); [|lia]. rewrite Hbits in Ho. rewrite Eo'. exists o. split; [reflexivity|].
    destruct o as [j'|]; cbn in Ho |- *.
    + destruct Ho as (K1 & K2 & K3). rewrite J2 in K2, K3. split; [|split; [lia|]].
      * apply level_In. split; [lia|]. split; [|lia]. apply (open_up e j' j (Z.of_N k + 1)); auto; try lia.
      * intros x Hx Hlt. destruct (Hout x Hx Hlt) as (X1 & X2 & X3). destruct (N.leb_spec x j') as [|Hx']; [auto|]. exfalso. destruct (N.ltb_spec x j) as [Hxj|Hxj]; [apply (K3 x); lia|].
        destruct (N.eq_dec x j) as [->|]; [lia|]. apply (J3 (x + 1)); auto. lia.
    + exfalso. rewrite J2 in Ho. destruct (ivt e 0 j (Z.of_N k) ltac:(lia)) as (m & M1 & M2 & M3); [rewrite ex_0; lia|]. assert (m <> j) by (intros ->; lia). apply (Ho m); lia.
  - exists None. split; [reflexivity|]. cbn. intros x Hx. destruct (N.leb_spec h x) as [|Hlt]; [auto|]. destruct (Hout x Hx Hlt) as (X1 & X2 & X3). exfalso. apply (Ho (x + 1)); auto. lia.
Qed.
Lemma level_prev_ok k p i : getN (level t k) i = Some p -> bp_level_prev lk B bt (handle t p) = Ok (if i =? 0 then None else option_map (handle t) (getN (level t k) (i - 1))).
Proof.
  intros H. destruct (level_pos k p i H) as (s & Hs & Hk & Hg). pose proof (hc _ _ Hs). pose proof (ex_h _ _ Hs) as X. rewrite Hk in X.
  destruct (bwd_open_ok (handle t p) k 1) as (o & Eo & Ho); [lia|apply fits; lia|lia|lia|]. unfold bp_level_prev. rewrite Eo. f_equal. rewrite <- level_get. apply (prev_in_get _ i (handle t p)); auto. apply level_sorted.
Qed.
Lemma level_leftmost_ok k : (Z.of_N k + Z.of_N (lenN e) <= 9223372036854775807)%Z -> bp_level_leftmost lk B bt k = Ok (option_map (handle t) (getN (level t k) 0)).
Proof.
  intros Hk. unfold bp_level_leftmost. rewrite <- level_get. pose proof (len_enc2 t). destruct (N.eqb_spec k 0) as [->|Hk0].
  - f_equal. apply first_get; [apply level_sorted|]. split; [|intros; lia]. apply level_In. split; [lia|]. split; [apply enc_first|now rewrite ex_0].
  - unfold as_i64. destruct (N.ltb_spec k (2 ^ 63)) as [_|Hb]; [|change (2 ^ 63) with 9223372036854775808 in Hb; lia].
    destruct (bp_fwd_search_ok lk B bv bt 0 (Z.of_N k) Hlk Hgood) as (o & Eo & Ho); try (rewrite blen_enc; lia). rewrite Eo. f_equal. rewrite Hbits in Ho. apply first_get; [apply level_sorted|].
    pose proof (enc_ex1 t) as X1.
    assert (Hout : forall x, In x (map (handle t) (level t k)) -> 0 < x /\ x < lenN e /\ E (x + 1) = (1 + Z.of_N k)%Z).
    { intros x Hx. apply level_In in Hx as (Y1 & Y2 & Y3). assert (x <> 0) by (intros ->; rewrite ex_0 in Y3; lia). split; [lia|]. split; [auto|]. rewrite ex_succ by auto. rewrite Y2. cbn [paren]. lia. }
    unfold fwd_result in Ho. change (0 + 1) with 1 in Ho. rewrite X1 in Ho. destruct o as [j|].
    + destruct Ho as (J1 & J2 & J3 & J4). destruct (first_up e 1 j (1 + Z.of_N k) ltac:(lia) ltac:(lia) J2 J3) as [F1 F2]; [intros x Y1 Y2; apply J4; lia|].
      split; [apply level_In; split; [auto|split; [auto|lia]]|]. intros x Hx. destruct (Hout x Hx) as (Y1 & Y2 & Y3). destruct (N.leb_spec j x) as [|Hjx]; [auto|]. exfalso. apply (J4 x); auto.
    + intros x Hx. destruct (Hout x Hx) as (Y1 & Y2 & Y3). apply (Ho x); auto.
Qed.
Lemma level_rightmost_ok k : (Z.of_N k + Z.of_N (lenN e) <= 9223372036854775807)%Z -> 1 <= k \/ 2 <= tsize t ->
  bp_level_rightmost lk B bt k = Ok (option_map (handle t) (getN (level t k) (lenN (level t k) - 1))).
Proof.
  intros Hk Hc. unfold bp_level_rightmost. rewrite size_ok. cbn [bind]. pose proof (enc_len_size t) as Hsz. pose proof (len_enc2 t) as H2. rewrite (N.mul_comm (tsize t) 2), <- Hsz. rewrite sub_ok by lia. cbn [bind].
  unfold as_i64. destruct (N.ltb_spec k (2 ^ 63)) as [_|Hb]; [|change (2 ^ 63) with 9223372036854775808 in Hb; lia]. pose proof (enc_ex_last t) as Xl.
  rewrite <- level_get. replace (lenN (level t k)) with (lenN (map (handle t) (level t k))) by (unfold lenN; now rewrite map_length).
  destruct (N.eq_dec k 0) as [->|Hk0].
  - destruct (bp_bwd_search_ok lk B bv bt (lenN e - 1) (Z.of_N 0) Hlk Hgood Hal) as (o & Eo & Ho); [rewrite blen_enc; lia|]. rewrite blen_enc in Ho. destruct (N.ltb_spec (lenN e - 1) (lenN e)); [|lia]. rewrite Hbits in Ho. rewrite Eo. cbn [bind]. unfold bwd_result in Ho. rewrite Xl in Ho.
    destruct o as [j|]; [|exfalso; apply (Ho 1); [lia|]; now rewrite enc_ex1]. destruct Ho as (J1 & J2 & _).
    assert (Hj0 : j <> 0) by (intros ->; rewrite ex_0 in J2; discriminate).
    unfold bp_open. rewrite in_range by lia. rewrite (bwd_eq j (-1) (Some 0)); [|apply fits; lia|lia|].
    + f_equal. apply last_get; [apply level_sorted|]. split; [apply level_In; split; [lia|split; [apply enc_first|now rewrite ex_0]]|]. intros x Hx. apply level_In in Hx as (Y1 & Y2 & Y3).
      destruct (N.eq_dec x 0); [lia|]. destruct (enc_balanced t) as [_ Hb]. specialize (Hb x). lia.
    + cbn. repeat split; try lia. intros x Y1 Y2. destruct (enc_balanced t) as [_ Hb]. specialize (Hb x). lia.
  - destruct (bwd_open_ok (lenN e - 1) k (Z.of_N k)) as (o & Eo & Ho); [lia|lia|lia|lia|]. rewrite Eo. f_equal. apply last_get; [apply level_sorted|].
    assert (Hlt : forall x, In x (map (handle t) (level t k)) -> x < lenN e - 1).
    { intros x Hx. apply level_In in Hx as (Y1 & Y2 & Y3). assert (x <> lenN e - 1) by (intros ->; rewrite enc_last in Y2; discriminate). lia. }
    destruct o as [j|]; cbn in Ho.
    + destruct Ho as (J1 & J2 & J3). split; [auto|]. intros x Hx. apply J3; auto.
    + intros x Hx. specialize (Ho x Hx). specialize (Hlt x Hx). lia.
Qed.

(** Iterators. *)
Lemma positions_fuel (b : bool) : (length (positions b e) < bp_fuel bt)%nat.
Proof.
  unfold bp_fuel. rewrite rlen_enc. pose proof (lenN_positions b e) as H. pose proof (count_le b e). unfold lenN in *. lia.
Qed.
Lemma dfs_ok : bp_dfs_list bt = Ok (map (handle t) (preorder t)).
Proof.
  unfold bp_dfs_list, bp_dfs_iter. destruct (sel_new_ok false bv rs (bg_wf _ _ _ Hgood) (bg_rs _ _ _ Hgood)) as (it & E1 & HR). rewrite E1. cbn [bind].
  rewrite preorder_handles. unfold posz in HR. cbn [negb] in HR. rewrite Hbits in HR. apply (collect_ok (sel_R false bv rs)); [|exact HR|apply positions_fuel].
  intros s l. apply sel_next_ok; apply Hgood.
Qed.
Lemma open_item_ok x : In x (positions false e) -> exists p s, subtree t p = Some s /\ x = closing t p /\ bp_open_item lk B bt x = Ok (handle t p).
Proof.
  rewrite <- postorder_closings. rewrite in_map_iff. intros (p & <- & Hin). apply in_postorder in Hin. destruct (subtree t p) as [s|] eqn:Es; [|congruence]. exists p, s. split; [auto|]. split; [auto|].
  unfold bp_open_item. now rewrite (open_ok p s Es).
Qed.
(** The opening parenthesis found by [open], as a total function. *)
Definition opener (x : N) : N := match bp_open_item lk B bt x with Ok y => y | _ => 0 end.
Lemma opener_ok x : In x (positions false e) -> bp_open_item lk B bt x = Ok (opener x).
Proof. intros H. destruct (open_item_ok x H) as (p & s & _ & _ & E1). unfold opener. now rewrite E1. Qed.
Lemma opener_closing p s : subtree t p = Some s -> opener (closing t p) = handle t p.
Proof. intros H. unfold opener, bp_open_item. now rewrite (open_ok p s H). Qed.
Lemma dfs_post_ok : bp_dfs_post_list lk B bt = Ok (map (handle t) (postorder t)).
Proof.
  unfold bp_dfs_post_list. destruct (sel_new_ok true bv rs (bg_wf _ _ _ Hgood) (bg_rs _ _ _ Hgood)) as (it & E1 & HR). rewrite E1. cbn [bind].
  unfold posz in HR. cbn [negb] in HR. rewrite Hbits in HR.
  eapply (collect_ok _ _ (map_step (sel_R true bv rs) (sel_next true rs) (bp_open_item lk B bt) opener ltac:(intros s l; apply sel_next_ok; apply Hgood))).
  - exists (positions false e). split; [exact HR|]. split; [intros; now apply opener_ok|]. rewrite <- postorder_closings, map_map. apply map_ext_in. intros p Hin. apply in_postorder in Hin. destruct (subtree t p) as [s|] eqn:Es; [|congruence]. symmetry. eapply opener_closing; eauto.
  - rewrite map_length. rewrite <- (map_length (closing t)), postorder_closings. apply positions_fuel.
Qed.
Lemma sub_positions p s b : subtree t p = Some s -> takeN (tsize s) (dropN (count b (takeN (handle t p) e)) (positions b e)) = map (N.add (handle t p)) (positions b (enc s)).
Proof.
  intros Hp. destruct (enc_cut p s Hp) as (pre & post & H1 & H2). rewrite H1, <- H2, takeN_app_exact, !positions_app, map_app. rewrite <- lenN_positions, dropN_app_exact.
  destruct (count_enc s) as [C1 C2]. assert (El : tsize s = lenN (map (N.add (lenN pre)) (positions b (enc s)))) by (rewrite lenN_map, lenN_positions; destruct b; auto). rewrite El. apply takeN_app_exact.
Qed.
Lemma closing_app p q s r : subtree t p = Some s -> subtree s q = Some r -> closing t (p ++ q) = handle t p + closing s q.
Proof.
  intros Hp Hq. unfold closing. rewrite subtree_app, Hp, Hq, (handle_app t p q s Hp). pose proof (len_enc2 r). lia.
Qed.
Lemma sub_fuel p s b : subtree t p = Some s -> (length (map (N.add (handle t p)) (positions b (enc s))) < bp_fuel bt)%nat.
Proof.
  intros Hp. rewrite map_length. unfold bp_fuel. rewrite rlen_enc. pose proof (lenN_positions b (enc s)) as H. pose proof (count_le b (enc s)). pose proof (an_in _ _ _ (at_node_ok _ _ _ Hp)). unfold lenN in *. lia.
Qed.
Lemma subtree_list_ok p s : subtree t p = Some s -> bp_subtree_list lk B bt (handle t p) = Ok (map (fun q => handle t (p ++ q)) (preorder s)).
Proof.
  intros Hp. unfold bp_subtree_list. rewrite (assert_ok p s Hp). cbn [bind]. rewrite rank1_ok. cbn [bind]. rewrite (close_ok p s Hp). cbn [bind]. rewrite rank1_ok. cbn [bind]. unfold rank_spec. rewrite (take_c p s Hp).
  rewrite sub_ok by lia. cbn [bind]. destruct (sel_new_ok false bv rs (bg_wf _ _ _ Hgood) (bg_rs _ _ _ Hgood)) as (it & E1 & HR). rewrite E1. cbn [bind]. unfold posz in HR. cbn [negb] in HR. rewrite Hbits in HR.
  replace (count true (takeN (handle t p) e) + tsize s - count true (takeN (handle t p) e)) with (tsize s) by lia.
  assert (El : map (fun q => handle t (p ++ q)) (preorder s) = map (N.add (handle t p)) (positions true (enc s))) by (rewrite <- preorder_handles, map_map; apply map_ext; intros q; now apply handle_app).
  rewrite El. eapply (collect_ok _ _ (take_step false bv rs (bg_wf _ _ _ Hgood) (bg_rs _ _ _ Hgood))); [|eapply sub_fuel; eauto].
  eexists _, (positions true e). cbn [fst snd]. split; [exact HR|]. split; [reflexivity|]. symmetry. now apply sub_positions.
Qed.
Lemma subtree_post_list_ok p s : subtree t p = Some s -> bp_subtree_post_list lk B bt (handle t p) = Ok (map (fun q => handle t (p ++ q)) (postorder s)).
Proof.
  intros Hp. unfold bp_subtree_post_list. rewrite (assert_ok p s Hp). cbn [bind]. rewrite rank0_ok. cbn [bind]. rewrite (close_ok p s Hp). cbn [bind]. rewrite rank0_ok. cbn [bind]. unfold rank_spec. rewrite (take_c p s Hp).
  rewrite sub_ok by lia. cbn [bind]. destruct (sel_new_ok true bv rs (bg_wf _ _ _ Hgood) (bg_rs _ _ _ Hgood)) as (it & E1 & HR). rewrite E1. cbn [bind]. unfold posz in HR. cbn [negb] in HR. rewrite Hbits in HR.
  assert (Hs1 : 1 <= tsize s) by (destruct s; cbn [tsize]; lia).
  replace (count false (takeN (handle t p) e) + (tsize s - 1) + 1 - count false (takeN (handle t p) e)) with (tsize s) by lia.
  assert (Hcl : map (N.add (handle t p)) (positions false (enc s)) = map (fun q => closing t (p ++ q)) (postorder s)).
  { rewrite <- postorder_closings, map_map. apply map_ext_in. intros q Hin. apply in_postorder in Hin. destruct (subtree s q) as [r|] eqn:Er; [|congruence]. symmetry. eapply closing_app; eauto. }
  assert (Hsub : forall q, In q (postorder s) -> exists r, subtree t (p ++ q) = Some r).
  { intros q Hin. apply in_postorder in Hin. destruct (subtree s q) as [r|] eqn:Er; [|congruence]. exists r. now rewrite subtree_app, Hp. }
  eapply (collect_ok _ _ (map_step _ _ (bp_open_item lk B bt) opener (take_step true bv rs (bg_wf _ _ _ Hgood) (bg_rs _ _ _ Hgood)))).
  - exists (map (fun q => closing t (p ++ q)) (postorder s)). split; [|split].
    + eexists _, (positions false e). cbn [fst snd]. split; [exact HR|]. split; [reflexivity|]. rewrite <- Hcl. symmetry. now apply sub_positions.
    + intros x Hx. apply opener_ok. rewrite <- postorder_closings. apply in_map_iff in Hx as (q & <- & Hq). apply in_map_iff. exists (p ++ q). split; [auto|]. apply in_postorder. destruct (Hsub q Hq) as (r & ->). discriminate.
    + rewrite map_map. apply map_ext_in. intros q Hq. destruct (Hsub q Hq) as (r & Hr). symmetry. eapply opener_closing; eauto.
  - rewrite map_length, <- (map_length (fun q => closing t (p ++ q))), <- Hcl. eapply sub_fuel; eauto.
Qed.
Lemma nchildren p cs : subtree t p = Some (Node cs) -> (length cs < bp_fuel bt)%nat.
Proof.
  intros Hp. unfold bp_fuel. rewrite rlen_enc. pose proof (an_in _ _ _ (at_node_ok _ _ _ Hp)) as H. rewrite len_enc in H.
  assert (Hc : N.of_nat (length cs) <= lenN (encs cs)). { clear. induction cs as [|c cs IH]; [cbn; lia|]. rewrite encs_cons, lenN_app. pose proof (len_enc2 c). cbn [length]. lia. }
  unfold lenN in *. lia.
Qed.
Lemma children_ok p cs : subtree t p = Some (Node cs) -> bp_children_list lk B true bt (handle t p) = Ok (map (fun i => handle t (p ++ [i])) (seq 0 (length cs))).
Proof.
  intros Hp. unfold bp_children_list. rewrite (assert_ok p _ Hp). cbn [bind]. rewrite (first_child_ok p cs Hp). cbn [bind].
  apply (collect_ok (fun cur l => exists i, (i <= length cs)%nat /\ cur = (if (i <? length cs)%nat then Some (handle t (p ++ [i])) else None) /\ l = map (fun i => handle t (p ++ [i])) (seq i (length cs - i)))).
  - intros cur l (i & Hi & -> & ->). destruct (Nat.ltb_spec i (length cs)) as [Hl|Hl].
    + destruct (nth_error cs i) as [c|] eqn:Ec; [|apply nth_error_None in Ec; lia]. cbn [bp_children_next]. rewrite (next_sibling_ok p cs i c Hp Ec). cbn [bind]. eexists. replace (length cs - i)%nat with (S (length cs - S i)) by lia. cbn [seq map]. split; [reflexivity|].
      exists (S i). split; [lia|]. split; reflexivity.
    + cbn [bp_children_next]. assert (i = length cs) by lia. subst i. rewrite Nat.sub_diag. exists None. split; [reflexivity|]. exists (length cs). split; [lia|]. rewrite Nat.ltb_irrefl, Nat.sub_diag. split; reflexivity.
  - exists 0%nat. split; [lia|]. rewrite Nat.sub_0_r. split; [|reflexivity]. destruct cs; reflexivity.
  - rewrite map_length, seq_length. eapply nchildren; eauto.
Qed.
Lemma rev_children_ok p cs : subtree t p = Some (Node cs) -> bp_children_list lk B false bt (handle t p) = Ok (map (fun i => handle t (p ++ [i])) (rev (seq 0 (length cs)))).
Proof.
  intros Hp. unfold bp_children_list. rewrite (assert_ok p _ Hp). cbn [bind]. rewrite (last_child_ok p cs Hp). cbn [bind].
  apply (collect_ok (fun cur l => exists m, (m <= length cs)%nat /\ cur = (match m with O => None | S j => Some (handle t (p ++ [j])) end) /\ l = map (fun i => handle t (p ++ [i])) (rev (seq 0 m)))).
  - intros cur l (m & Hm & -> & ->). destruct m as [|j].
    + exists None. split; [reflexivity|]. exists 0%nat. split; [lia|]. split; reflexivity.
    + destruct (nth_error cs j) as [c|] eqn:Ec; [|apply nth_error_None in Ec; lia]. cbn [bp_children_next]. rewrite (previous_sibling_ok p cs j c Hp Ec). cbn [bind]. eexists. rewrite seq_S, rev_app_distr. cbn [rev app map Nat.add]. split; [reflexivity|].
      exists j. split; [lia|]. split; reflexivity.
  - exists (length cs). split; [lia|]. split; [|reflexivity]. destruct cs as [|c cs]; [reflexivity|]. cbn [length]. now rewrite Nat.sub_succ, Nat.sub_0_r.
  - rewrite map_length, rev_length, seq_length. eapply nchildren; eauto.
Qed.
End Tree.

(** ** The builder. [true] stands for [enter_node], [false] for [leave_node]. *)
Definition bb_run (ops : list bool) : res bpbuilder := forM ops bb_new (fun b op => if op : bool then bb_enter b else bb_leave b).
Lemma bb_run_ok ops : exists b, bb_run ops = Ok b /\ wf (bb_vec b) /\ bits (bb_vec b) = ops /\ bb_excess b = (Z.of_N (count true ops) - Z.of_N (count false ops))%Z.
Proof.
  unfold bb_run. assert (H : forall ops b pre, wf (bb_vec b) -> bits (bb_vec b) = pre -> bb_excess b = (Z.of_N (count true pre) - Z.of_N (count false pre))%Z ->
    exists b', forM ops b (fun b op => if op : bool then bb_enter b else bb_leave b) = Ok b' /\ wf (bb_vec b') /\ bits (bb_vec b') = pre ++ ops /\ bb_excess b' = (Z.of_N (count true (pre ++ ops)) - Z.of_N (count false (pre ++ ops)))%Z).
  { clear ops. induction ops as [|op ops IH]; intros b pre Hwf Hb He.
    - exists b. rewrite app_nil_r. auto.
    - cbn [forM]. destruct op.
      + unfold bb_enter. destruct (bv_append_bit_ok (bb_vec b) 1 Hwf) as (v & Ev & Hwv & Hbv). rewrite Ev. cbn [bind]. destruct (IH (mkbb (bb_excess b + 1) v) (pre ++ [true])) as (b' & E' & R); cbn [bb_vec bb_excess]; auto.
        * rewrite Hbv, Hb. reflexivity.
        * rewrite !count_app, He. cbn. lia.
        * exists b'. rewrite <- app_assoc in R. auto.
      + unfold bb_leave. destruct (bv_append_bit_ok (bb_vec b) 0 Hwf) as (v & Ev & Hwv & Hbv). rewrite Ev. cbn [bind]. destruct (IH (mkbb (bb_excess b - 1) v) (pre ++ [false])) as (b' & E' & R); cbn [bb_vec bb_excess]; auto.
        * rewrite Hbv, Hb. reflexivity.
        * rewrite !count_app, He. cbn. lia.
        * exists b'. rewrite <- app_assoc in R. auto. }
  destruct (H ops bb_new []) as (b & R); auto; [apply bv_new_wf|exists b; exact R].
Qed.
