(** * Wavelet matrix construction by sorting. *)
From Verif Require Import Base Spec BaseFacts WordFacts BitVecModel BitVecProofs BitVecProofs2 RsVecModel RsVecProofs IterFacts WaveletModel WaveletProofs.

(** ** Bit vectors without junk above their length. *)
Definition good_bv (bv : bitvec) (l : list bool) : Prop := wf bv /\ zero_tail bv /\ bits bv = l.

Lemma gb_len bv l : good_bv bv l -> blen bv = lenN l.
Proof. intros (_ & _ & <-). now rewrite lenN_bits. Qed.
Lemma gb_zeros n : good_bv (bv_from_zeros n) (replicate n false).
Proof.
  destruct (bv_from_zeros_ok n) as [H1 H2]. split; [auto|]. split; [|auto]. intros i _.
  unfold bit_at. assert (E : forall d j, (d = replicate (n / 64) 0 ++ (if n mod 64 =? 0 then [] else [0])) -> nthN 0 d j = 0).
  { intros d j ->. rewrite nthN_app, lenN_replicate. destruct (N.ltb_spec j (n / 64)); [now rewrite nthN_replicate|].
    destruct (n mod 64 =? 0); [now rewrite nthN_overflow by (cbn; lia)|]. rewrite nthN_cons. destruct (_ =? 0); [reflexivity|]. now rewrite nthN_overflow by (cbn; lia). }
  rewrite E by reflexivity. apply N.bits_0.
Qed.
Lemma bv_set_unchecked_other bv p v bv' i : p / 64 < lenN (bdata bv) -> bv_set_unchecked bv p v = Ok bv' -> i <> p ->
  bit_at (bdata bv') i = bit_at (bdata bv) i.
Proof.
  intros Hp E Hi. unfold bv_set_unchecked in E. rewrite upd_limb_ok in E by auto. cbn [bind] in E. injection E as <-. cbn [bdata].
  rewrite bit_at_set by auto. destruct (N.eqb_spec (i / 64) (p / 64)) as [Eq|]; [|reflexivity].
  unfold bit_at. rewrite Eq, N.lor_spec, N.land_spec, not64_spec, shl64_1_spec by dlia. rewrite land_1, shl64_spec.
  destruct (N.ltb_spec (i mod 64) 64); [|dlia]. destruct (N.eqb_spec (i mod 64) (p mod 64)); [dlia|]. rewrite andb_true_r.
  destruct (N.leb_spec (p mod 64) (i mod 64)); cbn [andb]; [|now rewrite orb_false_r].
  destruct (N.testbit v 0); cbn [bitN]; rewrite ?N.bits_0, ?testbit_1.
  - destruct (N.eqb_spec (i mod 64 - p mod 64) 0); [lia|]. now rewrite orb_false_r.
  - now rewrite orb_false_r.
Qed.
Lemma gb_set bv l p v : good_bv bv l -> p < lenN l ->
  exists bv', bv_set_unchecked bv p v = Ok bv' /\ good_bv bv' (set_nth l (N.to_nat p) (N.testbit v 0)).
Proof.
  intros G Hp. pose proof (gb_len _ _ G) as Hl. destruct G as (H & Hz & Hb). rewrite <- Hl in Hp.
  destruct (bv_set_ok bv p v H Hp) as (bv' & E & H' & Hb'). unfold bv_set in E. destruct (N.leb_spec (blen bv) p); [lia|].
  destruct (bv_set_unchecked bv p v) as [b2| |] eqn:E2; cbn [bind] in E; try discriminate. injection E as ->.
  exists bv'. split; [reflexivity|]. split; [auto|]. split; [|now rewrite <- Hb].
  assert (Eb : blen bv' = blen bv) by (rewrite <- !lenN_bits, Hb', lenN_set_nth; reflexivity).
  intros i Hi. rewrite (bv_set_unchecked_other bv p v bv' i); [apply Hz; lia| |auto|lia].
  rewrite (proj1 H). dlia.
Qed.
Lemma gb_set_chk bv l p v : good_bv bv l -> p < lenN l ->
  exists bv', bv_set bv p v = Ok (Some bv') /\ good_bv bv' (set_nth l (N.to_nat p) (N.testbit v 0)).
Proof.
  intros G Hp. destruct (gb_set bv l p v G Hp) as (bv' & E & G'). exists bv'. split; [|auto]. unfold bv_set. rewrite (gb_len _ _ G), E.
  destruct (N.leb_spec (lenN l) p); [lia|reflexivity].
Qed.
Lemma gb_get bv l p : good_bv bv l -> p < lenN l -> bv_get_unchecked bv p = Ok (bitN (nthN false l p)).
Proof.
  intros G Hp. pose proof (gb_len _ _ G) as Hl. destruct G as (H & _ & <-). rewrite bv_get_unchecked_ok by (auto; lia). now rewrite nthN_bits by lia.
Qed.
Lemma words_nth_lt d i : words d -> nthN 0 d i < U64.
Proof.
  intros H. destruct (N.lt_ge_cases i (lenN d)); [|rewrite nthN_overflow by auto; reflexivity].
  unfold words in H. rewrite Forall_forall in H. apply H. now apply In_nthN.
Qed.
Lemma gb_unique a b l : good_bv a l -> good_bv b l -> a = b.
Proof.
  intros Ga Gb. pose proof (gb_len _ _ Ga) as La. pose proof (gb_len _ _ Gb) as Lb.
  destruct Ga as ((Ha & Wa) & Za & Ba), Gb as ((Hb & Wb) & Zb & Bb).
  assert (Hbit : forall i, bit_at (bdata a) i = bit_at (bdata b) i).
  { intros i. destruct (N.lt_ge_cases i (lenN l)).
    - rewrite <- (nthN_bits false a), <- (nthN_bits false b) by lia. congruence.
    - rewrite Za, Zb by lia. reflexivity. }
  destruct a as [da la], b as [db lb]. cbn [bdata blen] in *. subst la lb. f_equal.
  apply list_ext with (d := 0); [congruence|]. intros i Hi. apply N.bits_inj. intros j.
  destruct (N.lt_ge_cases j 64) as [Hj|Hj].
  - specialize (Hbit (64 * i + j)). unfold bit_at in Hbit. replace ((64 * i + j) / 64) with i in Hbit by dlia. now replace ((64 * i + j) mod 64) with j in Hbit by dlia.
  - rewrite !(testbit_high _ 64); auto; now apply words_nth_lt.
Qed.

Lemma set_nth_app_mid {A} (l : list A) x m v : set_nth (l ++ x :: m) (N.to_nat (lenN l)) v = l ++ v :: m.
Proof. unfold lenN. rewrite Nat2N.id. induction l as [|y l IH]; cbn; [reflexivity|]. now rewrite IH. Qed.
Lemma lenN_filter_split {A} (f : A -> bool) l : lenN (filter (fun x => negb (f x)) l) + lenN (filter f l) = lenN l.
Proof. induction l as [|x l IH]; [reflexivity|]. cbn [filter]. rewrite lenN_cons'. destruct (f x); cbn [negb]; rewrite lenN_cons'; lia. Qed.
Lemma forM_idx_list {A S} (P : list A -> S -> Prop) (l : list A) s (f : S -> N -> res S) :
  P [] s ->
  (forall pre x post s, l = pre ++ x :: post -> P pre s -> idx l (lenN pre) = Ok x -> exists s', f s (lenN pre) = Ok s' /\ P (pre ++ [x]) s') ->
  exists s', forM (range 0 (lenN l)) s f = Ok s' /\ P l s'.
Proof.
  intros H0 Hs.
  destruct (forM_range_inv (fun i s => P (takeN i l) s) 0 (lenN l) s f) as (s' & E & Hf); [lia|exact H0| |].
  - intros i st _ Hi HP. assert (Hx : exists x, nth_error l (N.to_nat i) = Some x).
    { destruct (nth_error l (N.to_nat i)) eqn:E; eauto. apply nth_error_None in E. unfold lenN in Hi. lia. }
    destruct Hx as [x Hx]. destruct (nth_error_split _ _ Hx) as (pr & po & E & Hpr).
    assert (Ei : i = lenN pr) by (unfold lenN; lia). assert (Et : takeN i l = pr) by (rewrite E, Ei; apply takeN_lenN_app).
    rewrite Et in HP. destruct (Hs pr x po st E HP) as (s' & Es & HP').
    { rewrite <- Ei. unfold idx. destruct (N.ltb_spec i (lenN l)); [now rewrite Hx|lia]. }
    rewrite <- Ei in Es. exists s'. split; [auto|].
    assert (Et1 : takeN (i + 1) l = pr ++ [x]).
    { rewrite E. replace (pr ++ x :: po) with ((pr ++ [x]) ++ po) by (now rewrite <- app_assoc). replace (i + 1) with (lenN (pr ++ [x])) by (rewrite lenN_app'; unfold lenN at 2; cbn; lia).
      apply takeN_lenN_app. }
    now rewrite Et1.
  - exists s'. split; [auto|]. replace l with (takeN (lenN l) l) at 1; auto. unfold takeN, lenN. rewrite Nat2N.id. apply firstn_all.
Qed.
Lemma range_lenN n : lenN (range 0 n) = n.
Proof. unfold range, lenN. rewrite map_length, seq_length. lia. Qed.
Lemma replicate_cons {A} n (x : A) : 0 < n -> replicate n x = x :: replicate (n - 1) x.
Proof. intros H. unfold replicate. replace (N.to_nat n) with (S (N.to_nat (n - 1))) by lia. reflexivity. Qed.
Lemma mapM_ok {A B} (f : A -> res B) (R : A -> B -> Prop) l :
  (forall x, In x l -> exists y, f x = Ok y /\ R x y) -> exists ys, mapM f l = Ok ys /\ Forall2 R l ys.
Proof.
  induction l as [|x l IH]; intros H; cbn [mapM]; [exists []; auto|].
  destruct (H x (or_introl eq_refl)) as (y & E & HR). rewrite E. cbn [bind].
  destruct IH as (ys & E2 & HF); [intros; apply H; now right|]. rewrite E2. cbn [bind]. exists (y :: ys). auto.
Qed.

Lemma Forall2_len {A B} (R : A -> B -> Prop) l m : Forall2 R l m -> length l = length m.
Proof. induction 1; cbn; congruence. Qed.

Section Sorting.
Variables (k n : N).
Variable B : N -> N -> bool.
Definition looks (lookup : N -> N -> res N) : Prop := forall p j, p < n -> j < k -> lookup p j = Ok (bitN (B p j)).

(** Bit of the element [p] at a level. *)
Definition lvl (level p : N) : bool := B p (k - level - 1).
(** The order of the elements at each level. *)
Definition next_order (level : N) (P : list N) : list N := filter (fun p => negb (lvl level p)) P ++ filter (lvl level) P.
Fixpoint order (i : nat) : list N :=
  match i with
  | O => range 0 n
  | S i => next_order (N.of_nat i) (order i)
  end.
Definition inside (P : list N) : Prop := lenN P = n /\ Forall (fun p => p < n) P.
Lemma inside_next level P : inside P -> inside (next_order level P).
Proof using.
  intros [H1 H2]. split.
  - unfold next_order. rewrite lenN_app', lenN_filter_split. auto.
  - unfold next_order. rewrite Forall_forall in *. intros p Hp. apply in_app_or in Hp as [Hp|Hp]; apply filter_In in Hp as [Hp _]; auto.
Qed.
Lemma inside_order i : inside (order i).
Proof using.
  induction i as [|i IH]; [|now apply inside_next]. split; [apply range_lenN|]. apply Forall_forall. intros p Hp. apply In_range in Hp. lia.
Qed.

Lemma ps_fill_ok lookup P level : looks lookup -> inside P -> level < k ->
  exists d, ps_fill k lookup P level (bv_from_zeros n) = Ok (lenN (filter (fun p => negb (lvl level p)) P), d) /\ good_bv d (map (lvl level) P).
Proof using.
  intros Hlook [HP1 HP2] Hlv. unfold ps_fill.
  destruct (forM_idx_list (fun pr '(z, d) => z = lenN (filter (fun p => negb (lvl level p)) pr) /\
      good_bv d (map (lvl level) pr ++ replicate (n - lenN pr) false)) P (0, bv_from_zeros n)
    (fun '(zeros, data) i =>
      let* p := idx P i in let* sh := sub (k - level) 1 in let* b := lookup p sh in
      if b =? 0 then Ok (zeros + 1, data)
      else let* o := bv_set data i 1 in match o with Some data => Ok (zeros, data) | None => Panic end)) as ([z d] & E & Ez & G).
  - split; [reflexivity|]. cbn [map app]. rewrite N.sub_0_r. apply gb_zeros.
  - intros pr x po [z d] EP [Ez G] Hi. rewrite Hi. cbn [bind]. rewrite (sub_ok (k - level)) by lia. cbn [bind].
    assert (Hx : x < n) by (rewrite Forall_forall in HP2; apply HP2; rewrite EP; apply in_elt).
    rewrite Hlook by (auto; lia). cbn [bind]. fold (lvl level x).
    assert (Hlen : lenN pr < n) by (rewrite <- HP1, EP, lenN_app', lenN_cons'; lia).
    assert (En : n - lenN (pr ++ [x]) = n - lenN pr - 1) by (rewrite lenN_app'; change (lenN [x]) with 1; lia).
    rewrite (replicate_cons (n - lenN pr)) in G by lia.
    destruct (lvl level x) eqn:Ex; cbn [bitN N.eqb Pos.eqb].
    + destruct (gb_set_chk d _ (lenN pr) 1 G) as (d' & Ed & G').
      { rewrite lenN_app', lenN_map, lenN_cons'. lia. }
      rewrite Ed. cbn [bind]. eexists. split; [reflexivity|]. cbn beta iota.
      rewrite <- (lenN_map (lvl level) pr), set_nth_app_mid, lenN_map in G'. rewrite filter_app. cbn [filter]. rewrite Ex. cbn [negb]. rewrite app_nil_r.
      split; [auto|]. rewrite map_app, En, <- app_assoc. cbn [map app]. rewrite Ex. exact G'.
    + eexists. split; [reflexivity|]. cbn beta iota. rewrite filter_app. cbn [filter]. rewrite Ex. cbn [negb].
      split; [rewrite lenN_app'; change (lenN [x]) with 1; lia|]. rewrite map_app, En, <- app_assoc. cbn [map app]. rewrite Ex. exact G.
  - exists d. rewrite E, Ez. split; [reflexivity|]. rewrite HP1, N.sub_diag in G. cbn in G. now rewrite app_nil_r in G.
Qed.

Lemma ps_scatter_ok P next level d : inside P -> lenN next = n -> good_bv d (map (lvl level) P) ->
  ps_scatter P next d (lenN (filter (fun p => negb (lvl level p)) P)) = Ok (next_order level P).
Proof using.
  intros [HP1 HP2] Hn G. unfold ps_scatter. set (f0 := fun p => negb (lvl level p)). set (z := lenN (filter f0 P)).
  pose proof (lenN_filter_split (lvl level) P) as Hsp. fold f0 in Hsp. fold z in Hsp.
  destruct (forM_idx_list (fun pr '(nx, zb, ob) => exists X Y,
      nx = (filter f0 pr ++ X) ++ (filter (lvl level) pr ++ Y) /\ zb = lenN (filter f0 pr) /\ ob = z + lenN (filter (lvl level) pr) /\
      lenN (filter f0 pr ++ X) = z /\ lenN nx = n) P (next, 0, z)
    (fun '(next, zb, ob) i =>
      let* p := idx P i in
      let* b := bv_get_unchecked d i in
      if b =? 0 then let* next := set_idx next zb p in Ok (next, zb + 1, ob)
      else let* next := set_idx next ob p in Ok (next, zb, ob + 1))) as ([[nx zb] ob] & E & X & Y & E1 & E2 & E3 & E4 & E5).
  - exists (takeN z next), (dropN z next). cbn [filter app]. unfold takeN, dropN. rewrite firstn_skipn.
    split; [auto|]. split; [reflexivity|]. split; [change (lenN (@nil N)) with 0; lia|]. split; [|auto]. unfold lenN. rewrite firstn_length. unfold lenN in *. lia.
  - intros pr x po [[nx zb] ob] EP (X & Y & E1 & E2 & E3 & E4 & E5) Hi. rewrite Hi. cbn [bind].
    rewrite (gb_get d _ (lenN pr) G) by (rewrite lenN_map, EP, lenN_app', lenN_cons'; lia). cbn [bind].
    assert (Eb : nthN false (map (lvl level) P) (lenN pr) = lvl level x).
    { rewrite EP, map_app. cbn [map]. rewrite <- (lenN_map (lvl level) pr). apply nthN_mid. }
    rewrite Eb.
    assert (Hz : z = lenN (filter f0 pr) + lenN (filter f0 (x :: po))) by (unfold z; rewrite EP, filter_app, lenN_app'; reflexivity).
    assert (Ho : lenN (filter (lvl level) P) = lenN (filter (lvl level) pr) + lenN (filter (lvl level) (x :: po))) by (rewrite EP, filter_app, lenN_app'; reflexivity).
    assert (Ef0 : f0 x = negb (lvl level x)) by reflexivity.
    destruct (lvl level x) eqn:Ex; cbn [bitN N.eqb Pos.eqb].
    + cbn [filter] in Ho, Hz. rewrite Ex, lenN_cons' in Ho. rewrite Ef0 in Hz. cbn [negb] in Hz.
      unfold set_idx. destruct (N.ltb_spec ob (lenN nx)); [|lia]. cbn [bind]. eexists. split; [reflexivity|]. cbn beta iota.
      destruct Y as [|y Y].
      { exfalso. rewrite E1, lenN_app', app_nil_r in E5. lia. }
      exists X, Y. rewrite !filter_app. cbn [filter]. rewrite Ex, Ef0. cbn [negb]. rewrite app_nil_r.
      assert (Es : set_nth nx (N.to_nat ob) x = (filter f0 pr ++ X) ++ (filter (lvl level) pr ++ [x]) ++ Y).
      { rewrite E1, <- (app_assoc (filter (lvl level) pr)). cbn [app]. rewrite (app_assoc (filter f0 pr ++ X)), (app_assoc (filter f0 pr ++ X)).
        replace ob with (lenN ((filter f0 pr ++ X) ++ filter (lvl level) pr)) by (rewrite (lenN_app' (filter f0 pr ++ X)); lia). apply set_nth_app_mid. }
      split; [exact Es|]. split; [auto|]. split; [rewrite (lenN_app' (filter (lvl level) pr)); change (lenN [x]) with 1; lia|]. split; [auto|]. now rewrite lenN_set_nth.
    + cbn [filter] in Ho, Hz. rewrite Ex in Ho. rewrite Ef0 in Hz. cbn [negb] in Hz. rewrite lenN_cons' in Hz.
      unfold set_idx. destruct (N.ltb_spec zb (lenN nx)); [|lia]. cbn [bind]. eexists. split; [reflexivity|]. cbn beta iota.
      destruct X as [|y X].
      { exfalso. rewrite app_nil_r in E4. lia. }
      exists X, Y. rewrite !filter_app. cbn [filter]. rewrite Ex, Ef0. cbn [negb]. rewrite app_nil_r.
      assert (Es : set_nth nx (N.to_nat zb) x = ((filter f0 pr ++ [x]) ++ X) ++ (filter (lvl level) pr ++ Y)).
      { rewrite E1, E2. rewrite <- !app_assoc. cbn [app]. apply set_nth_app_mid. }
      split; [exact Es|]. split; [rewrite (lenN_app' (filter f0 pr)); change (lenN [x]) with 1; lia|]. split; [auto|].
      split; [|now rewrite lenN_set_nth]. rewrite !lenN_app' in *. rewrite lenN_cons' in E4. change (lenN [x]) with 1. lia.
  - rewrite E. cbn [bind]. f_equal. fold z in E4. rewrite lenN_app' in E4. fold z in E4.
    assert (X = []) by (destruct X; [auto|rewrite lenN_cons' in E4; lia]). subst X.
    rewrite app_nil_r in E1. rewrite E1, !lenN_app' in E5.
    assert (Y = []) by (destruct Y; [auto|rewrite lenN_cons' in E5; lia]). subst Y. rewrite app_nil_r in E1. exact E1.
Qed.

(** Every level holds the bits of the elements in the order of that level. *)
Definition levels_ok (datas : list bitvec) : Prop :=
  forall i, (i < length datas)%nat -> good_bv (nth i datas bv_new) (map (lvl (N.of_nat i)) (order i)).

Lemma permutation_sorting_ok lookup : looks lookup ->
  exists datas, permutation_sorting k n lookup = mapM rs_from_bit_vec datas /\ lenN datas = k /\ levels_ok datas.
Proof using.
  intros Hlook. unfold permutation_sorting.
  destruct (forM_range_inv (fun lv '(datas, perm, next) => lenN datas = lv /\ levels_ok datas /\ lenN next = n /\
       (lv < k -> perm = order (N.to_nat lv))) 0 k ([], range 0 n, replicate n 0)
     (fun '(datas, perm, next) level =>
      let* '(zeros, data) := ps_fill k lookup perm level (bv_from_zeros n) in
      if level <? k - 1 then
        let* next := ps_scatter perm next data zeros in Ok (datas ++ [data], next, perm)
      else Ok (datas ++ [data], perm, next))) as ([[datas perm] next] & E & HI); [lia| | |].
  - split; [reflexivity|]. split; [intros i Hi; cbn in Hi; lia|]. split; [apply lenN_replicate|reflexivity].
  - intros lv [[datas perm] next] _ Hlv (H1 & H2 & H3 & H4). rewrite (H4 Hlv).
    destruct (ps_fill_ok lookup (order (N.to_nat lv)) lv Hlook (inside_order _) Hlv) as (d & E & G). rewrite E. cbn [bind].
    assert (Hlv' : levels_ok (datas ++ [d])).
    { intros i Hi. rewrite app_length in Hi. cbn in Hi. destruct (Nat.lt_ge_cases i (length datas)).
      - rewrite app_nth1 by auto. now apply H2.
      - assert (Ei : i = length datas) by lia. subst i. rewrite app_nth2, Nat.sub_diag by lia. cbn [nth]. unfold lenN in H1. rewrite H1.
        replace (length datas) with (N.to_nat lv) by lia. exact G. }
    assert (Hl' : lenN (datas ++ [d]) = lv + 1) by (rewrite lenN_app', H1; reflexivity).
    destruct (N.ltb_spec lv (k - 1)).
    + rewrite (ps_scatter_ok _ next lv d) by (auto using inside_order). cbn [bind]. eexists. split; [reflexivity|]. cbn beta iota.
      split; [auto|]. split; [auto|]. split; [apply inside_order|]. intros _. replace (N.to_nat (lv + 1)) with (S (N.to_nat lv)) by lia. cbn [order]. now rewrite N2Nat.id.
    + eexists. split; [reflexivity|]. cbn beta iota. split; [auto|]. split; [auto|]. split; [auto|]. lia.
  - rewrite E. cbn [bind]. exists datas. destruct HI as (H1 & H2 & _). auto.
Qed.

(** The words of the elements below a level, most significant bit first. *)
Definition tail_word (level p : N) : word := map (fun j => lvl (level + j) p) (range 0 (k - level)).
Lemma tail_word_cons level p : level < k -> tail_word level p = lvl level p :: tail_word (level + 1) p.
Proof using.
  intros H. unfold tail_word. rewrite (range_cons 0 (k - level)) by lia. cbn [map]. rewrite N.add_0_r. f_equal.
  apply list_ext with (d := false).
  - rewrite !lenN_map, !lenN_range. lia.
  - intros i Hi. rewrite lenN_map, lenN_range in Hi. rewrite !(nthN_map _ 0) by (rewrite lenN_range; lia). rewrite !nthN_range by lia. f_equal. lia.
Qed.
Lemma sel_words b level P : level < k ->
  sel b (map (tail_word level) P) = map (tail_word (level + 1)) (filter (fun p => Bool.eqb (lvl level p) b) P).
Proof using.
  intros H. induction P as [|p P IH]; [reflexivity|]. cbn [map]. rewrite sel_cons. rewrite tail_word_cons by auto. cbn [hdb hd tl filter].
  destruct (Bool.eqb (lvl level p) b); cbn [map]; now rewrite IH.
Qed.
Lemma part_words level P : level < k ->
  part (map (tail_word level) P) = map (tail_word (level + 1)) (next_order level P).
Proof using.
  intros H. unfold part, next_order. rewrite !sel_words, map_app by auto. f_equal; f_equal; apply filter_ext; intros p; now destruct (lvl level p).
Qed.
Lemma enc_levels datas w : lenN datas = k -> levels_ok datas -> Forall2 (fun bv d => rs_from_bit_vec bv = Ok d) datas w ->
  enc w (map (tail_word 0) (range 0 n)).
Proof using.
  intros Hk Hlv HF.
  assert (H : forall m i, (i + m = length datas)%nat -> enc (skipn i w) (map (tail_word (N.of_nat i)) (order i))).
  { intros m. induction m as [|m IH]; intros i Hi.
    - assert (Ei : i = length datas) by lia. subst i. assert (Hlw : length w = length datas) by (symmetry; eapply Forall2_len; eauto).
      rewrite <- Hlw at 1. rewrite skipn_all. cbn [enc]. apply Forall_forall. intros x Hx. apply in_map_iff in Hx as (p & <- & _).
      unfold tail_word. unfold lenN in Hk. rewrite Hk, N.sub_diag. reflexivity.
    - assert (Hlt : (i < length datas)%nat) by lia. assert (Hlk : N.of_nat i < k) by (unfold lenN in Hk; lia).
      assert (Hlw : length w = length datas) by (symmetry; eapply Forall2_len; eauto).
      destruct (skipn i w) as [|d ws] eqn:Es.
      { assert (Hs : length (skipn i w) = 0%nat) by now rewrite Es. rewrite skipn_length in Hs. lia. }
      assert (Hd : rs_from_bit_vec (nth i datas bv_new) = Ok d).
      { clear -HF Es Hlt. revert i Hlt Es. induction HF as [|a b la lb Hab HF IH]; intros [|i] Hlt Es; cbn in *; try lia; try congruence. apply IH; auto. lia. }
      assert (Es' : skipn (S i) w = ws).
      { clear -Es. revert i Es. induction w as [|y w IH]; intros [|i] Es; cbn in *; try congruence. now apply IH. }
      cbn [enc]. split; [|split].
      + apply Forall_forall. intros x Hx. apply in_map_iff in Hx as (p & <- & _). rewrite tail_word_cons by auto. discriminate.
      + destruct (Hlv i Hlt) as (Hwf & _ & Hb). pose proof (level_built _ _ Hwf Hd) as L. rewrite Hb in L.
        rewrite map_map. erewrite map_ext; [exact L|]. intros p. cbn beta. rewrite tail_word_cons by auto. reflexivity.
      + rewrite part_words by auto. rewrite <- Es'. replace (N.of_nat i + 1) with (N.of_nat (S i)) by lia. change (next_order (N.of_nat i) (order i)) with (order (S i)).
        apply IH. lia. }
  apply (H (length datas) 0%nat). lia.
Qed.

Theorem sorting_enc lookup : looks lookup -> exists datas w, permutation_sorting k n lookup = Ok w /\ lenN w = k /\
  mapM rs_from_bit_vec datas = Ok w /\ lenN datas = k /\ levels_ok datas /\
  enc w (map (tail_word 0) (range 0 n)).
Proof using.
  intros Hlook. destruct (permutation_sorting_ok lookup Hlook) as (datas & E & Hk & Hlv).
  destruct (mapM_ok rs_from_bit_vec (fun bv d => rs_from_bit_vec bv = Ok d) datas) as (w & Ew & HF).
  { intros bv Hin. destruct (In_nth _ _ bv_new Hin) as (i & Hi & <-). destruct (Hlv i Hi) as (Hwf & _).
    destruct (rs_from_bit_vec_ok _ Hwf) as (rs & Er & _). exists rs. auto. }
  exists datas, w. rewrite E, Ew. split; [reflexivity|]. split; [|split; [reflexivity|split; [auto|split; [auto|now apply (enc_levels datas)]]]].
  apply Forall2_len in HF. unfold lenN in *. now rewrite <- HF.
Qed.
End Sorting.
