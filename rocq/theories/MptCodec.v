(** * Encoded nodes: what is stored under a hash is read back as the same node. *)
From Verif Require Import Base BaseFacts Types Rlp RlpFacts Mpt MptFacts MptDen.
Local Open Scope nat_scope.

(** ** Compact paths *)
Lemma nib_byte a b : a < 16 -> b < 16 ->
  N.to_nat (bN (byte_of (N.of_nat (16 * a + b))) / 16) = a /\ N.to_nat (bN (byte_of (N.of_nat (16 * a + b))) mod 16) = b.
Proof.
  intros Ha Hb. rewrite bN_byte_of_small by lia.
  replace (N.of_nat (16 * a + b)) with (N.of_nat b + N.of_nat a * 16)%N by lia.
  rewrite N.div_add, N.mod_add by lia. rewrite N.div_small, N.mod_small by lia. lia.
Qed.
Lemma nibs_pack q : low q -> Nat.even (length q) = true -> to_nibs (pack q) = q.
Proof.
  intros Hq. remember (length q) as n eqn:E. revert q Hq E. induction n as [n IH] using lt_wf_ind. intros q Hq E He.
  destruct q as [|a [|b q]]; [reflexivity|subst n; discriminate He|].
  apply low_cons in Hq as [Ha Hq]. apply low_cons in Hq as [Hb Hq]. cbn [pack to_nibs flat_map].
  destruct (nib_byte a b Ha Hb) as [-> ->]. cbn [app]. do 2 f_equal. apply (IH (length q)); [cbn in E; lia|exact Hq|reflexivity|].
  subst n. exact He.
Qed.
Lemma last_term q : is_leaf_key (q ++ [TERM]) = true.
Proof. unfold is_leaf_key. rewrite last_snoc. reflexivity. Qed.
Lemma last_low q : low q -> is_leaf_key q = false.
Proof.
  intros H. unfold is_leaf_key. destruct (last q) as [x|] eqn:E; [|reflexivity]. apply last_Some_elem_of in E.
  eapply Forall_forall in H; [|exact E]. apply Nat.eqb_neq. lia.
Qed.
Lemma compact_roundtrip k : kp k \/ low k -> from_compact (compact k) = k.
Proof.
  assert (forall (f : nat) hex, f = 0 \/ f = 2 -> low hex ->
    to_nibs (if Nat.odd (length hex) then match hex with a :: hex' => byte_of (N.of_nat (16 * f + 16 + a)) :: pack hex' | [] => [] end
             else byte_of (N.of_nat (16 * f)) :: pack hex) =
    (if Nat.odd (length hex) then (f + 1) :: hex else f :: 0 :: hex)) as Hn.
  { intros f hex Hf Hl. destruct (Nat.odd (length hex)) eqn:Eo.
    - destruct hex as [|a hex]; [discriminate|]. apply low_cons in Hl as [Ha Hl]. cbn [to_nibs flat_map].
      replace (16 * f + 16 + a) with (16 * (f + 1) + a) by lia. destruct (nib_byte (f + 1) a) as [-> ->]; [lia|exact Ha|].
      cbn [app]. do 2 f_equal. apply nibs_pack; [exact Hl|]. cbn [length] in Eo. rewrite Nat.odd_succ in Eo. exact Eo.
    - cbn [to_nibs flat_map]. replace (16 * f) with (16 * f + 0) by lia. destruct (nib_byte f 0) as [-> ->]; [lia|lia|].
      cbn [app]. do 2 f_equal. apply nibs_pack; [exact Hl|]. rewrite <- Nat.negb_odd, Eo. reflexivity. }
  intros [(q & -> & Hq)|Hl].
  - unfold from_compact, compact. rewrite last_term, removelast_last.
    pose proof (Hn 2 q (or_intror eq_refl) Hq) as E. change (16 * 2) with 32 in E.
    rewrite E. destruct (Nat.odd (length q)); reflexivity.
  - unfold from_compact, compact. rewrite last_low by exact Hl.
    pose proof (Hn 0 k (or_introl eq_refl) Hl) as E. change (16 * 0) with 0 in E.
    rewrite E. destruct (Nat.odd (length k)); reflexivity.
Qed.
Lemma pack_len q : length (pack q) <= length q.
Proof.
  remember (length q) as n eqn:E. revert q E. induction n as [n IH] using lt_wf_ind. intros q E.
  destruct q as [|a [|b q]]; cbn [pack length]; [lia|lia|]. pose proof (IH (length q) ltac:(cbn in E; lia) q eq_refl). cbn in E. lia.
Qed.
Lemma compact_len k : length (compact k) <= S (length k).
Proof.
  unfold compact. set (hex := if is_leaf_key k then removelast k else k).
  assert (length hex <= length k) as H.
  { subst hex. destruct (is_leaf_key k); [|lia]. destruct k as [|x k]; [cbn; lia|].
    destruct (exists_last (l := x :: k)) as (l & y & ->); [discriminate|]. rewrite removelast_last, app_length. lia. }
  destruct (Nat.odd (length hex)).
  - destruct hex as [|a hex]; cbn [length] in *; [lia|]. pose proof (pack_len hex). lia.
  - cbn [length]. pose proof (pack_len hex). lia.
Qed.

(** ** RLP sizes *)
Lemma enc_str_not_list b : fits b -> is_list (enc_str b) = false.
Proof.
  intros H. destruct (enc_str_cases b) as [(x & -> & Hx & ->)|[-> _]].
  - cbn [is_list]. apply N.leb_gt. lia.
  - unfold enc_len. destruct (N.leb_spec (blen b) 55) as [Hl|Hl]; cbn [app is_list]; apply N.leb_gt.
    + rewrite bN_byte_of_small; lia.
    + pose proof (be_min_len8 (blen b) H). rewrite bN_byte_of_small; lia.
Qed.
Lemma enc_len_len s l n : (n < two64)%N -> length (enc_len s l n) <= 9.
Proof.
  intros H. unfold enc_len. destruct (n <=? 55)%N; cbn [length]; [lia|]. pose proof (be_min_len8 n H) as H8. unfold blen in H8. lia.
Qed.
Lemma enc_str_len b : fits b -> length (enc_str b) <= length b + 9.
Proof.
  intros H. destruct (enc_str_cases b) as [(x & -> & Hx & ->)|[-> _]]; [cbn; lia|].
  rewrite app_length. pose proof (enc_len_len 128 183 (blen b) H). lia.
Qed.
Lemma item_null : item [x80].
Proof. exact (item_str [] ltac:(reflexivity)). Qed.
Lemma hash_fits (h : hash) : fits (sbytes h).
Proof. apply fits_small. rewrite sized_len. lia. Qed.

Definition shortN (n : nat) : Prop := (N.of_nat n < 4294967296)%N.

Section Codec.
  Context (digest : bytes -> hash).
  Notation enc := (enc digest).
  Notation link := (link digest).
  Notation child := (child digest).
  Notation writes := (writes digest).
  Notation below := (below digest).
  Notation den := (den digest).
  Notation shape := (shape digest).
  Implicit Types (db : gmap hash bytes).

  Fixpoint sane (n : node) : Prop :=
    match n with
    | Leaf k v => shortN (length k) /\ shortN (length v)
    | Ext k c => shortN (length k) /\ sane c
    | Branch cs v => (forall w, v = Some w -> shortN (length w)) /\ fold_right (fun c P => sane c /\ P) True cs
    | _ => True
    end.
  Lemma sane_children cs : fold_right (fun c P => sane c /\ P) True cs <-> Forall sane cs.
  Proof. induction cs as [|c cs IH]; cbn; [split; constructor|]. rewrite IH, Forall_cons_iff. reflexivity. Qed.

  (** The node as it is after loading its encoding. *)
  Fixpoint shallow (n : node) : node :=
    let sref c := if length (enc c) <? 32 then shallow c else HashN (digest (enc c)) in
    match n with
    | Ext k c => Ext k (sref c)
    | Branch cs v => Branch (map sref cs) v
    | _ => n
    end.
  Definition sref (c : node) : node := if length (enc c) <? 32 then shallow c else HashN (digest (enc c)).

  Lemma link_len d : length (link d) <= 41.
  Proof.
    unfold Mpt.link. destruct (Nat.ltb_spec (length d) 32); [lia|].
    pose proof (enc_str_len _ (hash_fits (digest d))) as H0. rewrite sized_len in H0. lia.
  Qed.
  Lemma child_wf c : wf c -> child c = link (enc c).
  Proof. destruct c; [reflexivity..|intros []]. Qed.
  Lemma map_child cs : Forall wf cs -> map child cs = map (fun c => link (enc c)) cs.
  Proof. intros H. induction H as [|c cs Hc _ IH]; [reflexivity|]. cbn [map]. rewrite IH, child_wf by exact Hc. reflexivity. Qed.
  Lemma enc_branch cs v : enc (Branch cs v) = enc_list (map child cs ++ [match v with Some v => enc_str v | None => [x80] end]).
  Proof. reflexivity. Qed.
  Lemma enc_ext k c : enc (Ext k c) = enc_list [enc_str (compact k); child c].
  Proof. reflexivity. Qed.

  Lemma short_fits b : shortN (length b) -> fits b.
  Proof. unfold shortN, fits, blen. intros H. eapply N.lt_trans; [exact H|reflexivity]. Qed.
  Lemma compact_fits k : shortN (length k) -> fits (compact k) /\ (N.of_nat (length (compact k)) <= 4294967296)%N.
  Proof.
    intros H. pose proof (compact_len k) as Hl. unfold shortN in H. assert (N.of_nat (length (compact k)) <= 4294967296)%N as Hb by lia.
    split; [|exact Hb]. unfold fits, blen. eapply N.le_lt_trans; [exact Hb|reflexivity].
  Qed.
  Lemma concat_len (l : list bytes) b : Forall (fun x => length x <= b) l -> length (concat l) <= length l * b.
  Proof. intros H. induction H as [|x l Hx _ IH]; [cbn; lia|]. cbn [concat length]. rewrite app_length. lia. Qed.

  (** The items of a node's encoding. *)
  Definition items_of (n : node) : list bytes :=
    match n with
    | Leaf k v => [enc_str (compact k); enc_str v]
    | Ext k c => [enc_str (compact k); child c]
    | Branch cs v => map child cs ++ [match v with Some v => enc_str v | None => [x80] end]
    | _ => []
    end.
  Lemma link_item d : item d -> item (link d).
  Proof. intros H. unfold Mpt.link. destruct (_ <? _); [exact H|]. apply item_str, hash_fits. Qed.
  Lemma node_items n : wf n -> sane n ->
    n = Empty \/ (enc n = enc_list (items_of n) /\ Forall item (items_of n) /\ fits (concat (items_of n))).
  Proof.
    assert (two64 = 18446744073709551616)%N as H64 by reflexivity.
    induction n as [|k v|k c IH|cs v IH|h] using node_ind'; intros Hw Hs; [left; reflexivity|right..|destruct Hw].
    - destruct Hs as [Hk Hv]. destruct (compact_fits k Hk) as [Hc Hcl]. split; [reflexivity|]. split.
      + constructor; [apply item_str, Hc|]. constructor; [apply item_str, short_fits, Hv|constructor].
      + cbn [items_of concat]. rewrite app_nil_r. unfold fits, blen. rewrite app_length.
        pose proof (enc_str_len _ Hc). pose proof (enc_str_len v (short_fits v Hv)). unfold shortN in Hv. rewrite H64. lia.
    - destruct Hs as [Hk Hsc], Hw as (_ & _ & Hb & Hwc). destruct (compact_fits k Hk) as [Hc Hcl]. split; [apply enc_ext|].
      assert (item (child c)) as Hi.
      { rewrite child_wf by exact Hwc. apply link_item. destruct (IH Hwc Hsc) as [->|(-> & Hi & Hf)]; [destruct Hb|]. apply item_list, Hf. }
      split.
      + constructor; [apply item_str, Hc|]. constructor; [exact Hi|constructor].
      + cbn [items_of concat]. rewrite app_nil_r. unfold fits, blen. rewrite app_length.
        pose proof (enc_str_len _ Hc). rewrite child_wf by exact Hwc. pose proof (link_len (enc c)). rewrite H64. lia.
    - pose proof Hw as Hw'. apply wf_branch in Hw as (Hlen & Hv & _ & Hws). destruct Hs as [Hsv Hss]. apply sane_children in Hss.
      split; [apply enc_branch|]. cbn [items_of].
      assert (item (match v with Some v => enc_str v | None => [x80] end) /\
        (N.of_nat (length (match v with Some v => enc_str v | None => [x80] end)) <= 4294967305)%N) as [Hiv Hlv].
      { destruct v as [w|]; [|split; [exact item_null|cbn; lia]]. specialize (Hsv w eq_refl). split; [apply item_str, short_fits, Hsv|].
        pose proof (enc_str_len w (short_fits w Hsv)). unfold shortN in Hsv. lia. }
      split.
      + apply Forall_app. split; [|constructor; [exact Hiv|constructor]]. apply Forall_forall. intros x Hx.
        apply elem_of_list_In, in_map_iff in Hx as (c & <- & Hc). apply elem_of_list_In in Hc.
        eapply Forall_forall in IH; [|exact Hc]. eapply Forall_forall in Hws; [|exact Hc]. eapply Forall_forall in Hss; [|exact Hc].
        rewrite child_wf by exact Hws. apply link_item. destruct (IH Hws Hss) as [->|(-> & _ & Hf)]; [exact item_null|apply item_list, Hf].
      + rewrite concat_app. cbn [concat]. rewrite app_nil_r. unfold fits, blen. rewrite app_length.
        assert (length (concat (map child cs)) <= length (map child cs) * 41) as Hcl.
        { apply concat_len. apply Forall_forall. intros x Hx. apply elem_of_list_In, in_map_iff in Hx as (c & <- & Hc). apply elem_of_list_In in Hc.
          eapply Forall_forall in Hws; [|exact Hc]. rewrite child_wf by exact Hws. apply link_len. }
        rewrite map_length, Hlen in Hcl. rewrite H64. clear - Hcl Hlv. destruct v as [w|]; [lia|]. change (length [x80]) with 1. lia.
  Qed.
  Lemma enc_is_list n : wf n -> sane n -> n <> Empty -> is_list (enc n) = true.
  Proof.
    intros Hw Hs Hne. destruct (node_items n Hw Hs) as [->|(-> & _ & Hf)]; [congruence|]. apply enc_list_is_list, Hf.
  Qed.
  Lemma item_length x l : In x l -> length x < length (enc_list l).
  Proof.
    intros Hin. apply in_split in Hin as (a & b & ->). unfold enc_list. rewrite concat_app. cbn [concat].
    rewrite !app_length. pose proof (enc_len_nonempty 192 247 (blen (concat a ++ x ++ concat b))) as Hne.
    destruct (enc_len 192 247 (blen (concat a ++ x ++ concat b))); [congruence|]. cbn [length]. lia.
  Qed.

  Lemma shallow_branch cs v : shallow (Branch cs v) = Branch (map sref cs) v.
  Proof. reflexivity. Qed.

  Theorem decode_spec f : forall n, wf n -> sane n -> length (enc n) < f -> decode_at f (enc n) = Some (shallow n).
  Proof.
    induction f as [|f IH]; intros n Hw Hs Hf; [lia|].
    assert (forall c, wf c -> sane c -> length (link (enc c)) < f -> decode_at f (link (enc c)) = Some (sref c)) as Hlink.
    { intros c Hwc Hsc Hl. unfold Mpt.link, sref in *. destruct (Nat.ltb_spec (length (enc c)) 32) as [Hi|Hi]; [apply IH; assumption|].
      destruct f as [|f']; [lia|]. cbn [decode_at]. rewrite enc_str_not_list, data_str by apply hash_fits.
      pose proof (sized_len (digest (enc c))) as Hlen. destruct (sbytes (digest (enc c))) as [|x r] eqn:E; [discriminate Hlen|].
      rewrite <- E, to_sized_bytes. reflexivity. }
    destruct (node_items n Hw Hs) as [->|(E & Hi & Hfits)]; [reflexivity|].
    assert (n <> Empty) as Hne. { intros ->. cbn in E. discriminate E. }
    assert (forall x, In x (items_of n) -> length x < f) as Hsmall.
    { intros x Hx. pose proof (item_length x _ Hx) as H0. rewrite <- E in H0. lia. }
    cbn [decode_at]. rewrite (enc_is_list n Hw Hs Hne), E, items_list by assumption. clear E Hi Hfits.
    destruct n as [|k v|k c|cs v|h]; [congruence| | | |destruct Hw]; cbn [items_of] in *.
    - destruct Hw as [Hk Hv], Hs as [Hsk Hsv]. rewrite data_str by apply (compact_fits k Hsk).
      rewrite compact_roundtrip by (left; exact Hk). destruct Hk as (q & -> & Hq). rewrite last_term, data_str by apply short_fits, Hsv. reflexivity.
    - destruct Hw as (_ & Hl & Hb & Hwc), Hs as [Hsk Hsc]. rewrite data_str by apply (compact_fits k Hsk).
      rewrite compact_roundtrip by (right; exact Hl). rewrite last_low by exact Hl.
      specialize (Hsmall (child c) ltac:(cbn; auto)). rewrite child_wf in * by exact Hwc. rewrite Hlink by assumption. reflexivity.
    - apply wf_branch in Hw as (Hlen & Hv & _ & Hws). destruct Hs as [Hsv Hss]. apply sane_children in Hss.
      set (vi := match v with Some v => enc_str v | None => [x80] end) in *.
      assert (length (map child cs ++ [vi]) = 17) as Hl17 by (rewrite app_length, map_length, Hlen; reflexivity).
      assert (mapM (decode_at f) (take 16 (map child cs ++ [vi])) = Some (map sref cs)) as Hm.
      { rewrite take_app_alt by (rewrite map_length; congruence). apply mapM_Some. apply Forall2_fmap_l, Forall2_fmap_r. apply Forall_Forall2_diag.
        apply Forall_forall. intros c Hc. eapply Forall_forall in Hws; [|exact Hc]. eapply Forall_forall in Hss; [|exact Hc].
        unfold compose. rewrite child_wf by exact Hws. apply Hlink; [exact Hws|exact Hss|]. rewrite <- child_wf by exact Hws. apply Hsmall, in_or_app. left.
        apply in_map, elem_of_list_In, Hc. }
      assert (nth_error (map child cs ++ [vi]) 16 = Some vi) as Hn.
      { rewrite nth_error_app2 by (rewrite map_length; lia). rewrite map_length, Hlen. reflexivity. }
      clear Hsmall. revert Hm Hn Hl17. generalize (map child cs ++ [vi]) as l. intros l Hm Hn Hl17.
      destruct l as [|i0 [|i1 [|i2 l]]]; try discriminate Hl17. cbv beta iota. rewrite Hl17, Nat.eqb_refl, Hm, Hn. unfold vi. destruct v as [w|].
      + rewrite data_str by apply short_fits, Hsv, eq_refl. destruct w as [|x w]; [first [destruct Hv; reflexivity|destruct (Hv [] eq_refl); reflexivity|congruence]|]. rewrite shallow_branch. reflexivity.
      + change (rlp_data [x80]) with (@Ok rlp_err bytes []). rewrite shallow_branch. reflexivity.
  Qed.
  Corollary decode_enc n : wf n -> sane n -> decode (enc n) = Some (shallow n).
  Proof. intros Hw Hs. apply decode_spec; [exact Hw|exact Hs|lia]. Qed.
End Codec.
