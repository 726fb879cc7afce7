(** * Facts about the RLP model: encoded items parse back. *)
From Verif Require Import Base BaseFacts Rlp.
From Coq Require Import ZifyBool ZifyNat ZifyN.
Local Open Scope N_scope.

Lemma blen_app a b : blen (a ++ b) = blen a + blen b.
Proof. unfold blen. rewrite app_length. lia. Qed.

Lemma blen_cons x b : blen (x :: b) = 1 + blen b.
Proof. unfold blen. cbn [length]. lia. Qed.

Lemma slice_app h d r : slice (h ++ d ++ r) (blen h) (blen d) = d.
Proof.
  unfold slice, blen. rewrite !Nat2N.id, drop_app, take_app. reflexivity.
Qed.

Lemma slice_app0 h d : slice (h ++ d) (blen h) (blen d) = d.
Proof. rewrite <- (app_nil_r d) at 1. apply slice_app. Qed.

Lemma be_min_len8 n : n < two64 -> blen (be_min n) <= 8.
Proof. intros H. apply be_min_len. exact H. Qed.

(** Long form headers. *)
Lemma calc_long n (x : byte) r :
  55 < n -> n < two64 ->
  calc_payload_info (x :: be_min n ++ r) (blen (be_min n)) = Ok (1 + blen (be_min n), n).
Proof.
  intros H1 H2. destruct (be_min_cons n ltac:(lia)) as (b & l & E & Hb).
  pose proof (be_val_min n) as V. pose proof (be_min_len8 n H2) as L8.
  unfold calc_payload_info.
  assert (S1 : slice (x :: be_min n ++ r) 1 (blen (be_min n)) = be_min n).
  { change (x :: be_min n ++ r) with ([x] ++ be_min n ++ r). apply (slice_app [x]). }
  rewrite S1, V. rewrite blen_cons, blen_app. rewrite E. cbn [app].
  destruct (N.eqb_spec (bN b) 0) as [|_]; [contradiction|]. rewrite <- E.
  destruct (N.ltb_spec (1 + (blen (be_min n) + blen r)) (1 + blen (be_min n))) as [|_]; [lia|].
  destruct (N.leb_spec n 55) as [|_]; [lia|]. reflexivity.
Qed.

Lemma payload_str_len n r :
  n < two64 ->
  payload_info_from (enc_len 128 183 n ++ r) = Ok (blen (enc_len 128 183 n), n).
Proof.
  intros H. unfold enc_len. destruct (N.leb_spec n 55) as [Hs|Hl].
  - cbn [app payload_info_from]. rewrite bN_byte_of_small by lia.
    destruct (N.leb_spec (128 + n) 127); [lia|].
    destruct (N.leb_spec (128 + n) 183); [|lia].
    unfold blen; cbn [length N.of_nat Pos.of_succ_nat]. do 2 f_equal. lia.
  - pose proof (be_min_len8 n H) as L8.
    destruct (be_min_cons n ltac:(lia)) as (b & l & E & Hb).
    assert (L1 : 1 <= blen (be_min n)) by (rewrite E, blen_cons; lia).
    cbn [app payload_info_from]. rewrite bN_byte_of_small by lia.
    destruct (N.leb_spec (183 + blen (be_min n)) 127); [lia|].
    destruct (N.leb_spec (183 + blen (be_min n)) 183); [lia|].
    destruct (N.leb_spec (183 + blen (be_min n)) 191); [|lia].
    replace (183 + blen (be_min n) - 183) with (blen (be_min n)) by lia.
    rewrite calc_long by assumption. rewrite blen_cons. reflexivity.
Qed.

Lemma payload_list_len n r :
  n < two64 ->
  payload_info_from (enc_len 192 247 n ++ r) = Ok (blen (enc_len 192 247 n), n).
Proof.
  intros H. unfold enc_len. destruct (N.leb_spec n 55) as [Hs|Hl].
  - cbn [app payload_info_from]. rewrite bN_byte_of_small by lia.
    destruct (N.leb_spec (192 + n) 127); [lia|].
    destruct (N.leb_spec (192 + n) 183); [lia|].
    destruct (N.leb_spec (192 + n) 191); [lia|].
    destruct (N.leb_spec (192 + n) 247); [|lia].
    unfold blen; cbn [length N.of_nat Pos.of_succ_nat]. do 2 f_equal. lia.
  - pose proof (be_min_len8 n H) as L8.
    destruct (be_min_cons n ltac:(lia)) as (b & l & E & Hb).
    assert (L1 : 1 <= blen (be_min n)) by (rewrite E, blen_cons; lia).
    cbn [app payload_info_from]. rewrite bN_byte_of_small by lia.
    destruct (N.leb_spec (247 + blen (be_min n)) 127); [lia|].
    destruct (N.leb_spec (247 + blen (be_min n)) 183); [lia|].
    destruct (N.leb_spec (247 + blen (be_min n)) 191); [lia|].
    destruct (N.leb_spec (247 + blen (be_min n)) 247); [lia|].
    replace (247 + blen (be_min n) - 247) with (blen (be_min n)) by lia.
    rewrite calc_long by assumption. rewrite blen_cons. reflexivity.
Qed.

(** [item h d]: [h ++ d] is one RLP item with header [h] and payload [d]. *)
Definition item2 (h d : bytes) : Prop :=
  h ++ d <> [] /\ forall rest, payload_info ((h ++ d) ++ rest) = Ok (blen h, blen d).
Definition item (e : bytes) : Prop := exists h d, e = h ++ d /\ item2 h d.

Lemma item2_item h d : item2 h d -> item (h ++ d).
Proof. intros H. exists h, d. auto. Qed.

Lemma enc_len_nonempty a b n : enc_len a b n <> [].
Proof. unfold enc_len. destruct (n <=? 55); discriminate. Qed.

Lemma item2_len_str b : fits b -> item2 (enc_len 128 183 (blen b)) b.
Proof.
  intros H. split.
  - intros E. apply app_eq_nil in E as [E _]. exact (enc_len_nonempty _ _ _ E).
  - intros rest. unfold payload_info. rewrite <- app_assoc, payload_str_len by exact H.
    cbn [rbind fst snd]. rewrite !blen_app.
    destruct (N.leb_spec (blen (enc_len 128 183 (blen b)) + blen b)
                (blen (enc_len 128 183 (blen b)) + (blen b + blen rest))); [reflexivity|lia].
Qed.

Lemma item2_list l : fits (concat l) -> item2 (enc_len 192 247 (blen (concat l))) (concat l).
Proof.
  intros H. split.
  - intros E. apply app_eq_nil in E as [E _]. exact (enc_len_nonempty _ _ _ E).
  - intros rest. unfold payload_info. rewrite <- app_assoc, payload_list_len by exact H.
    cbn [rbind fst snd]. rewrite !blen_app.
    match goal with |- context [?a <=? ?b] => destruct (N.leb_spec a b); [reflexivity|lia] end.
Qed.

Lemma enc_str_cases b :
  (exists x, b = [x] /\ bN x < 128 /\ enc_str b = [x]) \/
  (enc_str b = enc_len 128 183 (blen b) ++ b /\ forall x, b = [x] -> 128 <= bN x).
Proof.
  destruct b as [|x [|y r]].
  - right. split; [reflexivity|discriminate].
  - destruct (bN x <? 128) eqn:E.
    + left. exists x. apply N.ltb_lt in E as E'. repeat split; auto. cbn. rewrite E. reflexivity.
    + right. split; [cbn [enc_str]; rewrite E; reflexivity|].
      intros z [= <-]. apply N.ltb_ge in E. exact E.
  - right. split; [reflexivity|discriminate].
Qed.

Lemma enc_str_split b : fits b -> exists h, enc_str b = h ++ b /\ item2 h b.
Proof.
  intros H. destruct (enc_str_cases b) as [(x & -> & Hx & E)|[E _]].
  - exists []. rewrite E. split; [reflexivity|]. split; [discriminate|].
    intros rest. unfold payload_info. cbn [app payload_info_from].
    destruct (N.leb_spec (bN x) 127); [|lia]. cbn [rbind fst snd].
    rewrite blen_cons. change (blen []) with 0.
    destruct (N.leb_spec (0 + 1) (1 + blen rest)); [reflexivity|lia].
  - eexists. split; [exact E|]. apply item2_len_str, H.
Qed.

Lemma item_str b : fits b -> item (enc_str b).
Proof. intros H. destruct (enc_str_split b H) as (h & -> & I). apply item2_item, I. Qed.

Lemma item_list l : fits (concat l) -> item (enc_list l).
Proof. intros H. unfold enc_list. apply item2_item, item2_list, H. Qed.

Lemma item2_data h d : item2 h d -> rlp_data (h ++ d) = Ok d.
Proof.
  intros [_ H]. specialize (H []). rewrite app_nil_r in H.
  unfold rlp_data. rewrite H. cbn [rbind fst snd]. f_equal. apply slice_app0.
Qed.

Lemma data_str b : fits b -> rlp_data (enc_str b) = Ok b.
Proof. intros H. destruct (enc_str_split b H) as (h & -> & I). apply item2_data, I. Qed.

Lemma data_list l : fits (concat l) -> rlp_data (enc_list l) = Ok (concat l).
Proof. intros H. apply (item2_data _ _ (item2_list l H)). Qed.

Lemma item2_first h d r : item2 h d -> first_item ((h ++ d) ++ r) = Ok (h ++ d).
Proof.
  intros [_ H]. unfold first_item. rewrite H. cbn [rbind fst snd]. f_equal.
  rewrite <- blen_app. unfold blen. rewrite Nat2N.id. apply take_app.
Qed.

Lemma item_first e r : item e -> first_item (e ++ r) = Ok e.
Proof. intros (h & d & -> & I). apply item2_first, I. Qed.

Lemma skip_items_app l r :
  Forall item l -> skip_items (length l) (concat l ++ r) = Ok r.
Proof.
  induction 1 as [|e l (h & d & -> & I) _ IH]; [reflexivity|].
  cbn [length skip_items concat]. destruct I as [_ I]. rewrite <- (app_assoc (h ++ d)), I.
  cbn [rbind fst snd]. rewrite <- blen_app. unfold blen. rewrite Nat2N.id, drop_app.
  exact IH.
Qed.


Lemma enc_list_is_list l : fits (concat l) -> is_list (enc_list l) = true.
Proof.
  intros H. unfold enc_list, enc_len. unfold fits in H. set (n := blen (concat l)) in *.
  destruct (N.leb_spec n 55).
  - cbn [app is_list]. rewrite bN_byte_of_small by lia. lia.
  - cbn [app is_list]. pose proof (be_min_len8 n H). rewrite bN_byte_of_small by lia. lia.
Qed.

Lemma at_list l i e :
  Forall item l -> fits (concat l) -> nth_error l i = Some e ->
  rlp_at (enc_list l) i = Ok e.
Proof.
  intros Hl Hf Hn. unfold rlp_at. rewrite enc_list_is_list by exact Hf.
  destruct (item2_list l Hf) as [_ P]. specialize (P []). rewrite app_nil_r in P.
  change (enc_len 192 247 (blen (concat l)) ++ concat l) with (enc_list l) in P.
  rewrite P. cbn [rbind fst snd]. unfold enc_list. rewrite slice_app0.
  destruct (nth_error_split _ _ Hn) as (a & b & -> & <-).
  rewrite concat_app. apply Forall_app in Hl as [Ha Hb].
  rewrite skip_items_app by exact Ha. cbn [rbind concat].
  apply item_first. inversion Hb; assumption.
Qed.

Lemma at_list_end l i :
  Forall item l -> fits (concat l) -> (length l <= i)%nat ->
  is_ok (rlp_at (enc_list l) i) = false.
Proof.
  intros Hl Hf Hn. unfold rlp_at. rewrite enc_list_is_list by exact Hf.
  destruct (item2_list l Hf) as [_ P]. specialize (P []). rewrite app_nil_r in P.
  change (enc_len 192 247 (blen (concat l)) ++ concat l) with (enc_list l) in P.
  rewrite P. cbn [rbind fst snd]. unfold enc_list. rewrite slice_app0.
  assert (S1 : forall k b, skip_items (length l + k) (concat l ++ b) = skip_items k b).
  { clear -Hl. intros k b. induction Hl as [|e l (h & d & -> & I) _ IH]; [reflexivity|].
    cbn [length Nat.add skip_items concat]. destruct I as [_ I]. rewrite <- (app_assoc (h ++ d)), I.
    cbn [rbind fst snd]. rewrite <- blen_app. unfold blen. rewrite Nat2N.id, drop_app.
    exact IH. }
  replace i with (length l + (i - length l))%nat by lia.
  rewrite <- (app_nil_r (concat l)), S1.
  destruct (i - length l)%nat; reflexivity.
Qed.

Lemma walk_items_concat l f :
  Forall item l -> (length (concat l) <= f)%nat -> walk_items f (concat l) = l.
Proof.
  intros Hl. revert f. induction Hl as [|e l (h & d & -> & I) _ IH]; intros f Hf.
  - destruct f; reflexivity.
  - cbn [concat] in *. rewrite app_length in Hf.
    destruct I as [Hne I].
    assert (length (h ++ d) <> 0)%nat by (intros E; apply Hne, length_zero_iff_nil, E).
    destruct f as [|f]; [lia|]. cbn [walk_items]. rewrite I.
    rewrite <- blen_app. unfold blen. rewrite Nat2N.id, drop_app, take_app.
    rewrite IH by lia. reflexivity.
Qed.

Lemma items_list l : Forall item l -> fits (concat l) -> rlp_items (enc_list l) = l.
Proof.
  intros Hl Hf. unfold rlp_items. rewrite enc_list_is_list, data_list by exact Hf.
  apply walk_items_concat; [exact Hl|lia].
Qed.

(** Sub-items of something that fits in memory fit in memory. *)
Lemma fits_list_concat l : fits (enc_list l) -> fits (concat l).
Proof. unfold enc_list. apply fits_app_r. Qed.

Lemma fits_concat l : fits (concat l) -> Forall fits l.
Proof.
  induction l as [|e l IH]; cbn [concat]; intros H; constructor.
  - eapply fits_app_l, H.
  - eapply IH, fits_app_r, H.
Qed.

Lemma fits_list l : fits (enc_list l) -> Forall fits l.
Proof. intros H. apply fits_concat, fits_list_concat, H. Qed.

Lemma fits_str b : fits (enc_str b) -> fits b.
Proof.
  destruct (enc_str_cases b) as [(x & -> & _ & E)|[E _]]; rewrite E; [auto|apply fits_app_r].
Qed.

Lemma fits_small b : (length b <= 4096)%nat -> fits b.
Proof. unfold fits, blen, two64. lia. Qed.

(** ** Values *)
Lemma decode_value_str {A} (f : bytes -> rlp_res A) b :
  fits b -> decode_value f (enc_str b) = f b.
Proof.
  intros H. destruct (enc_str_cases b) as [(x & -> & Hx & E)|[E Hb]]; rewrite E.
  - cbn [decode_value]. destruct (N.leb_spec (bN x) 127); [reflexivity|lia].
  - unfold enc_len. unfold fits in H. destruct (N.leb_spec (blen b) 55) as [Hs|Hl].
    + cbn [app decode_value]. rewrite bN_byte_of_small by lia.
      destruct (N.leb_spec (128 + blen b) 127); [lia|].
      destruct (N.leb_spec (128 + blen b) 183); [|lia].
      rewrite blen_cons. replace (128 + blen b - 128) with (blen b) by lia.
      destruct (N.ltb_spec (1 + blen b) (1 + blen b)); [lia|].
      pose proof (slice_app0 [byte_of (128 + blen b)] b) as S1.
      change (blen [byte_of (128 + blen b)]) with 1 in S1. cbn [app] in S1. rewrite S1.
      destruct b as [|y r]; [reflexivity|].
      destruct (N.eqb_spec (128 + blen (y :: r)) 129) as [E1|]; [|reflexivity].
      assert (r = []) as -> by (destruct r; [reflexivity|rewrite !blen_cons in E1; lia]).
      specialize (Hb y eq_refl). destruct (N.ltb_spec (bN y) 128); [lia|reflexivity].
    + pose proof (be_min_len8 (blen b) H) as L8.
      destruct (be_min_cons (blen b) ltac:(lia)) as (c & l & Ec & Hc).
      assert (L1 : 1 <= blen (be_min (blen b))) by (rewrite Ec, blen_cons; lia).
      cbn [app decode_value]. rewrite bN_byte_of_small by lia.
      set (d := be_min (blen b)) in *.
      destruct (N.leb_spec (183 + blen d) 127); [lia|].
      destruct (N.leb_spec (183 + blen d) 183); [lia|].
      destruct (N.leb_spec (183 + blen d) 191); [|lia].
      replace (183 + blen d - 183) with (blen d) by lia.
      rewrite blen_cons, blen_app.
      destruct (N.ltb_spec (1 + (blen d + blen b)) (1 + blen d)); [lia|].
      pose proof (slice_app [byte_of (183 + blen d)] d b) as S1.
      change (blen [byte_of (183 + blen d)]) with 1 in S1. cbn [app] in S1. rewrite S1.
      pose proof (slice_app0 (byte_of (183 + blen d) :: d) b) as S2.
      rewrite blen_cons in S2. cbn [app] in S2.
      assert (V : be_val d = blen b) by apply be_val_min. clearbody d. subst d.
      destruct (N.eqb_spec (bN c) 0); [contradiction|]. rewrite V.
      destruct (N.ltb_spec (1 + (blen (c :: l) + blen b)) (1 + blen (c :: l) + blen b)); [lia|].
      rewrite S2. reflexivity.
Qed.

Lemma fits_be_min_u64 (n : u64) : fits (be_min n).
Proof. apply fits_small. pose proof (be_min_u64 n). lia. Qed.

Lemma dec_enc_u64 n : dec_u64 (enc_u64 n) = Ok n.
Proof.
  unfold dec_u64, enc_u64. rewrite decode_value_str by apply fits_be_min_u64.
  pose proof (be_val_min n) as V. pose proof (be_min_u64 n) as L.
  destruct (N.eq_dec n 0) as [E|E].
  - rewrite E. change (be_min 0) with (@nil byte). cbn. f_equal. apply u64_eq. symmetry. exact E.
  - destruct (be_min_cons n E) as (b & l & Eb & Hb). rewrite Eb in *.
    unfold u64_of_bytes. destruct l as [|y l].
    + destruct (N.eqb_spec (bN b) 0); [contradiction|]. f_equal.
      change (be_val [b]) with (0 * 256 + bN b) in V.
      replace (bN b) with (u64v n) by lia. apply wrap64_v.
    + destruct (Nat.leb_spec (length (b :: y :: l)) 8); [|lia].
      destruct (N.eqb_spec (bN b) 0); [contradiction|]. rewrite V. f_equal. apply wrap64_v.
Qed.

Lemma item_u64 n : item (enc_u64 n).
Proof. apply item_str, fits_be_min_u64. Qed.

Lemma be_min_u8 (b : byte) : be_min (bN b) = if bN b =? 0 then [] else [b].
Proof. destruct b; reflexivity. Qed.

Lemma dec_enc_u8 b : dec_u8 (enc_u8 b) = Ok b.
Proof.
  unfold dec_u8, enc_u8. rewrite decode_value_str.
  - rewrite be_min_u8. destruct (N.eqb_spec (bN b) 0) as [E|E].
    + cbn. f_equal. apply bN_inj. rewrite E. reflexivity.
    + cbn. destruct (N.eqb_spec (bN b) 0); [contradiction|reflexivity].
  - apply fits_small. rewrite be_min_u8. destruct (bN b =? 0); cbn; lia.
Qed.

Lemma item_u8 b : item (enc_u8 b).
Proof.
  apply item_str, fits_small. rewrite be_min_u8. destruct (bN b =? 0); cbn; lia.
Qed.

Lemma dec_enc_string s : fits (rs s) -> dec_string (enc_str (rs s)) = Ok s.
Proof.
  intros H. unfold dec_string. rewrite decode_value_str by exact H.
  rewrite from_utf8_rs. reflexivity.
Qed.

Lemma dec_enc_sized n (s : sized n) : fits (sbytes s) -> dec_sized n (enc_str (sbytes s)) = Ok s.
Proof.
  intros H. unfold dec_sized. rewrite decode_value_str by exact H.
  unfold sized_of_bytes. rewrite to_sized_bytes. reflexivity.
Qed.

(** ** Lists *)
Lemma dec_all_map {A} (f : bytes -> rlp_res A) (g : A -> bytes) l :
  Forall (fun a => f (g a) = Ok a) l -> dec_all f (map g l) = Ok l.
Proof.
  induction 1 as [|a l Ha _ IH]; [reflexivity|]. cbn [map dec_all].
  rewrite Ha. cbn [rbind]. rewrite IH. reflexivity.
Qed.

Lemma dec_list_map {A} (f : bytes -> rlp_res A) (g : A -> bytes) l :
  Forall (fun a => item (g a)) l -> fits (concat (map g l)) ->
  Forall (fun a => f (g a) = Ok a) l ->
  dec_list f (enc_list (map g l)) = Ok l.
Proof.
  intros Hi Hf Hd. unfold dec_list. rewrite items_list.
  - rewrite (dec_all_map _ _ _ Hd). reflexivity.
  - apply Forall_map, Hi.
  - exact Hf.
Qed.

Lemma check_list_len_ok l n : fits (concat l) -> check_list_len (enc_list l) n = Ok tt.
Proof. intros H. unfold check_list_len. rewrite enc_list_is_list by exact H. reflexivity. Qed.

Lemma item_nonempty e : item e -> e <> [].
Proof. intros (h & d & -> & Hne & _). exact Hne. Qed.

(** [Rlp::iter] is [at(0)], [at(1)], ... until failure. *)
Lemma payload_pos b h v : payload_info b = Ok (h, v) -> 1 <= h + v /\ h + v <= blen b.
Proof.
  unfold payload_info. destruct (payload_info_from b) as [[h' v']| |] eqn:E; try discriminate.
  cbn [rbind fst snd]. destruct (N.leb_spec (h' + v') (blen b)); [|discriminate].
  intros [= -> ->]. split; [|assumption].
  unfold payload_info_from in E. destruct b as [|x b]; [discriminate|].
  destruct (bN x <=? 127); [injection E as <- <-; lia|].
  destruct (bN x <=? 183); [injection E as <- <-; lia|].
  unfold calc_payload_info in E.
  destruct (bN x <=? 191).
  { destruct b as [|y b]; [discriminate|]. destruct (bN y =? 0); [discriminate|].
    destruct (_ <? _); [discriminate|]. destruct (_ <=? 55); [discriminate|].
    injection E as <- <-. lia. }
  destruct (bN x <=? 247); [injection E as <- <-; lia|].
  destruct b as [|y b]; [discriminate|]. destruct (bN y =? 0); [discriminate|].
  destruct (_ <? _); [discriminate|]. destruct (_ <=? 55); [discriminate|].
  injection E as <- <-. lia.
Qed.

Lemma walk_items_at f b i e :
  (length b <= f)%nat ->
  nth_error (walk_items f b) i = Some e <->
  (let? r := skip_items i b in first_item r) = Ok e.
Proof.
  revert b i. induction f as [|f IH]; intros b i Hf.
  - destruct b; [|cbn in Hf; lia]. cbn [walk_items].
    destruct i; cbn; split; discriminate.
  - cbn [walk_items]. destruct (payload_info b) as [[h v]| |] eqn:E.
    + destruct (payload_pos _ _ _ E) as [P1 P2].
      destruct i as [|i]; cbn [nth_error skip_items rbind].
      * unfold first_item. rewrite E. cbn [rbind fst snd]. split; intros [= <-]; reflexivity.
      * rewrite E. cbn [rbind fst snd]. apply IH. rewrite skipn_length. unfold blen in P2. lia.
    + destruct i; cbn [nth_error skip_items rbind]; unfold first_item; rewrite ?E; cbn; split; discriminate.
    + destruct i; cbn [nth_error skip_items rbind]; unfold first_item; rewrite ?E; cbn; split; discriminate.
Qed.

Lemma items_at b i e : nth_error (rlp_items b) i = Some e <-> rlp_at b i = Ok e.
Proof.
  unfold rlp_items, rlp_at, rlp_data. destruct (is_list b).
  - destruct (payload_info b) as [[h v]| |]; cbn [rbind fst snd].
    + apply walk_items_at. lia.
    + destruct i; split; discriminate.
    + destruct i; split; discriminate.
  - destruct i; split; discriminate.
Qed.

(** ** Nothing but [dec_list] panics. *)
Lemma payload_info_no_panic b : payload_info b <> Panic.
Proof.
  unfold payload_info, payload_info_from. destruct b as [|x b]; [discriminate|].
  assert (C : forall n, calc_payload_info (x :: b) n <> Panic).
  { intros n. unfold calc_payload_info. destruct b as [|y b']; [discriminate|].
    destruct (bN y =? 0); [discriminate|]. destruct (_ <? _); [discriminate|].
    destruct (_ <=? 55); discriminate. }
  assert (G : forall r : rlp_res (N * N), r <> Panic ->
    (let? p := r in if fst p + snd p <=? blen (x :: b) then Ok p else Err RlpIsTooShort) <> Panic).
  { intros [p|e|] Hr; cbn [rbind]; [destruct (_ <=? _); discriminate|discriminate|contradiction]. }
  apply G. destruct (_ <=? 127); [discriminate|]. destruct (_ <=? 183); [discriminate|].
  destruct (_ <=? 191); [apply C|]. destruct (_ <=? 247); [discriminate|apply C].
Qed.

Lemma rbind_no_panic {E A B} (r : res E A) (k : A -> res E B) :
  r <> Panic -> (forall a, r = Ok a -> k a <> Panic) -> rbind r k <> Panic.
Proof. destruct r; cbn; intros H K; [apply K; reflexivity|discriminate|congruence]. Qed.

Lemma rlp_data_no_panic b : rlp_data b <> Panic.
Proof. apply rbind_no_panic; [apply payload_info_no_panic|discriminate]. Qed.

Lemma skip_items_no_panic n b : skip_items n b <> Panic.
Proof.
  revert b; induction n as [|n IH]; intros b; cbn [skip_items]; [discriminate|].
  apply rbind_no_panic; [apply payload_info_no_panic|intros; apply IH].
Qed.

Lemma rlp_at_no_panic b i : rlp_at b i <> Panic.
Proof.
  unfold rlp_at. destruct (is_list b); [|discriminate].
  apply rbind_no_panic; [apply payload_info_no_panic|intros].
  apply rbind_no_panic; [apply skip_items_no_panic|intros].
  apply rbind_no_panic; [apply payload_info_no_panic|discriminate].
Qed.

Lemma at_data_no_panic b i : at_data b i <> Panic.
Proof. apply rbind_no_panic; [apply rlp_at_no_panic|intros; apply rlp_data_no_panic]. Qed.

Lemma at_dec_no_panic {A} (f : bytes -> rlp_res A) b i :
  (forall b, f b <> Panic) -> at_dec f b i <> Panic.
Proof. intros H. apply rbind_no_panic; [apply rlp_at_no_panic|intros; apply H]. Qed.

Lemma decode_value_no_panic {A} (f : bytes -> rlp_res A) b :
  (forall b, f b <> Panic) -> decode_value f b <> Panic.
Proof.
  intros H. unfold decode_value. destruct b as [|x b]; [discriminate|].
  destruct (_ <=? 127); [apply H|]. destruct (_ <=? 183).
  { destruct (_ <? _); [discriminate|]. destruct (slice _ _ _); [apply H|].
    destruct (_ && _); [discriminate|apply H]. }
  destruct (_ <=? 191); [|discriminate].
  destruct (_ <? _); [discriminate|]. destruct (slice _ _ _); [discriminate|].
  destruct (_ =? 0); [discriminate|]. destruct (_ <? _); [discriminate|apply H].
Qed.

Lemma dec_u8_no_panic b : dec_u8 b <> Panic.
Proof.
  apply decode_value_no_panic. intros [|x [|y r]]; cbn; try discriminate.
  destruct (_ =? 0); discriminate.
Qed.

Lemma dec_u64_no_panic b : dec_u64 b <> Panic.
Proof.
  apply decode_value_no_panic. intros [|x [|y r]]; unfold u64_of_bytes; try discriminate.
  - destruct (_ =? 0); discriminate.
  - destruct (_ <=? 8)%nat; [|discriminate]. destruct (_ =? 0); discriminate.
Qed.

Lemma dec_string_no_panic b : dec_string b <> Panic.
Proof. apply decode_value_no_panic. intros c. destruct (from_utf8 c); discriminate. Qed.

Lemma dec_sized_no_panic n b : dec_sized n b <> Panic.
Proof. apply decode_value_no_panic. intros c. unfold sized_of_bytes. destruct (to_sized n c); discriminate. Qed.

Lemma check_list_len_no_panic b n : check_list_len b n <> Panic.
Proof. unfold check_list_len. destruct (_ && _); discriminate. Qed.
