(** * Facts about Proto: what is encoded is decoded. *)
From Verif Require Import Base BaseFacts Proto.
From Coq Require Import ZifyBool ZifyNat ZifyN.
Local Open Scope N_scope.

Lemma dec_varint_f_varint f n r : n < 128 ^ N.of_nat (S f) -> dec_varint_f (S f) (varint_f (S f) n ++ r) = Some (n, r).
Proof.
  revert n; induction f as [|f IH]; intros n Hn.
  - change (128 ^ N.of_nat 1) with 128 in Hn. cbn [varint_f].
    destruct (N.ltb_spec n 128) as [H|H]; [|lia].
    cbn [app dec_varint_f]. rewrite bN_byte_of_small by lia.
    destruct (N.ltb_spec n 128); [reflexivity|lia].
  - remember (S f) as k eqn:Ek. cbn [varint_f]. destruct (N.ltb_spec n 128) as [H|H].
    + cbn [app dec_varint_f]. rewrite bN_byte_of_small by lia.
      destruct (N.ltb_spec n 128); [reflexivity|lia].
    + cbn [app dec_varint_f]. rewrite bN_byte_of_small by (pose proof (N.mod_lt n 128); lia).
      destruct (N.ltb_spec (n mod 128 + 128) 128); [lia|].
      rewrite IH.
      2:{ rewrite Nat2N.inj_succ, N.pow_succ_r' in Hn. apply N.div_lt_upper_bound; lia. }
      f_equal. f_equal.
      replace ((n mod 128 + 128) mod 128) with (n mod 128).
      2:{ rewrite <- (N.mul_1_l 128) at 3. rewrite N.mod_add by discriminate.
          rewrite N.mod_mod by discriminate. reflexivity. }
      pose proof (N.div_mod n 128). lia.
Qed.

Lemma dec_varint_varint n r : n < two64 -> dec_varint (varint n ++ r) = Some (n, r).
Proof.
  intros H. unfold dec_varint, varint. rewrite dec_varint_f_varint.
  - rewrite N.mod_small by exact H. reflexivity.
  - eapply N.lt_trans; [exact H|]. reflexivity.
Qed.

Lemma varint_f_cons f n : exists x l, varint_f (S f) n = x :: l.
Proof. cbn. destruct (n <? 128); eauto. Qed.

Lemma varint_cons n : exists x l, varint n = x :: l.
Proof. apply varint_f_cons. Qed.

Lemma split_at_app a b : split_at (blen a) (a ++ b) = Some (a, b).
Proof.
  unfold split_at, blen. rewrite app_length.
  destruct (N.leb_spec (N.of_nat (length a)) (N.of_nat (length a + length b))); [|lia].
  rewrite Nat2N.id, firstn_app, skipn_app, Nat.sub_diag, firstn_all, skipn_all. cbn.
  rewrite app_nil_r. reflexivity.
Qed.

(** ** Well-formed wire values *)
Definition wf_field (f : wfield) : Prop :=
  0 < fst f < 536870912 /\
  match snd f with
  | WVar n => n < two64
  | W64 b => blen b = 8
  | WLen b => blen b < two64
  | W32 b => blen b = 4
  end.

Lemma parse1_ser f r : wf_field f -> parse1 (ser_field f ++ r) = Some (f, r).
Proof.
  destruct f as [t w]. intros [Ht Hw]. cbn [fst snd] in *.
  unfold parse1, ser_field. cbn [fst snd]. rewrite <- app_assoc.
  assert (t * 8 + wire_type w < two32) as Hk.
  { unfold two32. destruct w; cbn [wire_type]; lia. }
  rewrite dec_varint_varint.
  2:{ eapply N.lt_trans; [exact Hk|reflexivity]. }
  destruct (N.leb_spec two32 (t * 8 + wire_type w)) as [H|_]; [lia|].
  assert ((t * 8 + wire_type w) / 8 = t) as Hd.
  { rewrite N.div_add_l by discriminate.
    rewrite (N.div_small (wire_type w)); [lia|]. destruct w; reflexivity. }
  assert ((t * 8 + wire_type w) mod 8 = wire_type w) as Hm.
  { rewrite N.add_comm, N.mod_add by discriminate. apply N.mod_small. destruct w; reflexivity. }
  rewrite Hd, Hm.
  destruct (N.eqb_spec t 0) as [->|_]; [lia|].
  destruct w as [n|p|p|p]; cbn [wire_type wire_payload N.eqb Pos.eqb].
  - rewrite dec_varint_varint by exact Hw. reflexivity.
  - replace 8 with (blen p). rewrite split_at_app. reflexivity.
  - rewrite <- app_assoc, dec_varint_varint by exact Hw. rewrite split_at_app. reflexivity.
  - replace 4 with (blen p). rewrite split_at_app. reflexivity.
Qed.

Lemma ser_field_pos f : (0 < length (ser_field f))%nat.
Proof.
  unfold ser_field. destruct (varint_cons (fst f * 8 + wire_type (snd f))) as (x & l & ->).
  cbn. lia.
Qed.

Lemma parse_f_ser fuel l : Forall wf_field l -> (length (ser l) <= fuel)%nat ->
  parse_f fuel (ser l) = Some l.
Proof.
  revert fuel; induction l as [|f l IH]; intros fuel Hl Hf.
  - destruct fuel; reflexivity.
  - apply Forall_cons in Hl as [Hw Hl]. unfold ser in *. cbn [map concat] in *.
    rewrite app_length in Hf. pose proof (ser_field_pos f) as Hp.
    destruct fuel as [|fuel]; [lia|].
    destruct (ser_field f ++ concat (map ser_field l)) as [|x rest] eqn:E.
    { apply app_eq_nil in E as [E _]. rewrite E in Hp. cbn in Hp. lia. }
    cbn [parse_f]. rewrite <- E, parse1_ser by exact Hw.
    rewrite IH; [reflexivity|exact Hl|lia].
Qed.

Lemma parse_ser l : Forall wf_field l -> parse (ser l) = Some l.
Proof. intros H. apply parse_f_ser; [exact H|lia]. Qed.

(** ** Round-trip law of a field or message *)
Lemma blen_app a b : blen (a ++ b) = blen a + blen b.
Proof. unfold blen. rewrite app_length. lia. Qed.

Lemma ser_app a b : ser (a ++ b) = ser a ++ ser b.
Proof. unfold ser. rewrite map_app, concat_app. reflexivity. Qed.

Lemma fits_ser_app a b : fits (ser (a ++ b)) -> fits (ser a) /\ fits (ser b).
Proof. unfold fits. rewrite ser_app, blen_app. lia. Qed.

Lemma fits_ser_wlen t b : fits (ser [(t, WLen b)]) -> blen b < two64.
Proof.
  unfold fits, ser. cbn [map concat]. rewrite app_nil_r. unfold ser_field. cbn [fst snd wire_payload].
  rewrite !blen_app. lia.
Qed.

Definition tag_ok (t : N) : bool := (0 <? t) && (t <? 536870912).

Record rt {V} (c : pcodec V) : Prop := {
  rt_tags : forallb tag_ok (pc_tags c) = true;
  rt_wf : forall v, fits (ser (pc_out c v)) -> Forall wf_field (pc_out c v);
  rt_in : forall v, Forall (fun f => has_tag (fst f) (pc_tags c) = true) (pc_out c v);
  rt_merge : forall v, fits (ser (pc_out c v)) -> merge_all c (pc_out c v) (pc_default c) = Some v }.

Theorem pdecode_pencode {V} (c : pcodec V) v : rt c -> fits (pencode c v) -> pdecode c (pencode c v) = Some v.
Proof.
  intros R H. unfold pdecode, pmerge, pencode in *.
  rewrite parse_ser by (apply R, H). apply R, H.
Qed.

Lemma merge_all_app {V} (c : pcodec V) a b v :
  merge_all c (a ++ b) v = match merge_all c a v with Some v' => merge_all c b v' | None => None end.
Proof.
  revert v; induction a as [|[t w] a IH]; intros v; [reflexivity|].
  cbn [app merge_all]. destruct (pc_in c t w v); [apply IH|reflexivity].
Qed.

Lemma has_tag_in t l : has_tag t l = true <-> In t l.
Proof.
  unfold has_tag. rewrite existsb_exists. split.
  - intros (x & Hx & E). apply N.eqb_eq in E. subst. exact Hx.
  - intros H. exists t. rewrite N.eqb_refl. auto.
Qed.

Definition disjoint_tags (a b : list N) : bool := forallb (fun t => negb (has_tag t b)) a.

Lemma disjoint_tags_spec a b t : disjoint_tags a b = true -> has_tag t b = true -> has_tag t a = false.
Proof.
  intros H Hb. destruct (has_tag t a) eqn:E; [|reflexivity].
  apply has_tag_in in E. unfold disjoint_tags in H. rewrite forallb_forall in H.
  specialize (H _ E). rewrite Hb in H. discriminate.
Qed.

Lemma rt_pnil : rt pnil.
Proof. split; cbn; auto. intros []. reflexivity. Qed.

Section Cons.
  Context {A B : Type} (f : pcodec A) (m : pcodec B).

  Lemma merge_cons_l l (a : A) (b : B) :
    Forall (fun x => has_tag (fst x) (pc_tags f) = true) l ->
    merge_all (pcons f m) l (a, b) =
      match merge_all f l a with Some a' => Some (a', b) | None => None end.
  Proof.
    revert a; induction l as [|[t w] l IH]; intros a Hl; [reflexivity|].
    apply Forall_cons in Hl as [H1 H2]. cbn [fst] in H1.
    cbn [merge_all pcons pc_in fst snd]. rewrite H1. destruct (pc_in f t w a); [|reflexivity].
    apply IH, H2.
  Qed.

  Lemma merge_cons_r l (a : A) (b : B) :
    disjoint_tags (pc_tags f) (pc_tags m) = true ->
    Forall (fun x => has_tag (fst x) (pc_tags m) = true) l ->
    merge_all (pcons f m) l (a, b) =
      match merge_all m l b with Some b' => Some (a, b') | None => None end.
  Proof.
    intros D. revert b; induction l as [|[t w] l IH]; intros b Hl; [reflexivity|].
    apply Forall_cons in Hl as [H1 H2]. cbn [fst] in H1.
    cbn [merge_all pcons pc_in fst snd]. rewrite (disjoint_tags_spec _ _ _ D H1).
    destruct (pc_in m t w b); [|reflexivity]. apply IH, H2.
  Qed.

  Lemma rt_pcons : disjoint_tags (pc_tags f) (pc_tags m) = true -> rt f -> rt m -> rt (pcons f m).
  Proof.
    intros D [Tf Wf If Mf] [Tm Wm Im Mm]. split.
    - cbn [pcons pc_tags]. rewrite forallb_app, Tf, Tm. reflexivity.
    - intros [a b] H. cbn [pcons pc_out fst snd] in *. apply fits_ser_app in H as [H1 H2].
      apply Forall_app. auto.
    - intros [a b]. cbn [pcons pc_out pc_tags fst snd]. apply Forall_app. split.
      + eapply Forall_impl; [apply If|]. intros x Hx. apply has_tag_in. apply has_tag_in in Hx.
        apply in_or_app. auto.
      + eapply Forall_impl; [apply Im|]. intros x Hx. apply has_tag_in. apply has_tag_in in Hx.
        apply in_or_app. auto.
    - intros [a b] H. cbn [pcons pc_out pc_default fst snd] in *.
      apply fits_ser_app in H as [H1 H2].
      rewrite merge_all_app. rewrite merge_cons_l by apply If. rewrite Mf by exact H1.
      rewrite merge_cons_r; [|exact D|apply Im]. rewrite Mm by exact H2. reflexivity.
  Qed.
End Cons.

Ltac tag_tac := cbn [fst snd has_tag existsb]; rewrite ?N.eqb_refl; reflexivity.

Lemma tag_ok_bounds t : tag_ok t = true -> 0 < t < 536870912.
Proof. unfold tag_ok. rewrite andb_true_iff, !N.ltb_lt. auto. Qed.

Lemma rt_bytes t : tag_ok t = true -> rt (p_bytes t).
Proof.
  intros Ht. split.
  - cbn. rewrite Ht. reflexivity.
  - intros v H. cbn [p_bytes pc_out] in *. destruct v; [constructor|].
    constructor; [|constructor]. split; [apply tag_ok_bounds, Ht|].
    cbn [snd]. exact (fits_ser_wlen _ _ H).
  - intros v. cbn [p_bytes pc_out pc_tags]. destruct v; constructor; [tag_tac|constructor].
  - intros v H. cbn [p_bytes pc_out pc_default]. destruct v; reflexivity.
Qed.

Lemma rt_string t : tag_ok t = true -> rt (p_string t).
Proof.
  intros Ht. split.
  - cbn. rewrite Ht. reflexivity.
  - intros v H. cbn [p_string pc_out] in *. destruct (rs v); [constructor|].
    constructor; [|constructor]. split; [apply tag_ok_bounds, Ht|].
    cbn [snd]. exact (fits_ser_wlen _ _ H).
  - intros v. cbn [p_string pc_out pc_tags]. destruct (rs v); constructor; [tag_tac|constructor].
  - intros v H. cbn [p_string pc_out pc_default]. destruct (rs v) eqn:E.
    + cbn. f_equal. apply rstring_eq. rewrite E. reflexivity.
    + cbn [merge_all pc_in p_string]. rewrite <- E, from_utf8_rs. reflexivity.
Qed.

Lemma wrap64_id (v : u64) : wrap64 v = v.
Proof. apply u64_eq. cbn. apply N.mod_small. apply N.ltb_lt, u64_ok. Qed.

Lemma wrap32_id (v : u32) : wrap32 (u32v v) = v.
Proof. apply u32_eq. cbn. apply N.mod_small. apply N.ltb_lt, u32_ok. Qed.

Lemma rt_u64 t : tag_ok t = true -> rt (p_u64 t).
Proof.
  intros Ht. split.
  - cbn. rewrite Ht. reflexivity.
  - intros v H. cbn [p_u64 pc_out] in *. destruct (u64v v =? 0); [constructor|].
    constructor; [|constructor]. split; [apply tag_ok_bounds, Ht|].
    cbn [snd]. apply N.ltb_lt, u64_ok.
  - intros v. cbn [p_u64 pc_out pc_tags]. destruct (u64v v =? 0); constructor; [tag_tac|constructor].
  - intros v H. cbn [p_u64 pc_out pc_default]. destruct (N.eqb_spec (u64v v) 0) as [E|E].
    + cbn [merge_all]. f_equal. apply u64_eq. rewrite E. reflexivity.
    + cbn [merge_all pc_in p_u64]. rewrite wrap64_id. reflexivity.
Qed.

Lemma rt_u32 t : tag_ok t = true -> rt (p_u32 t).
Proof.
  intros Ht. split.
  - cbn. rewrite Ht. reflexivity.
  - intros v H. cbn [p_u32 pc_out] in *. destruct (u32v v =? 0); [constructor|].
    constructor; [|constructor]. split; [apply tag_ok_bounds, Ht|].
    cbn [snd]. eapply N.lt_trans; [apply N.ltb_lt, u32_ok|reflexivity].
  - intros v. cbn [p_u32 pc_out pc_tags]. destruct (u32v v =? 0); constructor; [tag_tac|constructor].
  - intros v H. cbn [p_u32 pc_out pc_default]. destruct (N.eqb_spec (u32v v) 0) as [E|E].
    + cbn [merge_all]. f_equal. apply u32_eq. rewrite E. reflexivity.
    + cbn [merge_all pc_in p_u32]. rewrite wrap32_id. reflexivity.
Qed.

Lemma rt_opt {A} t (m : pcodec A) : tag_ok t = true -> rt m -> rt (p_opt t m).
Proof.
  intros Ht R. split.
  - cbn. rewrite Ht. reflexivity.
  - intros [a|] H; cbn [p_opt pc_out] in *; [|constructor].
    constructor; [|constructor]. split; [apply tag_ok_bounds, Ht|].
    cbn [snd]. exact (fits_ser_wlen _ _ H).
  - intros [a|]; cbn [p_opt pc_out pc_tags]; constructor; [tag_tac|constructor].
  - intros [a|] H; cbn [p_opt pc_out pc_default] in *; [|reflexivity].
    cbn [merge_all pc_in p_opt p_rep p_rep_bytes p_oneof].
    assert (pdecode m (pencode m a) = Some a) as E.
    { apply pdecode_pencode; [exact R|]. exact (fits_ser_wlen _ _ H). }
    unfold pdecode in E. rewrite E. reflexivity.
Qed.

Lemma rep_merge {A} t (m : pcodec A) l acc : rt m -> fits (ser (pc_out (p_rep t m) l)) ->
  merge_all (p_rep t m) (pc_out (p_rep t m) l) acc = Some (acc ++ l).
Proof.
  intros R. revert acc; induction l as [|a l IH]; intros acc H.
  - cbn. rewrite app_nil_r. reflexivity.
  - cbn [p_rep pc_out map] in *.
    change ((t, WLen (pencode m a)) :: ?x) with ([(t, WLen (pencode m a))] ++ x) in H.
    apply fits_ser_app in H as [H1 H2]. cbn [merge_all pc_in p_opt p_rep p_rep_bytes p_oneof].
    rewrite pdecode_pencode; [|exact R|exact (fits_ser_wlen _ _ H1)].
    rewrite IH by exact H2. rewrite <- app_assoc. reflexivity.
Qed.

Lemma rt_rep {A} t (m : pcodec A) : tag_ok t = true -> rt m -> rt (p_rep t m).
Proof.
  intros Ht R. split.
  - cbn. rewrite Ht. reflexivity.
  - intros l H. cbn [p_rep pc_out] in *. induction l as [|a l IH]; [constructor|].
    cbn [map] in *.
    change ((t, WLen (pencode m a)) :: ?x) with ([(t, WLen (pencode m a))] ++ x) in H.
    apply fits_ser_app in H as [H1 H2]. constructor; [|apply IH, H2].
    split; [apply tag_ok_bounds, Ht|]. cbn [snd]. exact (fits_ser_wlen _ _ H1).
  - intros l. cbn [p_rep pc_out pc_tags]. induction l as [|a l IH]; constructor; [tag_tac|exact IH].
  - intros l H. rewrite rep_merge by assumption. reflexivity.
Qed.

Lemma rep_bytes_merge t l acc :
  merge_all (p_rep_bytes t) (pc_out (p_rep_bytes t) l) acc = Some (acc ++ l).
Proof.
  revert acc; induction l as [|a l IH]; intros acc.
  - cbn. rewrite app_nil_r. reflexivity.
  - cbn [p_rep_bytes pc_out map merge_all pc_in] in *. rewrite IH, <- app_assoc. reflexivity.
Qed.

Lemma rt_rep_bytes t : tag_ok t = true -> rt (p_rep_bytes t).
Proof.
  intros Ht. split.
  - cbn. rewrite Ht. reflexivity.
  - intros l H. cbn [p_rep_bytes pc_out] in *. induction l as [|a l IH]; [constructor|].
    cbn [map] in *.
    change ((t, WLen a) :: ?x) with ([(t, WLen a)] ++ x) in H.
    apply fits_ser_app in H as [H1 H2]. constructor; [|apply IH, H2].
    split; [apply tag_ok_bounds, Ht|]. cbn [snd]. exact (fits_ser_wlen _ _ H1).
  - intros l. cbn [p_rep_bytes pc_out pc_tags]. induction l as [|a l IH]; constructor; [tag_tac|exact IH].
  - intros l H. rewrite rep_bytes_merge. reflexivity.
Qed.

(** ** Oneofs *)
Record rto {O} (o : poneof O) : Prop := {
  rto_tags : forallb tag_ok (po_tags o) = true;
  rto_in : forall x, has_tag (fst (po_out o x)) (po_tags o) = true;
  rto_merge : forall x, fits (ser [po_out o x]) ->
    exists b, snd (po_out o x) = WLen b /\ po_in o (fst (po_out o x)) b = Some x }.

Lemma rto_last {A} t (m : pcodec A) : tag_ok t = true -> rt m -> rto (po_last t m).
Proof.
  intros Ht R. split.
  - cbn. rewrite Ht. reflexivity.
  - intros x. cbn [po_last po_out po_tags]. tag_tac.
  - intros x H. cbn [po_last po_out po_in fst snd] in *. eexists; split; [reflexivity|].
    apply pdecode_pencode; [exact R|exact (fits_ser_wlen _ _ H)].
Qed.

Lemma rto_cons {A O} t (m : pcodec A) (o : poneof O) :
  tag_ok t = true -> has_tag t (po_tags o) = false -> rt m -> rto o -> rto (po_cons t m o).
Proof.
  intros Ht D R [To Io Mo]. split.
  - cbn. rewrite Ht. exact To.
  - intros [a|x]; cbn [po_cons po_out po_tags].
    + tag_tac.
    + specialize (Io x). unfold has_tag in *. cbn [existsb]. rewrite Io. apply orb_true_r.
  - intros [a|x] H; cbn [po_cons po_out po_in fst snd] in *.
    + eexists; split; [reflexivity|]. rewrite N.eqb_refl.
      rewrite pdecode_pencode; [reflexivity|exact R|exact (fits_ser_wlen _ _ H)].
    + destruct (Mo x H) as (b & E & E2). exists b. split; [exact E|].
      destruct (N.eqb_spec (fst (po_out o x)) t) as [E3|_].
      * exfalso. specialize (Io x). rewrite E3, D in Io. discriminate.
      * rewrite E2. reflexivity.
Qed.

Lemma rt_oneof {O} (o : poneof O) : rto o -> rt (p_oneof o).
Proof.
  intros [To Io Mo]. split.
  - exact To.
  - intros [x|] H; cbn [p_oneof pc_out] in *; constructor; [|constructor].
    destruct (Mo x H) as (b & E & _). specialize (Io x).
    destruct (po_out o x) as [t w]. cbn [fst snd] in *. subst w.
    split; cbn [fst snd].
    + apply tag_ok_bounds. rewrite forallb_forall in To. apply To, has_tag_in, Io.
    + exact (fits_ser_wlen _ _ H).
  - intros [x|]; cbn [p_oneof pc_out pc_tags]; constructor; [apply Io|constructor].
  - intros [x|] H; cbn [p_oneof pc_out pc_default] in *; [|reflexivity].
    destruct (Mo x H) as (b & E & E2). cbn [merge_all].
    destruct (po_out o x) as [t w]. cbn [fst snd] in *. subst w.
    cbn [pc_in p_oneof]. rewrite E2. reflexivity.
Qed.

(** Build the law of a concrete message. *)
Ltac rt_tac :=
  repeat first
    [ apply rt_pnil
    | apply rt_pcons; [reflexivity| |]
    | apply rt_bytes; reflexivity
    | apply rt_string; reflexivity
    | apply rt_u64; reflexivity
    | apply rt_u32; reflexivity
    | apply rt_opt; [reflexivity|]
    | apply rt_rep; [reflexivity|]
    | apply rt_rep_bytes; reflexivity
    | apply rt_oneof
    | apply rto_cons; [reflexivity|reflexivity| |]
    | apply rto_last; [reflexivity|]
    | eassumption
    | solve [eauto with rt] ].
