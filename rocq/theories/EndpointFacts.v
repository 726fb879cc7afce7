From Coq Require Import List Bool NArith Lia ZifyNat.
From stdpp Require Import base decidable list.
From Verif Require Import Base BaseFacts RlpFacts Endpoint NetSpec.
Import ListNotations.
Local Open Scope N_scope.

Lemma beqb_iff a b : beqb a b = true <-> a = b.
Proof.
  split; [apply Byte.byte_dec_bl | intros ->; apply Byte.byte_dec_lb; reflexivity].
Qed.
Lemma beqb_refl a : beqb a a = true.
Proof. apply beqb_iff. reflexivity. Qed.
Lemma beqb_false a b : beqb a b = false <-> a <> b.
Proof. rewrite <- not_true_iff_false, beqb_iff. reflexivity. Qed.

(** ** [split] and [comps] *)
Lemma split_not_nil b : split b <> [].
Proof. destruct b as [|c r]; cbn; [discriminate|]. destruct (beqb c slash); [discriminate|]. destruct (split r); discriminate. Qed.

Lemma split_no_slash c : ~ In slash c -> split c = [c].
Proof.
  induction c as [|x r IH]; intros H; [reflexivity|]. cbn [split].
  assert (beqb x slash = false) as ->. { apply beqb_false. intros ->. apply H. left. reflexivity. }
  rewrite IH; [reflexivity|]. intros Hi. apply H. right. exact Hi.
Qed.

Lemma split_app_slash c s : ~ In slash c -> split (c ++ slash :: s) = c :: split s.
Proof.
  induction c as [|x r IH]; intros H; [reflexivity|]. cbn [app split].
  assert (beqb x slash = false) as ->. { apply beqb_false. intros ->. apply H. left. reflexivity. }
  rewrite IH; [reflexivity|]. intros Hi. apply H. right. exact Hi.
Qed.

Lemma split_snoc a s : split (a ++ slash :: s) = split a ++ split s.
Proof.
  induction a as [|x r IH]; [reflexivity|]. cbn [app split].
  destruct (beqb x slash); [rewrite IH; reflexivity|].
  rewrite IH. destruct (split r) as [|p ps] eqn:E; [destruct (split_not_nil r E)|]. reflexivity.
Qed.

Lemma comps_snoc a s : comps (a ++ slash :: s) = comps a ++ comps s.
Proof. unfold comps. rewrite split_snoc. apply List.filter_app. Qed.
Lemma comps_slash s : comps (slash :: s) = comps s.
Proof. reflexivity. Qed.
Lemma comps_one c : c <> [] -> ~ In slash c -> comps c = [c].
Proof. intros H1 H2. unfold comps. rewrite split_no_slash by assumption. destruct c; [destruct H1|]; reflexivity. Qed.
Lemma comps_cons c s : c <> [] -> ~ In slash c -> comps (c ++ slash :: s) = c :: comps s.
Proof. intros H1 H2. rewrite comps_snoc, comps_one by assumption. reflexivity. Qed.

Lemma url_components_fun s cs : url_components s cs -> cs = comps s.
Proof.
  induction 1 as [|s cs _ IH|c H1 H2|c s cs H1 H2 _ IH].
  - reflexivity.
  - rewrite comps_slash. exact IH.
  - symmetry. apply comps_one; assumption.
  - rewrite comps_cons by assumption. rewrite IH. reflexivity.
Qed.

Lemma first_piece s : (~ In slash s) \/ exists c r, s = c ++ slash :: r /\ ~ In slash c.
Proof.
  induction s as [|x s IH]; [left; intros []|].
  destruct (decide (x = slash)) as [->|Hx].
  - right. exists [], s. split; [reflexivity|intros []].
  - destruct IH as [IH|(c & r & -> & Hc)].
    + left. intros [->|Hi]; [apply Hx; reflexivity | apply IH, Hi].
    + right. exists (x :: c), r. split; [reflexivity|]. intros [->|Hi]; [apply Hx; reflexivity | apply Hc, Hi].
Qed.

Lemma url_components_ex s : url_components s (comps s).
Proof.
  remember (length s) as n eqn:Hn. revert s Hn. induction n as [n IH] using lt_wf_ind; intros s ->.
  destruct (first_piece s) as [H|(c & r & -> & Hc)].
  - destruct s as [|x s]; [apply uc_nil|]. rewrite comps_one by (discriminate || assumption).
    apply uc_last; [discriminate|assumption].
  - assert (Hr : url_components r (comps r)).
    { eapply IH; [|reflexivity]. rewrite app_length. cbn [length]. lia. }
    destruct c as [|x c]; [cbn [app]; rewrite comps_slash; apply uc_slash, Hr|].
    rewrite comps_cons by (discriminate || assumption). apply uc_comp; [discriminate|assumption..].
Qed.

Lemma comps_ok s : Forall (fun c => c <> [] /\ ~ In slash c) (comps s).
Proof.
  pose proof (url_components_ex s) as H. remember (comps s) as cs. clear Heqcs.
  induction H; [constructor|assumption|repeat constructor; assumption|constructor; [split; assumption|assumption]].
Qed.

(** ** Scheme prefixes *)
Lemma starts_with_iff s pat : starts_with s pat = true <-> exists r, s = pat ++ r.
Proof.
  revert s. induction pat as [|p ps IH]; intros s.
  - split; [intros _; exists s; reflexivity|]. intros _. destruct s; reflexivity.
  - destruct s as [|c cs]; cbn [starts_with].
    + split; [discriminate|]. intros (r & H). discriminate.
    + rewrite andb_true_iff, beqb_iff, IH. split.
      * intros [-> (r & ->)]. exists r. reflexivity.
      * intros (r & [= -> ->]). split; [reflexivity|]. exists r. reflexivity.
Qed.

Lemma parse_endpoint_full s e : parse_endpoint s = Ok e -> full_url e = s.
Proof.
  unfold parse_endpoint. destruct (_ || _); [discriminate|]. destruct (_ && _ && _); [discriminate|].
  destruct (_ || _)%bool; [discriminate|]. intros [= <-]. reflexivity.
Qed.

Lemma parse_endpoint_iff s e :
  parse_endpoint s = Ok e <->
  full_url e = s /\ 1 <= blen (rs s) <= 120 /\
  (exists sch r, rs s = scheme_text sch ++ r) /\ (3 <= length (comps (rs s)) <= 4)%nat.
Proof.
  unfold parse_endpoint, MAX_ENDPOINT_LENGTH. split.
  - destruct ((blen (rs s) =? 0) || (120 <? blen (rs s))) eqn:E1; [discriminate|]. destruct (_ && _ && _) eqn:E2; [discriminate|].
    destruct ((length (comps (rs s)) <? 3)%nat || (4 <? length (comps (rs s)))%nat)%bool eqn:E3; [discriminate|]. intros [= <-]. cbn [full_url].
    apply orb_false_iff in E1 as [E1 E1']. apply orb_false_iff in E3 as [E3 E3'].
    apply N.eqb_neq in E1. apply N.ltb_ge in E1'. apply Nat.ltb_ge in E3, E3'.
    split; [reflexivity|]. split; [lia|]. split; [|lia].
    apply andb_false_iff in E2 as [E2|E2]; [apply andb_false_iff in E2 as [E2|E2]|];
      apply negb_false_iff, starts_with_iff in E2 as (r & E2);
      [exists Gossip, r|exists RpcCall, r|exists RpcResponse, r]; exact E2.
  - intros (He & Hl & (sch & r & Hs) & Hc).
    destruct ((blen (rs s) =? 0) || (120 <? blen (rs s))) eqn:E1.
    { apply orb_true_iff in E1 as [E1|E1]; [apply N.eqb_eq in E1|apply N.ltb_lt in E1]; lia. }
    destruct (_ && _ && _) eqn:E2.
    { exfalso. apply andb_true_iff in E2 as [E2 E2c]. apply andb_true_iff in E2 as [E2a E2b].
      rewrite negb_true_iff in E2a, E2b, E2c.
      destruct sch; cbn [scheme_text] in Hs.
      - assert (starts_with (rs s) GOSSIP_SCHEME = true) by (apply starts_with_iff; exists r; exact Hs). congruence.
      - assert (starts_with (rs s) RPC_CALL_SCHEME = true) by (apply starts_with_iff; exists r; exact Hs). congruence.
      - assert (starts_with (rs s) RPC_RESPONSE_SCHEME = true) by (apply starts_with_iff; exists r; exact Hs). congruence. }
    destruct ((length (comps (rs s)) <? 3)%nat || (4 <? length (comps (rs s)))%nat)%bool eqn:E3.
    { apply orb_true_iff in E3 as [E3|E3]; apply Nat.ltb_lt in E3; lia. }
    destruct e as [u]; cbn [full_url] in He. rewrite He. reflexivity.
Qed.

Lemma parse_endpoint_np s : parse_endpoint s <> Panic.
Proof. unfold parse_endpoint. destruct (_ || _); [discriminate|]. destruct (_ && _ && _); [discriminate|]. destruct (_ || _)%bool; discriminate. Qed.

(** ** Roots *)
Notation parsed e := (exists s, parse_endpoint s = Ok e).

Lemma parsed_comps e : parsed e -> exists c0 c1 c2 r, comps (rs (full_url e)) = c0 :: c1 :: c2 :: r /\ (length r <= 1)%nat.
Proof.
  intros (s & H). apply parse_endpoint_iff in H as (-> & _ & _ & H).
  destruct (comps (rs s)) as [|c0 [|c1 [|c2 r]]]; cbn [length] in H; try lia.
  exists c0, c1, c2, r. split; [reflexivity|lia].
Qed.

Lemma root_comps (c0 c1 c2 : bytes) : c0 <> [] -> ~ In slash c0 -> c1 <> [] -> ~ In slash c1 -> c2 <> [] -> ~ In slash c2 ->
  comps (slash :: c0 ++ slash :: c1 ++ slash :: c2) = [c0; c1; c2].
Proof.
  intros. rewrite comps_slash, comps_cons, comps_cons, comps_one by assumption. reflexivity.
Qed.

Lemma root_ok e : parsed e -> exists r, root e = Ok r /\ comps r = firstn 3 (comps (rs (full_url e))).
Proof.
  intros H. destruct (parsed_comps e H) as (c0 & c1 & c2 & r & E & _). unfold root.
  pose proof (comps_ok (rs (full_url e))) as Hf. rewrite E in Hf |- *. eexists; split; [reflexivity|].
  inversion_clear Hf as [|? ? [? ?] Hf']. inversion_clear Hf' as [|? ? [? ?] Hf'']. inversion_clear Hf'' as [|? ? [? ?] _].
  apply root_comps; assumption.
Qed.

Lemma root_eq_iff e1 e2 : parsed e1 -> parsed e2 ->
  (root e1 = root e2 <-> firstn 3 (comps (rs (full_url e1))) = firstn 3 (comps (rs (full_url e2)))).
Proof.
  intros H1 H2. destruct (root_ok e1 H1) as (r1 & E1 & F1). destruct (root_ok e2 H2) as (r2 & E2 & F2).
  split.
  - intros H. rewrite E1, E2 in H. injection H as ->. congruence.
  - intros H. unfold root.
    destruct (parsed_comps e1 H1) as (c0 & c1 & c2 & r & Ea & _).
    destruct (parsed_comps e2 H2) as (d0 & d1 & d2 & r' & Eb & _).
    rewrite Ea, Eb in H |- *. cbn in H. injection H as -> -> ->. reflexivity.
Qed.

(** The scheme is decided by the first component. *)
Definition scheme_name (s : scheme) : bytes := tl (scheme_text s).
Lemma scheme_text_name s : scheme_text s = slash :: scheme_name s.
Proof. destruct s; reflexivity. Qed.
Lemma scheme_name_no_slash s : ~ In slash (scheme_name s).
Proof. destruct s; vm_compute; intuition discriminate. Qed.

Lemma no_slash_app a b : ~ In slash (a ++ b) <-> ~ In slash a /\ ~ In slash b.
Proof. rewrite in_app_iff. tauto. Qed.

Lemma starts_with_first sch s c0 r :
  comps s = c0 :: r -> (exists x, s = slash :: x) ->
  (forall t, s = slash :: t -> exists y, t = y /\ hd slash y <> slash) ->
  starts_with s (scheme_text sch) = starts_with c0 (scheme_name sch).
Proof.
  intros Hc (x & ->) Hh. destruct (Hh x eq_refl) as (? & <- & Hx). clear Hh.
  rewrite comps_slash in Hc. rewrite scheme_text_name. cbn [starts_with]. rewrite beqb_refl. cbn [andb].
  destruct (first_piece x) as [H|(c & y & -> & Hy)].
  - destruct x as [|b x]; [discriminate|]. rewrite comps_one in Hc by (discriminate || assumption).
    injection Hc as <- _. reflexivity.
  - assert (c <> []) as Hn. { intros ->. apply Hx. reflexivity. }
    rewrite comps_cons in Hc by assumption. injection Hc as -> _.
    generalize (scheme_name_no_slash sch). generalize (scheme_name sch). clear Hx Hn.
    induction c0 as [|b c0 IH]; intros p Hp; destruct p as [|q p]; cbn [app starts_with]; try reflexivity.
    + assert (beqb q slash = false) as ->; [|reflexivity]. apply beqb_false. intros ->. apply Hp. left. reflexivity.
    + rewrite IH; [reflexivity| |].
      * intros Hi. apply Hy. right. exact Hi.
      * intros Hi. apply Hp. right. exact Hi.
Qed.

Lemma parsed_head e : parsed e -> exists x, rs (full_url e) = slash :: x /\ hd slash x <> slash.
Proof.
  intros (s & H). apply parse_endpoint_iff in H as (-> & _ & (sch & r & H) & _).
  rewrite H. destruct sch; eexists; (split; [reflexivity|discriminate]).
Qed.

Lemma parsed_starts e sch : parsed e ->
  exists c0 r, comps (rs (full_url e)) = c0 :: r /\
  starts_with (rs (full_url e)) (scheme_text sch) = starts_with c0 (scheme_name sch).
Proof.
  intros H. destruct (parsed_comps e H) as (c0 & c1 & c2 & r & E & _).
  exists c0, (c1 :: c2 :: r). split; [exact E|].
  destruct (parsed_head e H) as (x & Hx & Hh).
  eapply starts_with_first; [exact E|exists x; exact Hx|].
  rewrite Hx. intros t [= ->]. exists t. split; [reflexivity|exact Hh].
Qed.

Lemma scheme_ok e : parsed e -> exists sch, scheme_of e = Ok sch /\ exists r, rs (full_url e) = scheme_text sch ++ r.
Proof.
  intros (s & H). apply parse_endpoint_iff in H as (Hf & _ & (sch & r & H) & _). rewrite <- Hf in H.
  exists sch. split; [|exists r; exact H]. unfold scheme_of. rewrite H. destruct sch; reflexivity.
Qed.

Lemma scheme_unique e sch r : rs (full_url e) = scheme_text sch ++ r -> scheme_of e = Ok sch.
Proof. unfold scheme_of. intros ->. destruct sch; reflexivity. Qed.

Lemma same_root_same_scheme e1 e2 : parsed e1 -> parsed e2 -> root e1 = root e2 -> scheme_of e1 = scheme_of e2.
Proof.
  intros H1 H2 Hr. apply (root_eq_iff e1 e2 H1 H2) in Hr.
  assert (G : forall sch, starts_with (rs (full_url e1)) (scheme_text sch) = starts_with (rs (full_url e2)) (scheme_text sch)).
  { intros sch. destruct (parsed_starts e1 sch H1) as (c & r & Ec & ->). destruct (parsed_starts e2 sch H2) as (d & r' & Ed & ->).
    rewrite Ec, Ed in Hr. cbn in Hr. injection Hr as -> _. reflexivity. }
  unfold scheme_of. pose proof (G Gossip) as G1. pose proof (G RpcCall) as G2. pose proof (G RpcResponse) as G3.
  cbn [scheme_text] in G1, G2, G3. rewrite G1, G2, G3. reflexivity.
Qed.

(** ** Decimal *)
Lemma digit_val d : d < 10 -> bN (digit d) = 48 + d.
Proof.
  intros H. assert (d = 0 \/ d = 1 \/ d = 2 \/ d = 3 \/ d = 4 \/ d = 5 \/ d = 6 \/ d = 7 \/ d = 8 \/ d = 9) as Hc by lia.
  repeat (destruct Hc as [->|Hc]; [reflexivity|]). subst. reflexivity.
Qed.

Lemma in_rng_iff c lo hi : in_rng c lo hi = true <-> lo <= bN c <= hi.
Proof. unfold in_rng. rewrite andb_true_iff, !N.leb_le. reflexivity. Qed.

Lemma parse_digits_app a b acc : parse_digits (a ++ b) acc =
  match parse_digits a acc with Some v => parse_digits b v | None => None end.
Proof.
  revert acc. induction a as [|c a IH]; intros acc; [reflexivity|]. cbn [app parse_digits].
  destruct (in_rng c 48 57); [|reflexivity]. destruct (_ <? two64); [apply IH|reflexivity].
Qed.

Lemma dec_f_parse f : forall n acc, n < 10 ^ N.of_nat f -> n < two64 -> (1 <= f)%nat ->
  parse_digits (dec_f f n acc) 0 = parse_digits acc n.
Proof.
  induction f as [|f IH]; intros n acc Hn H2 Hf; [lia|]. cbn [dec_f].
  pose proof (N.mod_lt n 10 ltac:(lia)) as Hm. pose proof (N.div_mod n 10 ltac:(lia)) as Hd.
  destruct (n / 10 =? 0) eqn:E.
  - apply N.eqb_eq in E. cbn [parse_digits].
    assert (in_rng (digit (n mod 10)) 48 57 = true) as ->. { apply in_rng_iff. rewrite digit_val by assumption. lia. }
    rewrite digit_val by assumption. replace (0 * 10 + (48 + n mod 10 - 48)) with n by lia.
    apply N.ltb_lt in H2. rewrite H2. reflexivity.
  - apply N.eqb_neq in E. destruct f as [|f].
    { cbn in Hn. assert (n / 10 = 0) by (apply N.div_small; lia). contradiction. }
    rewrite IH.
    + cbn [parse_digits].
      assert (in_rng (digit (n mod 10)) 48 57 = true) as ->. { apply in_rng_iff. rewrite digit_val by assumption. lia. }
      rewrite digit_val by assumption. replace (n / 10 * 10 + (48 + n mod 10 - 48)) with n by lia.
      apply N.ltb_lt in H2. rewrite H2. reflexivity.
    + apply N.div_lt_upper_bound; [lia|].
      replace (N.of_nat (S (S f))) with (N.succ (N.of_nat (S f))) in Hn by lia.
      rewrite N.pow_succ_r' in Hn. exact Hn.
    + apply N.le_lt_trans with n; [|exact H2]. lia.
    + lia.
Qed.

Lemma dec_f_not_nil f n acc : (1 <= f)%nat -> dec_f f n acc <> [].
Proof.
  assert (G : forall f n acc, acc <> [] -> dec_f f n acc <> []).
  { induction f0 as [|f0 IH]; intros m a Ha; [exact Ha|]. cbn [dec_f]. destruct (_ =? 0); [discriminate|]. apply IH. discriminate. }
  destruct f as [|f]; [lia|]. intros _. cbn [dec_f]. destruct (_ =? 0); [discriminate|]. apply G. discriminate.
Qed.

Lemma dec_not_nil n : dec n <> [].
Proof. apply dec_f_not_nil. lia. Qed.

Lemma dec_parse (n : u64) : parse_u64 (dec n) = Some (u64v n).
Proof.
  assert (Hlt : u64v n < two64) by (apply N.ltb_lt, u64_ok).
  assert (H : parse_digits (dec n) 0 = Some (u64v n)).
  { unfold dec. rewrite dec_f_parse; [reflexivity| |assumption|lia].
    eapply N.lt_trans; [exact Hlt|]. vm_compute. reflexivity. }
  unfold parse_u64. pose proof (dec_not_nil n) as Hnn. pose proof (dec_ascii n Hlt) as Ha.
  destruct (dec n) as [|c r] eqn:E; [destruct Hnn; reflexivity|].
  inversion_clear Ha as [|? ? Hc _]. assert (bN c =? 43 = false) as -> by (apply N.eqb_neq; lia). exact H.
Qed.

Lemma dec_no_slash n : ~ In slash (dec n).
Proof.
  unfold dec. assert (G : forall f n acc, ~ In slash acc -> ~ In slash (dec_f f n acc)).
  { induction f as [|f IH]; intros m acc Ha; cbn [dec_f]; [assumption|].
    assert (Hd : ~ In slash (digit (m mod 10) :: acc)).
    { intros [He|Hi]; [|apply Ha, Hi]. pose proof (N.mod_lt m 10 ltac:(lia)) as Hm.
      apply (f_equal bN) in He. rewrite digit_val in He by assumption. vm_compute (bN slash) in He. lia. }
    destruct (_ =? 0); [assumption|]. apply IH, Hd. }
  apply G. intros [].
Qed.

Lemma parse_digits_decimal t : t <> [] -> forall n, parse_digits t 0 = Some n <-> decimal t n /\ n < two64.
Proof.
  intros Ht n. split.
  - revert n. induction t as [|c t IH] using rev_ind; [destruct (Ht eq_refl)|].
    intros n. rewrite parse_digits_app.
    destruct t as [|c' t'].
    + cbn [parse_digits app]. destruct (in_rng c 48 57) eqn:Er; [|discriminate]. apply in_rng_iff in Er.
      destruct (_ <? two64) eqn:El; [|discriminate]. intros [= <-]. apply N.ltb_lt in El. split; [|exact El].
      replace (0 * 10 + (bN c - 48)) with (bN c - 48) by lia. apply dec_one. exact Er.
    + destruct (parse_digits (c' :: t') 0) as [v|] eqn:Ev; [|discriminate]. cbn [parse_digits].
      destruct (in_rng c 48 57) eqn:Er; [|discriminate]. apply in_rng_iff in Er.
      destruct (_ <? two64) eqn:El; [|discriminate]. intros [= <-]. apply N.ltb_lt in El. split; [|exact El].
      destruct (IH ltac:(discriminate) v eq_refl) as [Hd _].
      replace (v * 10 + (bN c - 48)) with (10 * v + (bN c - 48)) by lia. apply dec_snoc; assumption.
  - intros [Hd Hl]. induction Hd as [c Hc|t n c Hd IH Hc].
    + cbn [parse_digits]. apply in_rng_iff in Hc. rewrite Hc. replace (0 * 10 + (bN c - 48)) with (bN c - 48) by lia.
      apply N.ltb_lt in Hl. rewrite Hl. reflexivity.
    + rewrite parse_digits_app, IH; [|destruct Hd; [discriminate|intros He; apply app_eq_nil in He as [_ He]; discriminate]|lia].
      cbn [parse_digits]. apply in_rng_iff in Hc. rewrite Hc.
      replace (n * 10 + (bN c - 48)) with (10 * n + (bN c - 48)) by lia. apply N.ltb_lt in Hl. rewrite Hl. reflexivity.
Qed.

Lemma decimal_head t n : decimal t n -> exists c r, t = c :: r /\ 48 <= bN c <= 57.
Proof.
  induction 1 as [c Hc|t n c _ (d & r & -> & Hd) _].
  - exists c, []. split; [reflexivity|exact Hc].
  - exists d, (r ++ [c]). split; [reflexivity|exact Hd].
Qed.

Lemma parse_u64_iff t n : parse_u64 t = Some n <-> u64_text t n.
Proof.
  unfold parse_u64, u64_text. destruct t as [|c r].
  - split; [discriminate|]. intros (_ & [H|(t' & H & _)]); [|discriminate].
    apply decimal_head in H as (? & ? & ? & _). discriminate.
  - destruct (bN c =? 43) eqn:Ec.
    + apply N.eqb_eq in Ec. assert (c = Byte.x2b) as ->.
      { apply bN_inj. rewrite Ec. reflexivity. }
      destruct r as [|d r].
      * split; [discriminate|]. intros (_ & [H|(t' & [= <-] & H)]).
        -- apply decimal_head in H as (? & ? & [= <- _] & H). vm_compute (bN _) in H. lia.
        -- apply decimal_head in H as (? & ? & H & _). discriminate.
      * rewrite parse_digits_decimal by discriminate. split.
        -- intros [H1 H2]. split; [exact H2|]. right. exists (d :: r). split; [reflexivity|exact H1].
        -- intros (H2 & [H|(t' & [= <-] & H)]).
           ++ apply decimal_head in H as (? & ? & [= <- _] & H). vm_compute (bN _) in H. lia.
           ++ split; assumption.
    + rewrite parse_digits_decimal by discriminate. split.
      * intros [H1 H2]. split; [exact H2|]. left. exact H1.
      * intros (H2 & [H|(t' & [= -> _] & H)]); [split; assumption|]. vm_compute in Ec. discriminate.
Qed.

(** ** Extending an endpoint *)
Lemma after_last_app a t : ~ In slash t -> after_last_slash (a ++ slash :: t) = Some t.
Proof.
  intros Ht. induction a as [|c a IH]; cbn [app after_last_slash]; [|rewrite IH; reflexivity].
  assert (after_last_slash t = None) as ->; [|reflexivity].
  clear -Ht. induction t as [|c t IH]; [reflexivity|]. cbn [after_last_slash].
  rewrite IH by (intros H; apply Ht; right; exact H).
  assert (beqb c slash = false) as ->; [|reflexivity]. apply beqb_false. intros ->. apply Ht. left. reflexivity.
Qed.

Lemma after_last_inv s t : after_last_slash s = Some t -> exists a, s = a ++ slash :: t /\ ~ In slash t.
Proof.
  revert t. induction s as [|c s IH]; intros t; [discriminate|]. cbn [after_last_slash].
  destruct (after_last_slash s) as [t'|] eqn:E.
  - intros [= <-]. destruct (IH t' eq_refl) as (a & -> & Ht). exists (c :: a). split; [reflexivity|exact Ht].
  - destruct (beqb c slash) eqn:Ec; [|discriminate]. intros [= <-]. apply beqb_iff in Ec as ->.
    exists []. split; [reflexivity|]. clear IH. induction s as [|d s IH]; [intros []|].
    cbn [after_last_slash] in E. destruct (after_last_slash s) eqn:E'; [discriminate|].
    destruct (beqb d slash) eqn:Ed; [discriminate|]. apply beqb_false in Ed.
    intros [He|Hi]; [apply Ed, He | apply (IH eq_refl Hi)].
Qed.

Lemma trim_start_id b : ~ In slash b -> trim_start b = b.
Proof.
  destruct b as [|c r]; [reflexivity|]. intros H. cbn [trim_start].
  assert (beqb c slash = false) as ->; [|reflexivity]. apply beqb_false. intros ->. apply H. left. reflexivity.
Qed.

Definition extended (e : endpoint) (rid : u64) : bytes := rs (full_url e) ++ slash :: dec rid.

Lemma extend_url e rid : rs (rcat (rcat (full_url e) slash_str) (rtrim (rid_str rid))) = extended e rid.
Proof.
  cbn [rcat rtrim rid_str rs slash_str]. rewrite trim_start_id by apply dec_no_slash.
  rewrite <- app_assoc. reflexivity.
Qed.

Lemma extended_comps e rid : comps (extended e rid) = comps (rs (full_url e)) ++ [dec rid].
Proof. unfold extended. rewrite comps_snoc, (comps_one (dec rid)); [reflexivity|apply dec_not_nil|apply dec_no_slash]. Qed.

Lemma extend_spec e rid e' : parsed e -> extend e (rid_str rid) = Ok e' ->
  rs (full_url e') = extended e rid /\ length (comps (rs (full_url e))) = 3%nat /\
  root e' = root e /\ scheme_of e' = scheme_of e /\ rpc_id e' = Ok rid.
Proof.
  intros Hp H. unfold extend in H. assert (Hp' : parsed e') by (eexists; exact H).
  pose proof (parse_endpoint_full _ _ H) as Hf. apply (f_equal rs) in Hf. rewrite extend_url in Hf.
  apply parse_endpoint_iff in H as (_ & _ & _ & Hc). rewrite extend_url, extended_comps, app_length in Hc.
  cbn [length] in Hc. destruct (parsed_comps e Hp) as (c0 & c1 & c2 & r & Ec & _).
  assert (H3 : length (comps (rs (full_url e))) = 3%nat). { rewrite Ec in Hc |- *. cbn [length] in Hc |- *. lia. }
  assert (Hr : root e' = root e).
  { apply root_eq_iff; [assumption..|]. rewrite Hf, extended_comps, Ec. reflexivity. }
  split; [exact Hf|]. split; [exact H3|]. split; [exact Hr|].
  split; [apply same_root_same_scheme; assumption|].
  unfold rpc_id. rewrite Hf. unfold extended. rewrite after_last_app by apply dec_no_slash.
  destruct (dec rid) as [|d ds] eqn:Ed; [destruct (dec_not_nil rid Ed)|]. rewrite <- Ed, dec_parse.
  f_equal. apply u64_eq. cbn. apply N.mod_small. apply N.ltb_lt, u64_ok.
Qed.

Lemma extend_iff e rid : parsed e ->
  ((exists e', extend e (rid_str rid) = Ok e') <->
   length (comps (rs (full_url e))) = 3%nat /\ blen (rs (full_url e)) + 1 + blen (dec rid) <= 120).
Proof.
  intros Hp. split.
  - intros (e' & H). pose proof (extend_spec e rid e' Hp H) as (_ & H3 & _). split; [exact H3|].
    unfold extend in H. apply parse_endpoint_iff in H as (_ & Hl & _). rewrite extend_url in Hl.
    unfold extended, blen in Hl |- *. rewrite app_length in Hl. cbn [length] in Hl. lia.
  - intros [H3 Hl]. eexists. unfold extend. apply parse_endpoint_iff.
    split; [instantiate (1 := Endpoint _); reflexivity|]. rewrite extend_url. split.
    + unfold extended, blen in Hl |- *. rewrite app_length. cbn [length]. lia.
    + split; [|rewrite extended_comps, app_length; cbn [length]; lia].
      destruct Hp as (s & Hp). apply parse_endpoint_iff in Hp as (Hs & _ & (sch & r & Hr) & _).
      exists sch, (r ++ slash :: dec rid). unfold extended. rewrite Hs, Hr, <- app_assoc. reflexivity.
Qed.

Lemma extend_np e c : extend e c <> Panic.
Proof. apply parse_endpoint_np. Qed.

Lemma dec_length (rid : u64) : blen (dec rid) <= 20.
Proof.
  unfold dec. assert (G : forall f n acc, blen (dec_f f n acc) <= N.of_nat f + blen acc).
  { induction f as [|f IH]; intros n acc; cbn [dec_f]; [lia|].
    destruct (_ =? 0); [unfold blen; cbn [length]; lia|]. etransitivity; [apply IH|]. unfold blen. cbn [length]. lia. }
  etransitivity; [apply G|]. unfold blen. cbn. lia.
Qed.

Lemma rpc_id_iff e n : rpc_id e = Ok n <->
  exists a t, rs (full_url e) = a ++ slash :: t /\ ~ In slash t /\ u64_text t n.
Proof.
  unfold rpc_id. split.
  - destruct (after_last_slash _) as [t|] eqn:E; [|discriminate]. destruct (after_last_inv _ _ E) as (a & Ha & Ht).
    destruct t as [|c r]; [discriminate|]. destruct (parse_u64 (c :: r)) as [m|] eqn:Ep; [|discriminate].
    intros [= <-]. apply parse_u64_iff in Ep. exists a, (c :: r). split; [exact Ha|]. split; [exact Ht|].
    cbn [wrap64 u64v]. rewrite N.mod_small by apply Ep. exact Ep.
  - intros (a & t & -> & Ht & Hu). rewrite after_last_app by assumption.
    destruct t as [|c r].
    { apply parse_u64_iff in Hu. discriminate. }
    apply parse_u64_iff in Hu. rewrite Hu. f_equal. apply u64_eq. cbn. apply N.mod_small, N.ltb_lt, u64_ok.
Qed.
