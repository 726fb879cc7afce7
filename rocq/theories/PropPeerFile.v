(** * C57: the file of known peers. *)
From Coq Require Import List Bool NArith Lia.
From stdpp Require Import base decidable list gmap sets fin_sets.
From Verif Require Import Base BaseFacts Types Rlp RlpFacts Bincode ConsMsg PeerManager PeerFile.
Import ListNotations.
Local Open Scope N_scope.

(** A decoder that looks only at what it takes, and one that takes something. *)
Definition stable {A} (d : bdec A) : Prop := forall b x r, d b = Some (x, r) ->
  exists u, b = u ++ r /\ forall r', d (u ++ r') = Some (x, r').
Definition eats {A} (d : bdec A) : Prop := forall b x r, d b = Some (x, r) -> (length r < length b)%nat.

Lemma take_n_stable n : stable (take_n n).
Proof.
  intros b x r. unfold take_n at 1. destruct (N.leb_spec n (blen b)) as [H|_]; [|discriminate]. intros [= <- <-].
  exists (firstn (N.to_nat n) b). split; [symmetry; apply take_drop|]. intros r'. apply take_n_app.
  unfold blen in *. rewrite firstn_length. lia.
Qed.
Lemma take_n_eats n : 0 < n -> eats (take_n n).
Proof.
  intros H0 b x r. unfold take_n. destruct (N.leb_spec n (blen b)) as [H|_]; [|discriminate]. intros [= _ <-].
  unfold blen in H. rewrite skipn_length. lia.
Qed.
Lemma dec_le_stable k : stable (dec_le k).
Proof.
  intros b x r. unfold dec_le at 1. destruct (take_n (N.of_nat k) b) as [[y r1]|] eqn:E; [|discriminate]. intros [= <- <-].
  apply take_n_stable in E as (u & -> & Hu). exists u. split; [reflexivity|]. intros r'. unfold dec_le. rewrite Hu. reflexivity.
Qed.
Lemma dec_le_eats k : (0 < k)%nat -> eats (dec_le k).
Proof.
  intros Hk b x r. unfold dec_le. destruct (take_n (N.of_nat k) b) as [[y r1]|] eqn:E; [|discriminate]. intros [= _ <-].
  apply take_n_eats in E; [exact E|lia].
Qed.
Lemma bdec_bytes_stable : stable bdec_bytes.
Proof.
  intros b x r. unfold bdec_bytes at 1. destruct (dec_le 8 b) as [[n r1]|] eqn:E; [|discriminate]. intros E2.
  apply dec_le_stable in E as (u & -> & Hu). apply take_n_stable in E2 as (v & -> & Hv).
  exists (u ++ v). split; [apply app_assoc|]. intros r'. unfold bdec_bytes. rewrite <- app_assoc, Hu. apply Hv.
Qed.
Lemma bdec_bytes_eats : eats bdec_bytes.
Proof.
  intros b x r. unfold bdec_bytes at 1. destruct (dec_le 8 b) as [[n r1]|] eqn:E; [|discriminate]. intros E2.
  apply dec_le_eats in E; [|lia]. apply take_n_stable in E2 as (v & -> & _). rewrite app_length in E. lia.
Qed.
Lemma bdec_many_stable {A} (d : bdec A) n : stable d -> stable (bdec_many d n).
Proof.
  intros Hd. induction n as [|n IH]; intros b x r; cbn [bdec_many].
  - intros [= <- <-]. exists []. split; reflexivity.
  - destruct (d b) as [[y r1]|] eqn:E; [|discriminate]. destruct (bdec_many d n r1) as [[ys r2]|] eqn:E2; [|discriminate].
    intros [= <- <-]. apply Hd in E as (u & -> & Hu). apply IH in E2 as (v & -> & Hv).
    exists (u ++ v). split; [apply app_assoc|]. intros r'. rewrite <- app_assoc, Hu, Hv. reflexivity.
Qed.
Lemma bdec_many_eats {A} (d : bdec A) n b x r : eats d -> bdec_many d n b = Some (x, r) -> (n + length r <= length b)%nat.
Proof.
  intros Hd. revert b x r. induction n as [|n IH]; intros b x r; cbn [bdec_many].
  - intros [= _ <-]. lia.
  - destruct (d b) as [[y r1]|] eqn:E; [|discriminate]. destruct (bdec_many d n r1) as [[ys r2]|] eqn:E2; [|discriminate].
    intros [= _ <-]. apply Hd in E. apply IH in E2. lia.
Qed.
Lemma bdec_vec_stable {A} (d : bdec A) : stable d -> eats d -> stable (bdec_vec d).
Proof.
  intros Hd He b x r. unfold bdec_vec at 1. destruct (dec_le 8 b) as [[n r1]|] eqn:E; [|discriminate].
  destruct (N.leb_spec n (blen r1)) as [_|_]; [|discriminate]. intros E2.
  apply dec_le_stable in E as (u & -> & Hu). pose proof (bdec_many_eats _ _ _ _ _ He E2) as L.
  apply (bdec_many_stable _ _ Hd) in E2 as (v & -> & Hv).
  exists (u ++ v). split; [apply app_assoc|]. intros r'. unfold bdec_vec. rewrite <- app_assoc, Hu.
  destruct (N.leb_spec n (blen (v ++ r'))) as [_|H]; [apply Hv|]. exfalso. unfold blen in H. rewrite !app_length in *. lia.
Qed.
(** What is cut off from an encoding does not decode. *)
Lemma prefix_fails {A} (d : bdec A) e x k : stable d -> d e = Some (x, []) -> (k < length e)%nat -> d (firstn k e) = None.
Proof.
  intros Hd He Hk. destruct (d (firstn k e)) as [[y r]|] eqn:E; [exfalso|reflexivity].
  apply Hd in E as (u & Eu & Hu). specialize (Hu (r ++ skipn k e)). rewrite app_assoc, <- Eu, firstn_skipn, He in Hu.
  injection Hu as _ Hr. symmetry in Hr. apply app_eq_nil in Hr as [_ Hr]. apply (f_equal length) in Hr. rewrite skipn_length in Hr.
  cbn in Hr. lia.
Qed.

Section Props.
  Context (pk_enc : pubkey -> bytes) (pk_dec : bytes -> option pubkey)
          (ma_enc : maddr -> bytes) (ma_dec : bytes -> option maddr)
          (order : gset maddr -> list maddr).
  Notation peer_file := (peer_file pk_enc ma_enc order).
  Notation crash_files := (crash_files pk_enc ma_enc order).
  Notation load := (load pk_dec ma_dec).
  Notation loaded := (loaded pk_dec ma_dec).
  Notation start_on := (start_on pk_dec ma_dec).

  (** The values the types hold: addresses of 4 or 16 octets, [u64]s, keys and
      addresses the crates read back. *)
  Definition ip_ok (ip : option proto) : Prop :=
    match ip with
    | None => True
    | Some (Ip4 b) => length b = 4%nat
    | Some (Ip6 b) => length b = 16%nat
    | Some _ => False
    end.
  Definition peer_ok (x : pubkey * peer_state) : Prop :=
    let st := snd x in
    pk_dec (pk_enc (fst x)) = Some (fst x) /\ fits (pk_enc (fst x)) /\ ip_ok (connection_ip st) /\
    connect_at st < 2 ^ 64 /\ disconnect_at st < 2 ^ 64 /\ alive st < 2 ^ 64 /\
    N.of_nat (size (addr_set st)) < 2 ^ 64 /\
    (forall a, a ∈ addr_set st -> ma_dec (ma_enc a) = Some a /\ fits (ma_enc a)).

  Lemma bdec_ip_stable : stable bdec_ip.
  Proof.
    intros b x r. unfold bdec_ip at 1. destruct (take_n 1 b) as [[t r1]|] eqn:E; [|discriminate].
    apply take_n_stable in E as (u & -> & Hu).
    destruct (bytes_eqb t [x00]) eqn:E0.
    { intros [= <- <-]. exists u. split; [reflexivity|]. intros r'. unfold bdec_ip. rewrite Hu, E0. reflexivity. }
    destruct (bytes_eqb t [x01]) eqn:E1; [|discriminate].
    destruct (dec_le 4 r1) as [[n r2]|] eqn:E2; [|discriminate]. apply dec_le_stable in E2 as (v & -> & Hv).
    assert (forall m mk y, match take_n m r2 with Some (o, r) => Some (Some (mk o : proto), r) | None => None end = Some (y, r) ->
      exists w, r2 = w ++ r /\ forall r', match take_n m (w ++ r') with Some (o, r) => Some (Some (mk o), r) | None => None end = Some (y, r')) as Hm.
    { intros m mk y. destruct (take_n m r2) as [[o r3]|] eqn:E3; [|discriminate]. intros [= <- <-].
      apply take_n_stable in E3 as (w & -> & Hw). exists w. split; [reflexivity|]. intros r'. rewrite Hw. reflexivity. }
    destruct n as [|[p|p|]]; try discriminate.
    - intros H. apply (Hm 4 Ip4) in H as (w & -> & Hw). exists (u ++ v ++ w). rewrite <- !app_assoc. split; [reflexivity|].
      intros r'. unfold bdec_ip. rewrite <- !app_assoc, Hu, E0, E1, Hv. apply Hw.
    - intros H. apply (Hm 16 Ip6) in H as (w & -> & Hw). exists (u ++ v ++ w). rewrite <- !app_assoc. split; [reflexivity|].
      intros r'. unfold bdec_ip. rewrite <- !app_assoc, Hu, E0, E1, Hv. apply Hw.
  Qed.
  Lemma bdec_addr_stable : stable (bdec_addr ma_dec).
  Proof.
    intros b x r. unfold bdec_addr at 1. destruct (bdec_bytes b) as [[y r1]|] eqn:E; [|discriminate].
    destruct (ma_dec y) as [a|] eqn:Ea; [|discriminate]. intros [= <- <-]. apply bdec_bytes_stable in E as (u & -> & Hu).
    exists u. split; [reflexivity|]. intros r'. unfold bdec_addr. rewrite Hu, Ea. reflexivity.
  Qed.
  Lemma bdec_addr_eats : eats (bdec_addr ma_dec).
  Proof.
    intros b x r. unfold bdec_addr at 1. destruct (bdec_bytes b) as [[y r1]|] eqn:E; [|discriminate].
    destruct (ma_dec y) as [a|] eqn:Ea; [|discriminate]. intros [= _ <-]. apply bdec_bytes_eats in E. exact E.
  Qed.
  Lemma bdec_state_stable c : stable (bdec_state ma_dec c).
  Proof.
    intros b x r. unfold bdec_state at 1.
    destruct (bdec_ip b) as [[ip b1]|] eqn:E1; [|discriminate].
    destruct (bdec_vec (bdec_addr ma_dec) b1) as [[l b2]|] eqn:E2; [|discriminate].
    destruct (dec_le 8 b2) as [[ca b3]|] eqn:E3; [|discriminate].
    destruct (dec_le 8 b3) as [[da b4]|] eqn:E4; [|discriminate].
    destruct (dec_le 8 b4) as [[al b5]|] eqn:E5; [|discriminate]. intros [= <- <-].
    apply bdec_ip_stable in E1 as (u1 & -> & H1). apply (bdec_vec_stable _ bdec_addr_stable bdec_addr_eats) in E2 as (u2 & -> & H2).
    apply dec_le_stable in E3 as (u3 & -> & H3). apply dec_le_stable in E4 as (u4 & -> & H4). apply dec_le_stable in E5 as (u5 & -> & H5).
    exists (u1 ++ u2 ++ u3 ++ u4 ++ u5). split; [rewrite <- !app_assoc; reflexivity|]. intros r'. unfold bdec_state.
    rewrite <- !app_assoc, H1, H2, H3, H4, H5. reflexivity.
  Qed.
  Lemma bdec_peer_stable c : stable (bdec_peer pk_dec ma_dec c).
  Proof.
    intros b x r. unfold bdec_peer at 1.
    destruct (bdec_bytes b) as [[k b1]|] eqn:E1; [|discriminate]. destruct (pk_dec k) as [pk|] eqn:Ek; [|discriminate].
    destruct (bdec_state ma_dec c b1) as [[st b2]|] eqn:E2; [|discriminate]. intros [= <- <-].
    apply bdec_bytes_stable in E1 as (u1 & -> & H1). apply bdec_state_stable in E2 as (u2 & -> & H2).
    exists (u1 ++ u2). split; [apply app_assoc|]. intros r'. unfold bdec_peer. rewrite <- app_assoc, H1, Ek, H2. reflexivity.
  Qed.
  Lemma bdec_peer_eats c : eats (bdec_peer pk_dec ma_dec c).
  Proof.
    intros b x r. unfold bdec_peer at 1.
    destruct (bdec_bytes b) as [[k b1]|] eqn:E1; [|discriminate]. destruct (pk_dec k) as [pk|] eqn:Ek; [|discriminate].
    destruct (bdec_state ma_dec c b1) as [[st b2]|] eqn:E2; [|discriminate]. intros [= _ <-].
    apply bdec_bytes_eats in E1. apply bdec_state_stable in E2 as (u2 & -> & _). rewrite app_length in E1. lia.
  Qed.

  Lemma two64_pow : 2 ^ 64 = 256 ^ N.of_nat 8.
  Proof. reflexivity. Qed.
  Lemma bdec_ip_app ip r : ip_ok ip -> bdec_ip (benc_ip ip ++ r) = Some (ip, r).
  Proof.
    intros H. destruct ip as [[b|b|n|b|n b]|]; cbn [ip_ok] in H; try contradiction; unfold bdec_ip, benc_ip.
    - cbn [app]. change (x01 :: (le 4 0 ++ b) ++ r) with ([x01] ++ (le 4 0 ++ b) ++ r). rewrite take_n_app by reflexivity.
      change (bytes_eqb [x01] [x00]) with false. change (bytes_eqb [x01] [x01]) with true. cbv iota.
      rewrite <- app_assoc, dec_le_app by reflexivity. rewrite take_n_app by (unfold blen; rewrite H; reflexivity). reflexivity.
    - cbn [app]. change (x01 :: (le 4 1 ++ b) ++ r) with ([x01] ++ (le 4 1 ++ b) ++ r). rewrite take_n_app by reflexivity.
      change (bytes_eqb [x01] [x00]) with false. change (bytes_eqb [x01] [x01]) with true. cbv iota.
      rewrite <- app_assoc, dec_le_app by reflexivity. rewrite take_n_app by (unfold blen; rewrite H; reflexivity). reflexivity.
    - rewrite take_n_app by reflexivity. reflexivity.
  Qed.
  Lemma bdec_vec_app {A B} (e : A -> bytes) (f : A -> B) (d : bdec B) (l : list A) r :
    N.of_nat (length l) < 2 ^ 64 -> Forall (fun a => (0 < length (e a))%nat) l ->
    Forall (fun a => forall r, d (e a ++ r) = Some (f a, r)) l -> bdec_vec d (benc_vec e l ++ r) = Some (map f l, r).
  Proof.
    intros Hl Hne H. unfold bdec_vec, benc_vec. rewrite <- app_assoc, dec_le_app by (rewrite <- two64_pow; exact Hl).
    destruct (N.leb_spec (N.of_nat (length l)) (blen (concat (map e l) ++ r))) as [_|L].
    - rewrite Nat2N.id. apply bdec_many_app. exact H.
    - exfalso. assert (length l <= length (concat (map e l)))%nat as X.
      { clear -Hne. induction Hne as [|a l Ha _ IH]; cbn [map concat length]; [lia|]. rewrite app_length. lia. }
      unfold blen in L. rewrite app_length in L. lia.
  Qed.
  Lemma benc_bytes_ne b : (0 < length (benc_bytes b))%nat.
  Proof. unfold benc_bytes. rewrite app_length, le_length. lia. Qed.
  Lemma bdec_peer_app c x r : (forall s, order s ≡ₚ elements s) -> peer_ok x ->
    bdec_peer pk_dec ma_dec c (benc_peer pk_enc ma_enc order x ++ r) = Some ((fst x, reloaded c (snd x)), r).
  Proof.
    intros Ho (Hk & Hfk & Hip & H1 & H2 & H3 & Hn & Ha). destruct x as [pk st]. cbn [fst snd] in *.
    unfold bdec_peer, benc_peer. cbn [fst snd]. rewrite <- app_assoc, bdec_bytes_app by exact Hfk. rewrite Hk.
    unfold bdec_state, benc_state. rewrite <- !app_assoc, bdec_ip_app by exact Hip.
    rewrite (bdec_vec_app (fun a => benc_bytes (ma_enc a)) id).
    - rewrite !dec_le_app by (rewrite <- two64_pow; lia). unfold reloaded. rewrite map_id. do 4 f_equal.
      f_equal. apply set_eq. intros a. rewrite elem_of_list_to_set, (Ho (addr_set st)), elem_of_elements. reflexivity.
    - rewrite (Permutation_length (Ho _)). exact Hn.
    - apply Forall_forall. intros a _. apply benc_bytes_ne.
    - apply Forall_forall. intros a Hin r'. rewrite (Ho (addr_set st)), elem_of_elements in Hin. destruct (Ha a Hin) as [A B].
      unfold bdec_addr. rewrite bdec_bytes_app by exact B. rewrite A. reflexivity.
  Qed.
  Lemma file_decodes c l : (forall s, order s ≡ₚ elements s) -> Forall peer_ok l -> N.of_nat (length l) < 2 ^ 64 ->
    bdec_vec (bdec_peer pk_dec ma_dec c) (peer_file l) = Some (map (fun x => (fst x, reloaded c (snd x))) l, []).
  Proof.
    intros Ho Hl Hn. rewrite <- (app_nil_r (peer_file l)). unfold PeerFile.peer_file. apply bdec_vec_app; [exact Hn| |].
    - apply Forall_forall. intros x _. unfold benc_peer. rewrite app_length. pose proof (benc_bytes_ne (pk_enc (fst x))). lia.
    - apply Forall_forall. intros x Hx r. apply bdec_peer_app; [exact Ho|]. rewrite Forall_forall in Hl. apply Hl, Hx.
  Qed.

  (** What is saved is loaded: keys, addresses, times and session address of
      every peer, in any order the sets are written in; the service starts on
      the file as on the saved peers. *)
  Theorem C57_saved_is_loaded : forall digest peer_id cfg c l,
    (forall s, order s ≡ₚ elements s) -> Forall peer_ok l -> N.of_nat (length l) < 2 ^ 64 ->
    load c (Some (peer_file l)) = Some (map (fun x => (fst x, reloaded c (snd x))) l) /\
    start_on digest peer_id cfg c (Some (peer_file l)) = start digest peer_id cfg c l.
  Proof.
    intros digest peer_id cfg c l Ho Hl Hn. pose proof (file_decodes c l Ho Hl Hn) as E.
    assert (load c (Some (peer_file l)) = Some (map (fun x => (fst x, reloaded c (snd x))) l)) as E2
      by (unfold PeerFile.load; rewrite E; reflexivity).
    split; [exact E2|]. unfold PeerFile.start_on, start, PeerFile.loaded. rewrite E2.
    replace (map (fun '(pk, st) => (pk, reloaded c st)) l) with (map (fun x => (fst x, reloaded c (snd x))) l)
      by (apply map_ext; intros [pk st]; reflexivity). reflexivity.
  Qed.

  (** A crash at any point of a save never makes up peers: the next start has
      those of the file before, those saved, or none. *)
  Theorem C57_crash_makes_up_nothing : forall c old l file,
    (forall s, order s ≡ₚ elements s) -> Forall peer_ok l -> N.of_nat (length l) < 2 ^ 64 ->
    crash_files old l file ->
    loaded c file = loaded c old \/ loaded c file = map (fun x => (fst x, reloaded c (snd x))) l \/ load c file = None.
  Proof.
    intros c old l file Ho Hl Hn [|k]; [left; reflexivity|right]. pose proof (file_decodes c l Ho Hl Hn) as E.
    destruct (le_lt_dec (length (peer_file l)) k) as [Hk|Hk].
    - left. rewrite firstn_all2 by exact Hk. unfold PeerFile.loaded, PeerFile.load. rewrite E. reflexivity.
    - right. unfold PeerFile.load.
      rewrite (prefix_fails _ _ _ k (bdec_vec_stable _ (bdec_peer_stable c) (bdec_peer_eats c)) E Hk). reflexivity.
  Qed.

  (** But it loses them, whatever was known before and is known now: the file is
      truncated first, and every proper beginning of the new one is refused; the
      node starts as if it had never known a peer. *)
  Theorem C57_crash_loses_all_peers_refuted : forall digest peer_id cfg c old l k,
    (forall s, order s ≡ₚ elements s) -> Forall peer_ok l -> N.of_nat (length l) < 2 ^ 64 ->
    (k < length (peer_file l))%nat ->
    crash_files old l (Some (firstn k (peer_file l))) /\
    loaded c (Some (firstn k (peer_file l))) = [] /\
    start_on digest peer_id cfg c (Some (firstn k (peer_file l))) = start digest peer_id cfg c [].
  Proof.
    intros digest peer_id cfg c old l k Ho Hl Hn Hk. split; [constructor|].
    assert (loaded c (Some (firstn k (peer_file l))) = []) as E.
    { unfold PeerFile.loaded, PeerFile.load.
      rewrite (prefix_fails _ _ _ k (bdec_vec_stable _ (bdec_peer_stable c) (bdec_peer_eats c)) (file_decodes c l Ho Hl Hn) Hk). reflexivity. }
    split; [exact E|]. unfold PeerFile.start_on, start. rewrite E. reflexivity.
  Qed.
End Props.
Print Assumptions C57_saved_is_loaded.
Print Assumptions C57_crash_makes_up_nothing.
Print Assumptions C57_crash_loses_all_peers_refuted.

(** ** The hypotheses are met: two peers, one with an address, one connected. *)
Definition ma_enc0 (a : maddr) : bytes :=
  match a with [Ip4 ip; Tcp p] => x04 :: ip ++ [x06; byte_of (p / 256); byte_of (p mod 256)] | _ => [] end.
Definition ma_dec0 (b : bytes) : option maddr :=
  match b with
  | [x04; a; b; c; d; x06; h; l] => Some [Ip4 [a; b; c; d]; Tcp (256 * bN h + bN l)]
  | _ => None
  end.
Definition addr0 : maddr := [Ip4 [x7f; x00; x00; x01]; Tcp 2337].
Definition peers0 : list (pubkey * peer_state) :=
  [([x02; x03], PeerState None {[addr0]} 3 77 1000 2000 5 60);
   ([x02; x04], PeerState (Some (Ip4 [x0a; x00; x00; x02])) ∅ 0 0 5000 0 0 0)].
Example peers0_ok :
  (forall s : gset maddr, elements s ≡ₚ elements s) /\ Forall (peer_ok id Some ma_enc0 ma_dec0) peers0 /\
  N.of_nat (length peers0) < 2 ^ 64 /\ (30 < length (peer_file id ma_enc0 elements peers0))%nat.
Proof.
  split; [reflexivity|]. split; [|split; [reflexivity|apply Nat.ltb_lt; vm_compute; reflexivity]].
  assert (forall a : maddr, a ∈ ({[addr0]} : gset maddr) -> ma_dec0 (ma_enc0 a) = Some a /\ fits (ma_enc0 a)) as Ha.
  { intros a H. apply elem_of_singleton in H. subst a. split; vm_compute; reflexivity. }
  assert (N.of_nat (size ({[addr0]} : gset maddr)) < 2 ^ 64) as Hs by (rewrite size_singleton; vm_compute; reflexivity).
  assert (N.of_nat (size (∅ : gset maddr)) < 2 ^ 64) as Hz by (rewrite size_empty; vm_compute; reflexivity).
  assert (forall a : maddr, a ∈ (∅ : gset maddr) -> ma_dec0 (ma_enc0 a) = Some a /\ fits (ma_enc0 a)) as He.
  { intros a H. destruct (not_elem_of_empty (C := gset maddr) a H). }
  apply Forall_cons. split; [|apply Forall_cons; split; [|apply Forall_nil; exact I]];
    unfold peer_ok; cbn [fst snd connection_ip addr_set connect_at disconnect_at alive].
  - split; [reflexivity|]. split; [vm_compute; reflexivity|]. split; [exact I|]. do 3 (split; [vm_compute; reflexivity|]).
    split; [exact Hs|exact Ha].
  - split; [reflexivity|]. split; [vm_compute; reflexivity|]. split; [reflexivity|]. do 3 (split; [vm_compute; reflexivity|]).
    split; [exact Hz|exact He].
Qed.
(** The file of before had one of them; after a crash in the middle of the save
    neither is known. *)
Example peers0_lost :
  length (loaded Some ma_dec0 (Clock 0 9) (Some (peer_file id ma_enc0 elements (firstn 1 peers0)))) = 1%nat /\
  loaded Some ma_dec0 (Clock 0 9) (Some (firstn 30 (peer_file id ma_enc0 elements peers0))) = [].
Proof. vm_compute. split; reflexivity. Qed.
