(** * The setting of the longer example histories: accounts, genesis, Merkle
    root -- as in ExecExamples.v but over the cheap digest [mixd]. *)
From Verif Require Import Base BaseFacts Hex Types Rlp RlpFacts FixedCodec FixedCodecFacts CodecProps
  StateAdapter StateAdapterFacts Executor ExecSpec Keccak.
From Coq Require Strings.String.
Import String.StringSyntax.
Delimit Scope string_scope with string.
Local Open Scope N_scope.

(** A stand-in for the Merkle root, with the right root for the empty trie. *)
Definition rootx (m : gmap bytes bytes) : hash :=
  match map_to_list m with
  | [] => hash_from_empty mixd
  | l => mixd (concat (map (fun kv => kv.1 ++ kv.2) l))
  end.
Definition showx (e : exec_err) : rstring :=
  match e with
  | EOutOfCycles => RString (ascii "out of cycles"%string) eq_refl
  | _ => RString (ascii "error"%string) eq_refl
  end.
Definition canons : nat -> iter_order := fun _ => canon_order.
Lemma canons_ok : forall n, order_ok (canons n).
Proof. intros n. split; reflexivity. Qed.

Definition user_of (pubkey : bytes) : user_address :=
  match user_from_pubkey mixd pubkey with Ok u => u | _ => UA (repeat x10 21) eq_refl end.
Definition alice := user_of [x01]. Definition bob := user_of [x02]. Definition carol := user_of [x03].
Definition tok : hash := mixd [x0a].
Definition chainx : hash := mixd [x0b].
(** ** Genesis: the system token, alice with two assets and bob listed twice. *)
Definition str (b : bytes) : rstring := match decide (utf8 b = true) with left e => RString b e | right _ => lit [] eq_refl end.
Definition hexs (b : bytes) : rstring := str (hex_encode b).
Definition stok : hash :=
  match contract_from_code mixd [x60; x61] (wrap64 0) CtAsset with
  | Ok c => mixd (sbytes chainx ++ ca c) | _ => tok end.
Definition gen0 : genesis :=
  MkGenesis (wrap64 0) (str (ascii "prev"%string))
    (MkGToken (str (ascii "6061"%string)) (str (ascii "Muta"%string)) (str (ascii "MT"%string)) (wrap64 32))
    [MkGAlloc (hexs (ua alice)) [MkGAsset (hexs (sbytes stok)) (str (ascii "03e8"%string)); MkGAsset (hexs (sbytes chainx)) (str (ascii "05"%string))];
     MkGAlloc (hexs (ua bob)) [MkGAsset (hexs (sbytes stok)) (str (ascii "01"%string))];
     MkGAlloc (hexs (ua carol)) [];
     MkGAlloc (hexs (ua bob)) [MkGAsset (hexs (sbytes stok)) (str (ascii "02"%string))]].
Definition gen0_allocs : list (address * list (hash * N)) :=
  [(AUser alice, [(stok, 1000); (chainx, 5)]); (AUser bob, [(stok, 1)]); (AUser carol, []); (AUser bob, [(stok, 2)])].
Definition xe : executor := MkExec chainx (wrap64 0) (wrap64 1) (AUser carol) ∅ (ad_new ∅) (ad_new ∅) ∅.

Lemma hash_check (r : res types_err hash) (h : hash) :
  match r with Ok k => bytes_eqb (sbytes k) (sbytes h) | _ => false end = true -> r = Ok h.
Proof. destruct r; try discriminate. intros H. f_equal. apply sized_eq, bytes_eqb_eq, H. Qed.
Lemma addr_check {E} (r : res E address) (h : address) :
  match r with Ok k => bytes_eqb (address_bytes k) (address_bytes h) | _ => false end = true -> r = Ok h.
Proof. destruct r; try discriminate. intros H. f_equal. apply address_bytes_inj, bytes_eqb_eq, H. Qed.

Example gen0_parsed : parsed_genesis gen0 [x60; x61] gen0_allocs.
Proof.
  split; [vm_compute; reflexivity|]. unfold gen0, gen0_allocs. cbn [gn_state_alloc].
  repeat (constructor; [split; [apply addr_check; vm_compute; reflexivity|];
    cbn [gl_assets snd]; repeat (constructor; [split; [apply hash_check; vm_compute; reflexivity|]; 
      eexists; split; [vm_compute; reflexivity|vm_compute; reflexivity]|]); constructor|]). constructor.
Qed.

(** Checks. *)
Definition kv_eqb (p q : bytes * bytes) : bool := bytes_eqb p.1 q.1 && bytes_eqb p.2 q.2.
Fixpoint kvs_eqb (l k : list (bytes * bytes)) : bool :=
  match l, k with [], [] => true | p :: l', q :: k' => kv_eqb p q && kvs_eqb l' k' | _, _ => false end.
Lemma kvs_eqb_eq l k : kvs_eqb l k = true -> l = k.
Proof.
  revert k. induction l as [|[p1 p2] l IH]; intros [|[q1 q2] k]; try discriminate; [reflexivity|].
  cbn. unfold kv_eqb. cbn. intros H. apply andb_true_iff in H as [H H3]. apply andb_true_iff in H as [H1 H2].
  apply bytes_eqb_eq in H1, H2. subst. f_equal. auto.
Qed.
Definition clash_check (l : list (gmap bytes bytes)) : bool :=
  let k := map (fun m => (sbytes (rootx m), map_to_list m)) l in
  forallb (fun p => forallb (fun q => if bytes_eqb p.1 q.1 then kvs_eqb p.2 q.2 else true) k) k.
Lemma clash_check_ok l : clash_check l = true -> clash_free rootx l.
Proof.
  unfold clash_check. cbn zeta. rewrite forallb_forall. intros H m1 m2 H1 H2 E.
  specialize (H (sbytes (rootx m1), map_to_list m1)). rewrite forallb_forall in H.
  specialize (H ltac:(apply (in_map (fun m => (sbytes (rootx m), map_to_list m))), elem_of_list_In, H1)
                (sbytes (rootx m2), map_to_list m2)
                ltac:(apply (in_map (fun m => (sbytes (rootx m), map_to_list m))), elem_of_list_In, H2)).
  cbn [fst snd] in H. rewrite E in H.
  destruct (bytes_eqb (sbytes (rootx m2)) (sbytes (rootx m2))) eqn:Eb.
  - apply kvs_eqb_eq in H. apply map_to_list_inj. rewrite H. reflexivity.
  - exfalso. assert (T : bytes_eqb (sbytes (rootx m2)) (sbytes (rootx m2)) = true) by (apply bytes_eqb_eq; reflexivity).
    congruence.
Qed.
Definition fits_check (x : executor) : bool :=
  forallb (fun kv => blen (enc_account kv.2) <? two64) (map_to_list (committed x)) &&
  forallb (fun kv => blen (enc_asset kv.2) <? two64) (map_to_list (committed_assets x)).
Lemma fits_check_ok x : fits_check x = true -> state_fits x.
Proof.
  unfold fits_check. intros H. apply andb_true_iff in H as [H1 H2]. rewrite forallb_forall in H1, H2.
  split; intros k v Hk; apply N.ltb_lt.
  - apply (H1 (k, v)). apply elem_of_list_In, elem_of_map_to_list, Hk.
  - apply (H2 (k, v)). apply elem_of_list_In, elem_of_map_to_list, Hk.
Qed.
