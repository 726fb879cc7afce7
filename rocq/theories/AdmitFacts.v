(** * Facts about concurrent submissions (AdmitConc.v). *)
From Verif Require Import Base BaseFacts Hex Types Rlp FixedCodec TxMap TxMapFacts Mempool MempoolConc AdmitConc.
Local Open Scope nat_scope.

(** ** The bound *)
Definition at_start (x : wrapper * ist) : bool := match x.2 with IStart => true | _ => false end.
Definition cleared (x : signed_tx * apos) : bool := match x.2 with ARoom | ANew => true | _ => false end.
Definition starts (c : cst) : nat := length (List.filter at_start (c_ins c)).
Definition coming (a : adm) : nat := length (List.filter cleared (a_calls a)) + starts (a_pool a).

Lemma filter_set {A} (f : A -> bool) (l : list A) (i : nat) (x y : A) : l !! i = Some x ->
  length (List.filter f (<[i := y]> l)) + (if f x then 1 else 0) = length (List.filter f l) + (if f y then 1 else 0).
Proof.
  revert i. induction l as [|z l IH]; intros [|i] E; try discriminate.
  - injection E as ->. change (<[0 := y]> (x :: l)) with (y :: l). cbn. destruct (f x), (f y); cbn; lia.
  - change (<[S i := y]> (z :: l)) with (z :: <[i := y]> l). cbn. specialize (IH i E). destruct (f z); cbn; lia.
Qed.
Lemma filter_snoc {A} (f : A -> bool) (l : list A) (x : A) :
  length (List.filter f (l ++ [x])) = length (List.filter f l) + (if f x then 1 else 0).
Proof. induction l as [|z l IH]; cbn; [destruct (f x); reflexivity|]. destruct (f z); cbn; lia. Qed.
Lemma filter_imp {A} (f g : A -> bool) (l : list A) : (forall x, f x = true -> g x = true) ->
  length (List.filter f l) <= length (List.filter g l).
Proof.
  intros H. induction l as [|z l IH]; cbn; [lia|]. destruct (f z) eqn:E; [rewrite (H z E); cbn; lia|].
  destruct (g z); cbn; lia.
Qed.

Lemma size_delete_le (h : hash) (m : gmap hash wrapper) : size (delete h m) <= size m.
Proof. rewrite map_size_delete. destruct (m !! h); cbn; lia. Qed.

(** *** Counting bucket by bucket *)
Definition unread (i : nat) (m : gmap hash wrapper) : nat := size (filter (fun x : hash * wrapper => i <= get_index x.1) m).
Lemma unread_split i m : bucket_len i m + unread (S i) m = unread i m.
Proof.
  unfold bucket_len, unread. rewrite <- map_size_disj_union.
  - f_equal. apply map_eq. intros h. apply option_eq. intros w.
    rewrite lookup_union_Some by (apply map_disjoint_filter_alt || (apply map_disjoint_spec; intros h' x y; rewrite !map_filter_lookup_Some; cbn; intros (_ & ?) (_ & ?); lia)).
    rewrite !map_filter_lookup_Some. cbn [fst]. split.
    + intros [[? ?]|[? ?]]; (split; [assumption|lia]).
    + intros [H1 H2]. destruct (decide (get_index h = i)); [left|right]; (split; [assumption|lia]).
  - apply map_disjoint_spec; intros h' x y; rewrite !map_filter_lookup_Some; cbn; intros (_ & ?) (_ & ?); lia.
Qed.
Lemma unread_all m : unread 0 m = size m.
Proof. unfold unread. f_equal. apply map_filter_id. intros. lia. Qed.
Lemma unread_none m : unread 16 m = 0.
Proof.
  unfold unread. apply map_size_empty_iff. apply map_empty. intros h. apply map_filter_lookup_None. right. cbn.
  intros w _. pose proof (get_index_lt h). lia.
Qed.
Lemma unread_insert i h w m : m !! h = None -> unread i m <= unread i (<[h := w]> m).
Proof.
  intros E. unfold unread. destruct (decide (i <= get_index h)) as [D|D].
  - rewrite map_filter_insert_True by exact D. rewrite map_size_insert.
    destruct (filter _ m !! h); cbn; lia.
  - rewrite map_filter_insert_not by (intros; exact D). lia.
Qed.
Lemma unread_delete i h m : unread i m <= S (unread i (delete h m)).
Proof.
  unfold unread. rewrite map_filter_delete, map_size_delete. destruct (filter _ m !! h); cbn; lia.
Qed.

(** What a call counting now will have counted, were the pool left alone *)
Definition low (m : gmap hash wrapper) (b : nat) (x : signed_tx * apos) : bool :=
  match x.2 with ACount i c => c + unread i m <? b | _ => false end.
Definition promised (b : nat) (a : adm) : nat := length (List.filter (low (c_map (a_pool a)) b) (a_calls a)).

(** *** What a step does to the pool *)
Definition moves (c c' : cst) : Prop :=
  (exists h w, c_map c !! h = None /\ c_map c' = <[h := w]> (c_map c) /\ S (starts c') <= starts c) \/
  (exists h, c_map c' = delete h (c_map c) /\ starts c' <= starts c) \/
  (c_map c' = c_map c /\ starts c' <= starts c).

Lemma ins_moves (c : cst) i : moves c (ins_step c i).
Proof.
  unfold ins_step. destruct (c_ins c !! i) as [[w st]|] eqn:E; [|right; right; split; [reflexivity|lia]].
  assert (forall st', length (List.filter at_start (<[i := (w, st')]> (c_ins c))) + (if at_start (w, st) then 1 else 0) =
    starts c + (if at_start (w, st') then 1 else 0)) as F by (intros st'; apply filter_set, E).
  destruct st as [| | |z|ok|[]|r]; cbn [at_start snd] in F.
  - destruct (c_map c !! w_hash w) eqn:Em.
    + right; right. specialize (F (IDone (Err (MDup (w_hash w))))). split; [reflexivity|]. unfold starts in *. cbn in *. lia.
    + left. exists (w_hash w), w. specialize (F IMapped). split; [exact Em|split; [reflexivity|]]. unfold starts in *. cbn in *. lia.
  - right; right. specialize (F ICounted). split; [reflexivity|]. unfold starts in *. cbn in *. lia.
  - right; right. specialize (F (IRole (c_zero c))). split; [reflexivity|]. unfold starts in *. cbn in *. lia.
  - right; right. destruct (c_full c z); [specialize (F (IPushed false))|specialize (F (IPushed true))];
      (split; [destruct z; reflexivity|]); unfold starts in *; destruct z; cbn in *; lia.
  - right; right. specialize (F (IUncounted ok)). split; [reflexivity|]. unfold starts in *. cbn in *. lia.
  - right; right. specialize (F (IDone (Ok tt))). split; [reflexivity|]. unfold starts in *. cbn in *. lia.
  - right; left. exists (w_hash w). specialize (F (IDone (Err (MInsert (w_hash w))))). split; [reflexivity|].
    unfold starts in *. cbn in *. lia.
  - right; right. split; [reflexivity|lia].
Qed.
Ltac same := right; right; split; [reflexivity|unfold starts; cbn; lia].
Lemma pool_moves (c : cst) l : (forall t b, l <> LSpawn t b) -> moves c (c_step c l).
Proof.
  destruct l as [t b|i|a b d|k|hs|i k]; intros Hl; cbn [c_step].
  - destruct (Hl t b eq_refl).
  - apply ins_moves.
  - destruct (c_pkg c); same.
  - unfold pkg_step. destruct (c_pkg c) as [|a z s|a z s w|a z s w|z s|s|s|s w|s rest]; try same.
    + destruct (c_queue c z); try destruct z; same.
    + destruct (decide _); [same|]. destruct (is_timeout _ _ _); same.
    + destruct (c_full _ _); try destruct z; same.
    + destruct (decide _); same.
    + destruct (c_queue c _); try destruct (c_zero c); same.
    + destruct (c_full _ _); try destruct (c_zero c); same.
    + destruct rest as [|h r]; [same|]. destruct ((h :: r) !! k) as [h0|]; [|same].
      right; left. exists h0. split; [reflexivity|]. unfold starts. cbn. lia.
  - same.
  - unfold fl_step. destruct (c_fl c !! i) as [f|]; [|same]. destruct f as [[|h todo] hs|w todo hs|rest].
    + same.
    + destruct (c_map c !! h); same.
    + same.
    + destruct (rest !! k) as [h|]; [|same].
      right; left. exists h. split; [reflexivity|]. unfold starts. cbn. lia.
Qed.

Lemma filter_two {A} (f g p : A -> bool) (l : list A) : (forall x, f x = true -> p x = true) -> (forall x, g x = true -> p x = true) ->
  (forall x, f x = true -> g x = false) -> length (List.filter f l) + length (List.filter g l) <= length (List.filter p l).
Proof.
  intros Hf Hg Hd. induction l as [|z l IH]; cbn; [lia|].
  destruct (f z) eqn:Ef; [rewrite (Hf z Ef), (Hd z Ef); cbn; lia|].
  destruct (g z) eqn:Eg; [rewrite (Hg z Eg); cbn; lia|]. destruct (p z); cbn; lia.
Qed.
Lemma coming_outstanding (b : nat) (a : adm) : coming a + promised b a <= outstanding a.
Proof.
  unfold coming, outstanding, starts, promised.
  assert (length (List.filter cleared (a_calls a)) + length (List.filter (low (c_map (a_pool a)) b) (a_calls a))
    <= length (List.filter before_pool (a_calls a))).
  { apply filter_two; intros [t []]; cbn; congruence. }
  assert (length (List.filter at_start (c_ins (a_pool a))) <= length (List.filter in_pool (c_ins (a_pool a)))).
  { apply filter_imp. intros [t []]; cbn; congruence. }
  lia.
Qed.

(** The invariant: even if [d] transactions were removed, letting those calls
    through that would then count less than [n] *)
Definition bounded (n k : nat) (a : adm) : Prop :=
  forall d, pooled a + coming a + promised (n + d) a <= n + d + pred k.

Lemma step_bound (n k : nat) (a : adm) (l : alabel) : not_spawn l = true ->
  outstanding a <= k -> outstanding (a_step n a l) <= k -> bounded n k a -> bounded n k (a_step n a l).
Proof.
  intros Hl Hk0 Hk IH d.
  destruct (Nat.lt_ge_cases (pooled (a_step n a l)) (n + d)) as [T|T].
  { pose proof (coming_outstanding (n + d) (a_step n a l)). lia. }
  assert (forall j t p q, a_calls a !! j = Some (t, p) ->
    length (List.filter cleared (<[j := (t, q)]> (a_calls a))) + (if cleared (t, p) then 1 else 0) =
    length (List.filter cleared (a_calls a)) + (if cleared (t, q) then 1 else 0)) as F by (intros; apply filter_set; assumption).
  assert (forall j t p q, a_calls a !! j = Some (t, p) ->
    length (List.filter (low (c_map (a_pool a)) (n + d)) (<[j := (t, q)]> (a_calls a))) + (if low (c_map (a_pool a)) (n + d) (t, p) then 1 else 0) =
    length (List.filter (low (c_map (a_pool a)) (n + d)) (a_calls a)) + (if low (c_map (a_pool a)) (n + d) (t, q) then 1 else 0)) as G
    by (intros; apply filter_set; assumption).
  assert (pooled a + coming a + promised (n + d) a <= n + d + pred k) as I by apply IH.
  destruct l as [t|j|j|j r|l]; cbn [a_step] in *.
  - unfold pooled, coming, promised in *. cbn [a_pool a_calls] in *. rewrite !filter_snoc. cbn [cleared low snd].
    rewrite unread_all. assert ((0 + size (c_map (a_pool a)) <? n + d) = false) as -> by (apply Nat.ltb_ge; lia). lia.
  - destruct (a_calls a !! j) as [[t [i c| | |e|i]]|] eqn:E; try exact I.
    destruct (Nat.ltb_spec i 16) as [D|D]; [|destruct (Nat.leb_spec n c) as [D'|D']].
    + specialize (F j t _ (ACount (S i) (c + bucket_len i (c_map (a_pool a)))) E).
      specialize (G j t _ (ACount (S i) (c + bucket_len i (c_map (a_pool a)))) E).
      unfold pooled, coming, promised in *. cbn [a_pool a_calls cleared low snd] in *.
      rewrite <- Nat.add_assoc, unread_split in G. lia.
    + specialize (F j t _ (ARefused (MReachLimit n)) E). specialize (G j t _ (ARefused (MReachLimit n)) E).
      unfold pooled, coming, promised in *. cbn [a_pool a_calls cleared low snd] in *. lia.
    + specialize (F j t _ ARoom E). specialize (G j t _ ARoom E).
      unfold pooled, coming, promised in *. cbn [a_pool a_calls cleared low snd] in *.
      assert (unread i (c_map (a_pool a)) = 0) as Hu.
      { pose proof (unread_none (c_map (a_pool a))) as U. unfold unread in *.
        apply map_size_empty_iff. apply map_empty. intros h. apply map_filter_lookup_None. right. cbn.
        intros w _. pose proof (get_index_lt h). lia. }
      rewrite Hu in G. assert ((c + 0 <? n + d) = true) as R by (apply Nat.ltb_lt; lia). rewrite R in G. lia.
  - destruct (a_calls a !! j) as [[t [i c| | |e|i]]|] eqn:E; try exact I.
    destruct (c_map (a_pool a) !! st_tx_hash t);
      [specialize (F j t ARoom (ARefused (MDup (st_tx_hash t))) E); specialize (G j t ARoom (ARefused (MDup (st_tx_hash t))) E)
      |specialize (F j t ARoom ANew E); specialize (G j t ARoom ANew E)];
      unfold pooled, coming, promised in *; cbn in *; lia.
  - destruct (a_calls a !! j) as [[t [i c| | |e|i]]|] eqn:E; try exact I. destruct r as [e|].
    + specialize (F j t ANew (ARefused e) E). specialize (G j t ANew (ARefused e) E). unfold pooled, coming, promised in *. cbn in *. lia.
    + specialize (F j t ANew (AIn (length (c_ins (a_pool a)))) E). specialize (G j t ANew (AIn (length (c_ins (a_pool a)))) E).
      unfold pooled, coming, promised, starts in *.
      cbn [a_pool a_calls c_step c_map c_ins c_set_ins] in *. rewrite filter_snoc. cbn [cleared at_start low snd] in *. lia.
  - assert (forall t b, l <> LSpawn t b) as Hs by (intros t b ->; discriminate).
    pose proof (coming_outstanding (n + d) a) as O.
    destruct (pool_moves (a_pool a) l Hs) as [(h & w & Hf & Hm & Hst)|[(h & Hm & Hst)|[Hm Hst]]];
      unfold pooled, coming, promised in *; cbn [a_pool a_calls] in *; rewrite Hm in *.
    + rewrite map_size_insert, Hf in *. cbn in *.
      assert (length (List.filter (low (<[h:=w]> (c_map (a_pool a))) (n + d)) (a_calls a))
        <= length (List.filter (low (c_map (a_pool a)) (n + d)) (a_calls a))).
      { apply filter_imp. intros [t [i c| | |e|i]]; cbn [low snd]; try discriminate. rewrite !Nat.ltb_lt.
        pose proof (unread_insert i h w _ Hf). lia. }
      lia.
    + specialize (IH (S d)). cbn [a_pool a_calls] in IH.
      destruct (c_map (a_pool a) !! h) as [w|] eqn:Eh.
      * assert (length (List.filter (low (delete h (c_map (a_pool a))) (n + d)) (a_calls a))
          <= length (List.filter (low (c_map (a_pool a)) (n + S d)) (a_calls a))).
        { apply filter_imp. intros [t [i c| | |e|i]]; cbn [low snd]; try discriminate. rewrite !Nat.ltb_lt.
          pose proof (unread_delete i h (c_map (a_pool a))). lia. }
        assert (size (c_map (a_pool a)) <> 0) as Hz by (intros Z; apply map_size_empty_inv in Z; rewrite Z in Eh; discriminate).
        rewrite map_size_delete, Eh in *. cbv iota in *. unfold pooled, coming, promised in IH. lia.
      * rewrite delete_notin by exact Eh. lia.
    + lia.
Qed.

Theorem run_bound (n k : nat) (s : list alabel) :
  Forall (fun l => not_spawn l = true) s -> (forall s1 s2, s = s1 ++ s2 -> outstanding (a_run n s1) <= k) ->
  pooled (a_run n s) <= n + pred k.
Proof.
  intros Hs Hk. assert (bounded n k (a_run n s)) as G; [|specialize (G 0); lia].
  induction s as [|l s IH] using rev_ind.
  - intros d. unfold pooled, coming, promised, a_run, a_new, c_new, starts. cbn. rewrite map_size_empty. lia.
  - apply Forall_app in Hs as [Hs Hl]. apply Forall_cons in Hl as [Hl _].
    unfold a_run in *. rewrite fold_left_app. cbn [fold_left]. apply step_bound; [exact Hl| | |].
    + exact (Hk s [l] eq_refl).
    + specialize (Hk (s ++ [l]) [] (eq_sym (app_nil_r _))). rewrite fold_left_app in Hk. exact Hk.
    + apply IH; [exact Hs|]. intros s1 s2 ->. apply (Hk s1 (s2 ++ [l])). rewrite app_assoc. reflexivity.
Qed.

(** ** All at once: every call passes the test before the first transaction is pooled *)
Lemma at_end {A} (l k : list A) (x : A) : (l ++ x :: k) !! length l = Some x.
Proof. apply list_lookup_middle. reflexivity. Qed.
Lemma set_end {A} (l k : list A) (x y : A) : <[length l := y]> (l ++ x :: k) = l ++ y :: k.
Proof. rewrite insert_app_r_alt by lia. rewrite Nat.sub_diag. reflexivity. Qed.

Lemma at_end' {A} (l k : list A) (x : A) i : i = length l -> (l ++ x :: k) !! i = Some x.
Proof. intros ->. apply at_end. Qed.
Lemma set_end' {A} (l k : list A) (x y : A) i : i = length l -> <[i := y]> (l ++ x :: k) = l ++ y :: k.
Proof. intros ->. apply set_end. Qed.

(** The pool after the calls for [ts] *)
Definition wrap_all (ts : list signed_tx) : list wrapper := imap (fun i t => MkW i t false) ts.
Definition map_all (ts : list signed_tx) : gmap hash wrapper :=
  list_to_map (map (fun w => (w_hash w, w)) (wrap_all ts)).
Definition full_pool (cap : nat) (ts : list signed_tx) : cst :=
  MkC cap (wrap_all ts) [] (map_all ts) true 0 ∅ (map (fun w => (w, IDone (Ok tt))) (wrap_all ts)) PIdle [] [] [] [].

Lemma wrap_snoc ts t : wrap_all (ts ++ [t]) = wrap_all ts ++ [MkW (length ts) t false].
Proof. unfold wrap_all. rewrite imap_app. cbn. rewrite Nat.add_0_r. reflexivity. Qed.
Lemma wrap_len ts : length (wrap_all ts) = length ts.
Proof. unfold wrap_all. apply imap_length. Qed.
Lemma wrap_hashes ts : map w_hash (wrap_all ts) = map st_tx_hash ts.
Proof. induction ts as [|t ts IH] using rev_ind; [reflexivity|]. rewrite wrap_snoc, !map_app, IH. reflexivity. Qed.
Lemma map_fresh ts h : h ∉ map st_tx_hash ts -> map_all ts !! h = None.
Proof.
  intros H. apply not_elem_of_list_to_map_1. intros X. apply H. rewrite <- wrap_hashes.
  apply elem_of_list_fmap in X as ([h' w] & -> & X). apply elem_of_list_fmap in X as (w' & [= -> ->] & X).
  apply elem_of_list_fmap. eauto.
Qed.
Lemma map_snoc ts t : st_tx_hash t ∉ map st_tx_hash ts ->
  map_all (ts ++ [t]) = <[st_tx_hash t := MkW (length ts) t false]> (map_all ts).
Proof.
  intros H. unfold map_all. rewrite wrap_snoc, map_app, list_to_map_app. cbn [map list_to_map foldr].
  change (w_hash (MkW (length ts) t false)) with (st_tx_hash t). rewrite insert_empty.
  symmetry. rewrite insert_union_singleton_l. apply map_union_comm. apply map_disjoint_singleton_l. apply (map_fresh ts _ H).
Qed.

Ltac stp0 H x := match goal with |- context [ins_step (c_set_ins ?c ?l) ?i] => rewrite (H (c_set_ins c l) x eq_refl) end.
Lemma pool_one cap ts t : length ts < cap -> st_tx_hash t ∉ map st_tx_hash ts ->
  fold_left c_step (repeat (LIns (length ts)) 6) (c_step (full_pool cap ts) (LSpawn t false)) = full_pool cap (ts ++ [t]).
Proof.
  intros Hc Hn. set (w := MkW (length ts) t false). set (done := map (fun w => (w, IDone (Ok tt))) (wrap_all ts)).
  assert (length ts = length done) as Ed by (unfold done; rewrite map_length, wrap_len; reflexivity).
  cbn [c_step]. change (c_ins (full_pool cap ts)) with done. rewrite <- Ed. fold w. rewrite Ed. cbn [repeat fold_left c_step].
  assert (forall c st, c_ins c = done ++ [(w, st)] -> ins_step c (length done) =
    match st with
    | IStart => match c_map c !! w_hash w with
                | Some _ => c_set_ins c (done ++ [(w, IDone (Err (MDup (w_hash w))))])
                | None => c_set_ins (c_set_map c (<[w_hash w := w]> (c_map c))) (done ++ [(w, IMapped)]) end
    | IMapped => c_set_ins (c_set_count c (S (c_count c))) (done ++ [(w, ICounted)])
    | ICounted => c_set_ins c (done ++ [(w, IRole (c_zero c))])
    | IRole z => if c_full c z then c_set_ins c (done ++ [(w, IPushed false)])
                 else c_set_ins (c_set_queue c z (c_queue c z ++ [w])) (done ++ [(w, IPushed true)])
    | IPushed ok => c_set_ins (c_set_count c (pred (c_count c))) (done ++ [(w, IUncounted ok)])
    | IUncounted true => c_set_ins c (done ++ [(w, IDone (Ok tt))])
    | IUncounted false => c_set_ins (c_set_map c (delete (w_hash w) (c_map c))) (done ++ [(w, IDone (Err (MInsert (w_hash w))))])
    | IDone _ => c
    end) as Hstep.
  { intros c st E. unfold ins_step. rewrite E, at_end. cbv beta zeta.
    destruct st as [| | |z|ok|[]|r]; cbn [c_ins c_set_map c_set_count c_set_queue]; rewrite ?E, ?set_end; reflexivity. }
  stp0 Hstep IStart. cbn [c_map c_set_ins full_pool].
  rewrite (map_fresh ts (w_hash w) Hn).
  stp0 Hstep IMapped. stp0 Hstep ICounted.
  stp0 Hstep (IRole true).
  match goal with |- context [c_full ?c true] => assert (c_full c true = false) as -> end.
  { unfold c_full. cbn. apply Nat.leb_gt. rewrite wrap_len. exact Hc. }
  stp0 Hstep (IPushed true). stp0 Hstep (IUncounted true).
  unfold full_pool. rewrite wrap_snoc, (map_snoc ts t Hn), map_app. reflexivity.
Qed.

(** The schedule *)
Definition burst (ts : list signed_tx) : list alabel :=
  map ACall ts ++ concat (map (fun j => repeat (ALimit j) 17) (seq 0 (length ts))) ++
  concat (map (fun j => [AExist j; AVerify j None] ++ map APool (repeat (LIns j) 6)) (seq 0 (length ts))).

Lemma burst_calls n (a : adm) ts : fold_left (a_step n) (map ACall ts) a =
  MkAdm (a_pool a) (a_calls a ++ map (fun t => (t, ACount 0 0)) ts).
Proof.
  revert a. induction ts as [|t ts IH]; intros a; cbn [map fold_left a_step].
  - rewrite app_nil_r. destruct a; reflexivity.
  - rewrite IH. cbn [a_pool a_calls]. rewrite <- app_assoc. reflexivity.
Qed.
(** One call counts through a pool that is left alone. *)
Lemma count_steps n (c : cst) (l r : list (signed_tx * apos)) t : forall q i k, i + q = 16 ->
  fold_left (a_step n) (repeat (ALimit (length l)) q) (MkAdm c (l ++ (t, ACount i k) :: r))
  = MkAdm c (l ++ (t, ACount 16 (k + unread i (c_map c))) :: r).
Proof.
  induction q as [|q IH]; intros i k E; cbn [repeat fold_left].
  - rewrite Nat.add_0_r in E. subst i. rewrite unread_none, Nat.add_0_r. reflexivity.
  - cbn [a_step a_calls a_pool]. rewrite at_end, set_end.
    assert ((i <? 16) = true) as -> by (apply Nat.ltb_lt; lia). rewrite IH by lia.
    rewrite <- Nat.add_assoc, unread_split. reflexivity.
Qed.
Lemma count_call n (c : cst) (l r : list (signed_tx * apos)) t : size (c_map c) < n ->
  fold_left (a_step n) (repeat (ALimit (length l)) 17) (MkAdm c (l ++ (t, ACount 0 0) :: r)) = MkAdm c (l ++ (t, ARoom) :: r).
Proof.
  intros Hn. change 17 with (16 + 1). rewrite repeat_app, fold_left_app, count_steps by reflexivity.
  rewrite unread_all. cbn [repeat fold_left a_step a_calls a_pool]. rewrite at_end, set_end.
  change (16 <? 16) with false. cbv iota. assert ((n <=? 0 + size (c_map c)) = false) as -> by (apply Nat.leb_gt; lia). reflexivity.
Qed.
Lemma burst_limits n (c : cst) ts done : size (c_map c) < n ->
  fold_left (a_step n) (concat (map (fun j => repeat (ALimit j) 17) (seq (length done) (length ts))))
    (MkAdm c (map (fun t => (t, ARoom)) done ++ map (fun t => (t, ACount 0 0)) ts))
  = MkAdm c (map (fun t => (t, ARoom)) (done ++ ts)).
Proof.
  intros Hn. revert done. induction ts as [|t ts IH]; intros done; cbn [length seq map concat].
  - cbn [fold_left]. rewrite !app_nil_r. reflexivity.
  - rewrite fold_left_app.
    assert (length done = length (map (fun t => (t, ARoom)) done)) as E by (rewrite map_length; reflexivity).
    rewrite E at 2. rewrite count_call by exact Hn.
    specialize (IH (done ++ [t])). rewrite app_length in IH. cbn [length] in IH. rewrite Nat.add_1_r in IH.
    rewrite map_app, <- app_assoc in IH. cbn [map app] in IH. rewrite IH, <- app_assoc. reflexivity.
Qed.
Definition placed (ts : list signed_tx) : list (signed_tx * apos) := imap (fun i t => (t, AIn i)) ts.
Lemma placed_snoc ts t : placed (ts ++ [t]) = placed ts ++ [(t, AIn (length ts))].
Proof. unfold placed. rewrite imap_app. cbn. rewrite Nat.add_0_r. reflexivity. Qed.
Lemma placed_len ts : length (placed ts) = length ts.
Proof. apply imap_length. Qed.
Lemma burst_pool n (c : cst) calls ls : fold_left (a_step n) (map APool ls) (MkAdm c calls) = MkAdm (fold_left c_step ls c) calls.
Proof. revert c. induction ls as [|l ls IH]; intros c; [reflexivity|]. cbn [map fold_left a_step a_pool a_calls]. apply IH. Qed.

Lemma burst_inserts n cap ts : forall done, length done + length ts <= cap -> NoDup (map st_tx_hash (done ++ ts)) ->
  fold_left (a_step n) (concat (map (fun j => [AExist j; AVerify j None] ++ map APool (repeat (LIns j) 6)) (seq (length done) (length ts))))
    (MkAdm (full_pool cap done) (placed done ++ map (fun t => (t, ARoom)) ts))
  = MkAdm (full_pool cap (done ++ ts)) (placed (done ++ ts)).
Proof.
  induction ts as [|t ts IH]; intros done Hc Hn; cbn [length seq map concat].
  - cbn [fold_left]. rewrite !app_nil_r. reflexivity.
  - rewrite fold_left_app. rewrite fold_left_app.
    assert (st_tx_hash t ∉ map st_tx_hash done) as Hf.
    { rewrite map_app in Hn. cbn [map] in Hn. apply NoDup_app in Hn as (_ & Hn & _). intros X. apply (Hn _ X). left. }
    assert (fold_left (a_step n) [AExist (length done); AVerify (length done) None]
      (MkAdm (full_pool cap done) (placed done ++ (t, ARoom) :: map (fun t => (t, ARoom)) ts)) =
      MkAdm (c_step (full_pool cap done) (LSpawn t false)) (placed done ++ (t, AIn (length done)) :: map (fun t => (t, ARoom)) ts)) as ->.
    { assert (length done = length (placed done)) as E by (rewrite placed_len; reflexivity).
      cbn [fold_left]. unfold a_step at 2. cbn [a_calls a_pool]. rewrite (at_end' _ _ _ _ E), (set_end' _ _ _ _ _ E).
      change (c_map (full_pool cap done)) with (map_all done). rewrite (map_fresh done _ Hf).
      unfold a_step. cbn [a_calls a_pool]. rewrite (at_end' _ _ _ _ E), (set_end' _ _ _ _ _ E).
      do 2 f_equal. f_equal. f_equal. f_equal. unfold full_pool. cbn [c_ins]. rewrite map_length, wrap_len. reflexivity. }
    rewrite burst_pool, pool_one by (try exact Hf; cbn [length] in Hc; lia).
    specialize (IH (done ++ [t])). rewrite app_length in IH. cbn [length] in IH, Hc. rewrite Nat.add_1_r in IH.
    rewrite placed_snoc, <- !app_assoc in IH. cbn [app] in IH. apply IH; [lia|exact Hn].
Qed.

Theorem burst_runs n ts : 0 < n -> length ts <= 4 * n -> NoDup (map st_tx_hash ts) ->
  a_run n (burst ts) = MkAdm (full_pool (4 * n) ts) (placed ts).
Proof.
  intros Hn Hc Hd. unfold a_run, burst. rewrite !fold_left_app, burst_calls. cbn [a_new a_pool a_calls app].
  pose proof (burst_limits n (c_new (4 * n)) ts []) as L. cbn [length map app] in L. rewrite L by (cbn; rewrite map_size_empty; exact Hn).
  pose proof (burst_inserts n (4 * n) ts []) as B. cbn [length app] in B. exact (B ltac:(lia) Hd).
Qed.
Lemma map_all_size ts : NoDup (map st_tx_hash ts) -> size (map_all ts) = length ts.
Proof.
  induction ts as [|t ts IH] using rev_ind; intros H; [apply map_size_empty|].
  rewrite map_app in H. apply NoDup_app in H as (H1 & H2 & _).
  assert (st_tx_hash t ∉ map st_tx_hash ts) as Hf by (intros X; apply (H2 _ X); left).
  rewrite (map_snoc ts t Hf), map_size_insert, (map_fresh ts _ Hf), (IH H1), app_length. cbn. lia.
Qed.
Lemma placed_fst ts : map fst (placed ts) = ts.
Proof. induction ts as [|t ts IH] using rev_ind; [reflexivity|]. rewrite placed_snoc, map_app, IH. reflexivity. Qed.
