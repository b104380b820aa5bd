(** C40: what a completed authentication says about the messages the responder saw. *)
From Verif Require Import SpecAuth Base BaseLemmas Config ConfigBuild Encoding MsgCommon MsgVersion MsgCapabilities MsgAlgorithms MsgDigest
     MsgCertificates MsgChallenge MsgError Transcript Crypto Responder Requester SpecWire SpecMsgs SpecResponder SpecRequester SpecAgree
     FlagLemmas PropTools PropTranscript PropVersionCaps PropAlg PropCerts PropChal PropGeneric PropTables PropDer RspParts RspStep RspPanic
     GramBasic PropResponder PropRspState ReqStep ReqMsg PropRequester PropReqState PropReqLimits ReqPanic PropReqPanic PropAgree Sample SampleRun SampleReq.

#[local] Opaque chain_bytes.
#[local] Arguments Nat.leb : simpl never.

(** * Cancelling messages at the front of a log *)
Lemma cancel {A} (a b x y : list A) : length a = length b -> a ++ x = b ++ y -> a = b /\ x = y.
Proof.
  revert b. induction a as [|u a IH]; intros [|w b] L E; simpl in *; try lia; auto.
  injection E as -> E. destruct (IH b ltac:(lia) E) as [-> ->]. auto.
Qed.
Lemma u16le_inj a b : (a < 65536)%N -> (b < 65536)%N -> u16le a = u16le b -> a = b.
Proof. intros A B E. exact (le_bytes_inj 2 a b A B E). Qed.
Lemma u32le_inj a b : (a < 4294967296)%N -> (b < 4294967296)%N -> u32le a = u32le b -> a = b.
Proof. intros A B E. exact (le_bytes_inj 4 a b A B E). Qed.
Lemma struct_bound a : alg_struct_ok a -> (alg_struct_fixed a < 65536)%N.
Proof. intros H. apply (only_bits_bound (alg_struct_bits a) _ 16); [|exact H]. destruct a; apply bound_check; reflexivity. Qed.
Lemma div4 n : 4 * n / 4 = n. Proof. rewrite Nat.mul_comm. apply Nat.div_mul. lia. Qed.
Lemma cancel_struct p q r r' : alg_entry_ok p -> alg_entry_ok q ->
  alg_struct_bytes (fst p) (snd p) ++ r = alg_struct_bytes (fst q) (snd q) ++ r' -> p = q /\ r = r'.
Proof.
  destruct p as [a e], q as [b e']. intros [A (n & N1 & N2)] [B (k & K1 & K2)]. cbn [fst snd] in *. unfold alg_struct_bytes.
  rewrite <- !app_assoc. intros E. apply cancel in E as [E1 E]; [|reflexivity]. apply cancel in E as [E2 E]; [|reflexivity].
  apply cancel in E as [E3 E]; [|reflexivity]. injection E1 as E1. assert (E2' := f_equal (hd 0%N) E2). cbn [hd] in E2'. clear E2. rename E2' into E2.
  apply u16le_inj in E3; [|now apply struct_bound|now apply struct_bound].
  rewrite N2, K2, !div4 in E2. assert (L : length e = length e') by lia.
  apply cancel in E as [-> ->]; [|exact L]. split; [|auto]. f_equal. destruct a, b; cbn in E1, E3; try discriminate; congruence.
Qed.
Lemma cancel_table t : forall t' r r', length t = length t' -> Forall alg_entry_ok t -> Forall alg_entry_ok t' ->
  alg_table t ++ r = alg_table t' ++ r' -> t = t' /\ r = r'.
Proof.
  unfold alg_table. induction t as [|p t IH]; intros [|q t'] r r' L F F' E; try discriminate; [auto|].
  inversion F; subst. inversion F'; subst. cbn [map concat] in E. rewrite <- !app_assoc in E.
  apply cancel_struct in E as [-> E]; auto. apply IH in E as [-> ->]; auto.
Qed.
Lemma no_ext_inj a b : no_ext a = no_ext b -> a = b.
Proof. intros H. apply (f_equal (map fst)) in H. unfold no_ext in H. now rewrite !map_map, !map_id in H. Qed.
Lemma map_fst_no_ext a : map fst (no_ext a) = a.
Proof. unfold no_ext. now rewrite map_map, map_id. Qed.
(** NEGOTIATE_ALGORITHMS, one side without external algorithms. *)
Lemma cancel_negotiate body na es len' s' a' h' r r' :
  negotiate_fmt body na -> length es < 256 -> (a' < 4294967296)%N -> (h' < 4294967296)%N -> (len' < 65536)%N -> Forall alg_struct_ok es ->
  body ++ r = negotiate_layout (N.of_nat (length es)) len' s' a' h' [] [] (no_ext es) ++ r' ->
  body = negotiate_layout (N.of_nat (length es)) len' s' a' h' [] [] (no_ext es) /\ r = r'.
Proof.
  intros (len & ea & eh & t & L & (n & N1 & N2) & (k & K1 & K2) & F & B1 & B2 & B3 & E1 & E2 & ->) LE LA LH LL FE E.
  unfold negotiate_layout in *. rewrite <- !app_assoc in E.
  apply cancel in E as [E0 E]; [|reflexivity]. apply cancel in E as [_ E]; [|reflexivity]. apply cancel in E as [E3 E]; [|reflexivity].
  apply cancel in E as [E4 E]; [|reflexivity]. apply cancel in E as [_ E]; [|reflexivity]. apply cancel in E as [E5 E]; [|reflexivity].
  apply cancel in E as [E6 E]; [|reflexivity]. apply cancel in E as [_ E]; [|reflexivity].
  apply cancel in E as [E9 E]; [|reflexivity]. apply cancel in E as [E10 E]; [|reflexivity].
  injection E0 as E0. apply (f_equal (hd 0%N)) in E9. apply (f_equal (hd 0%N)) in E10. cbn [hd] in E9, E10.
  rewrite N2, div4 in E9. rewrite K2, div4 in E10. cbn in E9, E10.
  assert (n = 0) by lia. assert (k = 0) by lia. subst n k. destruct ea; [|discriminate]. destruct eh; [|discriminate].
  cbn [app] in *. apply cancel in E as [_ E]; [|reflexivity].
  apply cancel_table in E as [-> ->]; auto; [|unfold no_ext; rewrite map_length; lia|].
  2: { apply Forall_forall. unfold no_ext. intros p I. apply in_map_iff in I as (a & <- & I). split; [|exists 0; split; [lia|reflexivity]].
       cbn [fst]. rewrite Forall_forall in FE. auto. }
  split; [|auto]. injection E4 as E4. rewrite E0, E3, E4, E5, E6. reflexivity.
Qed.
(** ALGORITHMS, one side without external algorithms. *)
Lemma cancel_algorithms body al fs len' s' m' a' h' r r' :
  algorithms_fmt body al -> length fs < 256 -> (m' < 4294967296)%N -> (a' < 4294967296)%N -> (h' < 4294967296)%N -> Forall alg_struct_ok fs ->
  body ++ r = algorithms_layout (N.of_nat (length fs)) len' s' m' a' h' (no_ext fs) ++ r' ->
  body = algorithms_layout (N.of_nat (length fs)) len' s' m' a' h' (no_ext fs) /\ r = r' /\
  al_num_responses al = N.of_nat (length fs) /\ alg_array (al_responses al) fs /\
  al_measurement_spec al = s' /\ al_measurement_hash al = m' /\ al_base_asym al = a' /\ al_base_hash al = h'.
Proof.
  intros (len & t & L & F & F1 & B0 & B1 & B2 & B3 & E1 & E2 & ->) LE LM LA LH FE E.
  assert (HB : forall l v, (forall i, In i l -> (i < 32)%N) -> one_bit_of l v -> (v < 4294967296)%N).
  { intros l v HL (i & I & ->). change 4294967296%N with (2 ^ 32)%N. apply N.pow_lt_mono_r; [lia|auto]. }
  assert (HH : forall i, In i hash_bits -> (i < 32)%N) by (apply bound_check; reflexivity).
  assert (HA : forall i, In i asym_bits -> (i < 32)%N) by (apply bound_check; reflexivity).
  pose proof (HB _ _ HH B1). pose proof (HB _ _ HA B2). pose proof (HB _ _ HH B3).
  unfold algorithms_layout in *. rewrite <- !app_assoc in E.
  apply cancel in E as [E0 E]; [|reflexivity]. apply cancel in E as [_ E]; [|reflexivity]. apply cancel in E as [E3 E]; [|reflexivity].
  apply cancel in E as [E4 E]; [|reflexivity]. apply cancel in E as [_ E]; [|reflexivity]. apply cancel in E as [E5 E]; [|reflexivity].
  apply cancel in E as [E6 E]; [|reflexivity]. apply cancel in E as [E7 E]; [|reflexivity].
  do 4 (apply cancel in E as [_ E]; [|reflexivity]).
  injection E0 as E0. injection E4 as E4. apply u32le_inj in E5; auto. apply u32le_inj in E6; auto. apply u32le_inj in E7; auto.
  apply cancel_table in E as [ET ->]; auto; [|unfold no_ext; rewrite map_length; lia|].
  2: { apply Forall_forall. unfold no_ext. intros p I. apply in_map_iff in I as (a & <- & I). split; [|exists 0; split; [lia|reflexivity]].
       cbn [fst]. rewrite Forall_forall in FE. auto. }
  assert (E2' : alg_array (al_responses al) fs). { rewrite ET, map_fst_no_ext in E2. exact E2. }
  split; [rewrite E0, E3, E4, E5, E6, E7, ET; reflexivity|]. split; [auto|]. split; [congruence|]. split; [auto|]. auto.
Qed.

(** * What a responder has seen since the last GET_VERSION *)
Definition flat (ex : list (list N * list N)) : list N := concat (map (fun x => fst x ++ snd x) ex).
Lemma flat_app a b : flat (a ++ b) = flat a ++ flat b.
Proof. unfold flat. now rewrite map_app, concat_app. Qed.
Lemma flat_snoc ex a b : flat (ex ++ [(a, b)]) = flat ex ++ a ++ b.
Proof. rewrite flat_app. f_equal. unfold flat. cbn [map concat fst snd]. apply app_nil_r. Qed.
Section Rsp.
Context {cfg : Config} {cr : Crypto}.
Variables (slots : list (option FilledSlot)).
Inductive since : list (list N * list N) -> RspStates -> list N -> Prop :=
| since_version req : starts_with get_version_bytes req ->
    since [(req, version_reply)] (RspCapabilities (mkRspCap None None None None)) (req ++ version_reply)
| since_step ex st log rnd req out st' log' : since ex st log -> rnd_ok rnd -> served slots rnd req st log out st' log' -> code req <> 0x84%N ->
    since (ex ++ [(req, out)]) st' log'.
Lemma session_since ex R : setting slots -> session slots ex R ->
  (ex = [] /\ rsp_state R = Some RspVersion) \/
  exists earlier recent st, ex = earlier ++ recent /\ rsp_state R = Some st /\ since recent st (t_get (rsp_transcript R)).
Proof.
  intros HS H. induction H as [|R HR|ex R rnd req rsp out rsp' R' H IH HB RK HH]; [left; auto|left; auto|right].
  destruct (step_sound slots R rnd req rsp out rsp' R' HS (session_reached _ _ _ H) HB RK HH)
    as (st & st' & log' & E1 & E2 & E3 & SV & _). rewrite E3.
  destruct (N.eq_dec (code req) 0x84) as [EC|NC].
  - exists ex, [(req, out)], st'. split; [auto|]. split; [auto|].
    destruct SV as [st log NE SW | s log ct flags own out (r & ->) | s log body na al es fs out (r & ->)
    | s log mask out (r & ->) | s log slot off len out (r & ->) | s log slot t nonce mask filled ss sg out (r & ->)]; try discriminate EC.
    now apply since_version.
  - destruct IH as [[-> E0]|(earlier & recent & st0 & -> & E0 & SI)].
    + exfalso. rewrite E0 in E1. injection E1 as <-. inversion SV as [? ? ? (r & Er)| | | | |]; subst. apply NC. reflexivity.
    + rewrite E0 in E1. injection E1 as ->. exists earlier, (recent ++ [(req, out)]), st'. split; [now rewrite app_assoc|]. split; [auto|].
      eapply since_step; eauto.
Qed.
Lemma since_capabilities ex s log : since ex (RspCapabilities s) log ->
  exists q, ex = [(q, version_reply)] /\ log = flat ex /\ starts_with get_version_bytes q.
Proof.
  intros H. inversion H as [q SW|ex0 st log0 rnd req out st' log' SI RK SV NC]; subst.
  - exists q. split; [auto|]. split; [|auto]. unfold flat. cbn. now rewrite app_nil_r.
  - inversion SV as [? ? ? (r & Er)| | | | |]; subst. exfalso. apply NC. reflexivity.
Qed.
Lemma since_algorithms ex s log : since ex (RspAlgorithms s) log ->
  exists ex0 q ct fl own, ex = ex0 ++ [(q, [0x11; 0x61]%N ++ capabilities_layout 12 own)] /\ log = flat ex /\ s = mkRspAlg ct fl 12 own None /\
    starts_with ([0x11; 0xE1]%N ++ capabilities_layout ct fl) q /\ only_bits req_flag_bits fl /\ flags_named RspFlags_from_str CAPABILITIES own /\
    exists s0 log0, since ex0 (RspCapabilities s0) log0.
Proof.
  intros H. inversion H as [q SW|ex0 st log0 rnd req out st' log' SI RK SV NC]; subst.
  inversion SV as [| s0 ? ct fl own ? SW OB NM FN EO | | | |]; subst.
  exists ex0, req, ct, fl, own. split; [auto|]. split.
  { destruct (since_capabilities _ _ _ SI) as (q & -> & -> & _). rewrite flat_app. unfold flat. cbn [map concat fst snd]. now rewrite !app_nil_r. }
  repeat (split; [auto; fail|]). eauto.
Qed.
Lemma since_id ex id log : since ex (RspIdAuth id) log ->
  exists ex0 q body na al es fs ds s0 log0, 
    ex = ex0 ++ [(q, [0x11; 0x63]%N ++ algorithms_layout (N.of_nat (length fs)) (36 + 4 * N.of_nat (length fs))
            (al_measurement_spec al) (al_measurement_hash al) (al_base_asym al) (al_base_hash al) (no_ext fs))] ++ ds /\ log = flat ex /\
    since ex0 (RspAlgorithms s0) log0 /\
    id = mkRspId (ra_requester_ct s0) (ra_requester_cap s0) (ra_responder_ct s0) (ra_responder_cap s0) al /\
    starts_with ([0x11; 0xE3]%N ++ body) q /\ negotiate_fmt body na /\ algorithms_chosen na al es fs /\
    Forall (fun x => starts_with [0x11; 0x81]%N (fst x) /\ exists mask, mask_of_slots slots mask /\
      snd x = [0x11; 0x01]%N ++ digests_layout NUM_SLOTS mask (slot_chain_digest (al_base_hash (ri_algorithms id)) slots)) ds.
Proof.
  intros H. remember (RspIdAuth id) as st eqn:ES. revert id ES. induction H as [q SW|ex st log rnd req out st' log' SI IH RK SV NC]; intros id ES; [discriminate|].
  destruct SV as [st log NE SW | s log ct flags own out SW | s log body na al es fs out SW NF AC ->
    | s log mask out SW L MS CF -> | s log slot off len out SW | s log slot t nonce mask filled ss sg out SW]; try discriminate ES.
  - injection ES as <-. exists ex, req, body, na, al, es, fs, [], s, log. rewrite app_nil_r. split; [reflexivity|]. split.
    { destruct (since_algorithms _ _ _ SI) as (ex0 & q & ct & fl & own & _ & -> & _). now rewrite flat_snoc. }
    repeat (split; [auto; fail|]). constructor.
  - injection ES as <-. destruct (IH _ eq_refl) as (ex0 & q & body & na & al & es & fs & ds & s0 & log0 & -> & EL & SI0 & EI & SW0 & NF & AC & FA).
    exists ex0, q, body, na, al, es, fs, (ds ++ [(req, [0x11; 0x01]%N ++ digests_layout NUM_SLOTS mask (slot_chain_digest (al_base_hash (ri_algorithms s)) slots))]), s0, log0.
    split; [now rewrite <- !app_assoc|]. split.
    { rewrite flat_snoc, <- EL. reflexivity. }
    repeat (split; [auto; fail|]). apply Forall_app. split; [auto|]. constructor; [|constructor]. split; [exact SW|]. eauto.
Qed.
Lemma since_challenge ex id log : since ex (RspChallenge id) log ->
  exists ex0 q slot off len cs log0 ss,
    sig_len (al_base_asym (ri_algorithms id)) = ss /\
    ex = ex0 ++ [(q, [0x11; 0x02]%N ++ certificate_layout slot (slot_chain_bytes slots (N.to_nat slot)) 0)] ++ map (fun c => (fst (fst c), snd (fst c) ++ snd c)) cs /\
    since ex0 (RspIdAuth id) log0 /\
    log = flat (ex0 ++ [(q, [0x11; 0x02]%N ++ certificate_layout slot (slot_chain_bytes slots (N.to_nat slot)) 0)]) ++ flat (map fst cs) /\
    starts_with ([0x11; 0x82]%N ++ get_certificate_layout slot off len) q /\ (N.of_nat (length (slot_chain_bytes slots (N.to_nat slot))) < 65536)%N /\
    Forall (fun c => exists mask slot' rnd, rnd_ok rnd /\ mask_of_slots slots mask /\ starts_with [0x11; 0x83]%N (fst (fst c)) /\
      snd (fst c) = unsigned_auth id slots slot' mask (wire_nonce (rnd_nonce rnd)) /\ hash_usable (al_base_hash (ri_algorithms id)) /\ ss = Some (length (snd c))) cs.
Proof.
  intros H. remember (RspChallenge id) as st eqn:ES. revert id ES. induction H as [q SW|ex st log rnd req out st' log' SI IH RK SV NC]; intros id ES; [discriminate|].
  destruct SV as [st log NE SW | s log ct flags own out SW | s log body na al es fs out SW
    | s log mask out SW | s log slot off len out SW L1 L2 L3 CF -> | s log slot t nonce mask filled ss sg out SW NO NTH CF HU SL LE MS EO SG LS]; try discriminate ES.
  - injection ES as <-. exists ex, req, slot, off, len, [], log, (sig_len (al_base_asym (ri_algorithms s))). split; [auto|]. split; [reflexivity|]. split; [exact SI|]. split.
    { destruct (since_id _ _ _ SI) as (ex0 & q & body & na & al & es & fs & ds & s0 & log0 & EX & -> & _). 
      rewrite flat_snoc. cbn [map]. unfold flat at 3. cbn [concat map]. now rewrite app_nil_r. }
    split; [exact SW|]. split; [|constructor]. unfold slot_chain_bytes. destruct (slot_chain slots (N.to_nat slot)) as [c|]; [apply (CF c eq_refl)|cbn; lia].
  - injection ES as <-. destruct (IH _ eq_refl) as (ex0 & q & slot0 & off & len & cs & log0 & ss0 & SL0 & -> & SI0 & EL & SW0 & LN & FA).
    exists ex0, q, slot0, off, len, (cs ++ [(req, out, sg)]), log0, ss0. split; [auto|]. split.
    { rewrite map_app. cbn [map fst snd]. now rewrite <- !app_assoc. }
    split; [auto|]. split. { rewrite EL, map_app. cbn [map fst]. rewrite (flat_snoc (map fst cs)). now rewrite <- !app_assoc. }
    split; [auto|]. split; [auto|]. apply Forall_app. split; [auto|]. constructor; [|constructor]. exists mask, slot, rnd. cbn [fst snd]. split; [auto|]. split; [auto|].
    split. { destruct SW as (r & ->). eexists. rewrite <- !app_assoc. reflexivity. }
    split; [auto|]. split; [auto|]. congruence.
Qed.
End Rsp.

(** * What a requester that asks once per response has seen *)
Lemma as_events_app a b : as_events (a ++ b) = as_events a ++ as_events b.
Proof. apply flat_map_app. Qed.
Definition after_got (ev : list event) : Prop := ev = [] \/ exists ev' m, ev = ev' ++ [Got m].
Lemma as_events_got ex : after_got (as_events ex).
Proof.
  destruct ex as [|x l] using rev_ind; [left; reflexivity|]. right. rewrite as_events_app. destruct x as [a b].
  exists (as_events l ++ [Sent a]), b. rewrite <- app_assoc. reflexivity.
Qed.
Lemma not_after_sent ev m : ~ after_got (ev ++ [Sent m]).
Proof. intros [E|(ev' & g & E)]; [destruct ev; discriminate|]. apply app_inj_tail in E as [_ E]. discriminate. Qed.
Lemma as_events_last ex ev n m r : as_events ex = ev ++ asks n m ++ [Got r] -> after_got ev ->
  exists ex', ex = ex' ++ [(m, r)] /\ as_events ex' = ev.
Proof.
  intros E AG. destruct ex as [|x l _] using rev_ind. { destruct ev; destruct n; discriminate. }
  destruct x as [a b]. rewrite as_events_app in E. change (as_events [(a, b)]) with ([Sent a] ++ [Got b]) in E. rewrite !app_assoc in E.
  apply app_inj_tail in E as [E EB]. injection EB as ->.
  destruct n as [|n].
  { cbn in E. rewrite app_nil_r in E. subst ev. exfalso. eapply not_after_sent, AG. }
  rewrite <- asks_snoc, app_assoc in E. apply app_inj_tail in E as [E EA]. injection EA as ->.
  exists l. split; [auto|]. destruct n as [|n]; [cbn in E; now rewrite app_nil_r in E|].
  exfalso. rewrite <- asks_snoc, app_assoc in E. eapply not_after_sent. rewrite <- E. apply as_events_got.
Qed.
Lemma as_events_last_challenge ex ev slot nonces r : as_events ex = ev ++ challenges slot nonces ++ [Got r] -> after_got ev ->
  exists ex' n, ex = ex' ++ [(challenge_msg slot n, r)] /\ as_events ex' = ev /\ nonces = [n].
Proof.
  intros E AG. destruct ex as [|x l _] using rev_ind. { destruct ev; destruct nonces; discriminate. }
  destruct x as [a b]. rewrite as_events_app in E. change (as_events [(a, b)]) with ([Sent a] ++ [Got b]) in E. rewrite !app_assoc in E.
  apply app_inj_tail in E as [E EB]. injection EB as ->.
  destruct nonces as [|n nonces _] using rev_ind.
  { cbn in E. rewrite app_nil_r in E. subst ev. exfalso. eapply not_after_sent, AG. }
  rewrite <- challenges_snoc, app_assoc in E. apply app_inj_tail in E as [E EA]. injection EA as ->.
  exists l, n. split; [auto|]. destruct nonces as [|k nonces _] using rev_ind; [cbn in E; rewrite app_nil_r in E; auto|].
  exfalso. rewrite <- challenges_snoc, app_assoc in E. eapply not_after_sent. rewrite <- E. apply as_events_got.
Qed.
Section Req.
Context {cfg : Config} {cr : Crypto}.
Lemma told_version_got v ev : told_version v ev -> after_got ev.
Proof. intros [n m es _ _ _ _ _]. right. eauto. Qed.
Lemma told_capabilities_got v own ct fl ev : told_capabilities v own ct fl ev -> after_got ev.
Proof. intros [ev0 n m _ _ _ _ _ _]. right. rewrite app_assoc. eauto. Qed.
Lemma told_algorithms_got v own ct fl al ev : told_algorithms v own ct fl al ev -> after_got ev.
Proof. intros [ev0 n m na fs body _ _ _ _ _ _ _ _]. right. rewrite app_assoc. eauto. Qed.
Lemma told_digests_got v own ct fl al d ev : told_digests v own ct fl al d ev -> after_got ev.
Proof. intros [ev0 n m _ _ _ _ _]. right. rewrite app_assoc. eauto. Qed.
Lemma told_certificate_got v own ct fl al d slot portion ev : told_certificate v own ct fl al d slot portion ev -> after_got ev.
Proof. intros [ev0 n m r _ _ _ _]. right. rewrite app_assoc. eauto. Qed.

(** The six exchanges. *)
Lemma req_shape root exq Q pre req auth : req_setting -> req_session root (as_events exq) Q -> exq = pre ++ [(req, auth)] -> code auth = 0x03%N ->
  exists v own ct fl al slot portion na fs body remainder nonce m1 m2 m3 m4 m5 ss,
    exq = [(get_version_bytes, m1); (capabilities_msg own, m2); (offer_msg na, m3); (get_digests_msg, m4); (get_certificate_msg, m5);
           (challenge_msg slot nonce, auth)] /\
    told_algorithms v own ct fl al (as_events (firstn 3 exq)) /\
    starts_with [0x10; 0x04]%N m1 /\
    flags_named ReqFlags_from_str CAPABILITIES own /\
    starts_with ([0x11; 0x61]%N ++ capabilities_layout ct fl) m2 /\ only_bits rsp_flag_bits fl /\
    own_offer na /\ starts_with ([0x11; 0x63]%N ++ body) m3 /\ algorithms_fmt body al /\
    al_num_responses al = N.of_nat (length fs) /\ alg_array (al_responses al) fs /\ bytes m3 /\
    starts_with [0x11; 0x01]%N m4 /\ starts_with ([0x11; 0x02]%N ++ certificate_layout slot portion remainder) m5 /\
    (N.of_nat (length portion) < 65536)%N /\ nonce_ok nonce /\ sig_len (al_base_asym al) = Some ss /\
    authenticates root al slot portion (t_get (req_transcript Q)) ss auth /\
    t_get (req_transcript Q) = flat (firstn 5 exq) ++ challenge_msg slot nonce ++ firstn (length auth - ss) auth.
Proof.
  intros HS H EX CA. destruct (C36_session_grammar root _ Q HS H) as (st & ES & N).
  assert (LAST : exists ev, as_events exq = ev ++ [Got auth]).
  { subst exq. rewrite as_events_app. exists (as_events pre ++ [Sent req]). rewrite <- app_assoc. reflexivity. }
  destruct LAST as (evl & LAST).
  assert (H0 : exists v own ct fl al d slot portion ev0 nonces rsp ss,
    told_certificate v own ct fl al d slot portion ev0 /\ Forall nonce_ok nonces /\
         as_events exq = ev0 ++ challenges slot nonces ++ [Got rsp] /\ sig_len (al_base_asym al) = Some ss /\
         authenticates root al slot portion (events_log ss (as_events exq)) ss rsp).
  { assert (NOA : forall n m ev0, after_got ev0 -> as_events exq = ev0 ++ asks n m -> as_events exq = ev0).
    { intros n m ev0 AG E. destruct n as [|n]; [cbn in E; now rewrite app_nil_r in E|]. rewrite <- asks_snoc, app_assoc in E.
      exfalso. eapply not_after_sent. rewrite <- E. apply as_events_got. }
    assert (TV : forall v, ~ told_version v (as_events exq)).
    { intros v T. rewrite LAST in T. remember (evl ++ [Got auth]) as z eqn:E. destruct T as [n m es SW _ _ _ _]. apply app_inj_tail in E as [_ E]. injection E as ->.
      destruct SW as (r & ->). discriminate. }
    assert (TC : forall v own ct fl, ~ told_capabilities v own ct fl (as_events exq)).
    { intros v own ct fl T. rewrite LAST in T. remember (evl ++ [Got auth]) as z eqn:E. destruct T as [ev0 n m _ _ _ SW _ _]. rewrite app_assoc in E. apply app_inj_tail in E as [_ E]. injection E as ->.
      destruct SW as (r & ->). discriminate. }
    assert (TA : forall v own ct fl al, ~ told_algorithms v own ct fl al (as_events exq)).
    { intros v own ct fl al T. rewrite LAST in T. remember (evl ++ [Got auth]) as z eqn:E. destruct T as [ev0 n m na fs body _ _ SW _ _ _ _ _]. rewrite app_assoc in E. apply app_inj_tail in E as [_ E]. injection E as ->.
      destruct SW as (r & ->). discriminate. }
    assert (TD : forall v own ct fl al d, ~ told_digests v own ct fl al d (as_events exq)).
    { intros v own ct fl al d T. rewrite LAST in T. remember (evl ++ [Got auth]) as z eqn:E. destruct T as [ev0 n m _ _ SW _ _]. rewrite app_assoc in E. apply app_inj_tail in E as [_ E]. injection E as ->.
      destruct SW as (r & ->). discriminate. }
    assert (TT : forall v own ct fl al d slot portion, ~ told_certificate v own ct fl al d slot portion (as_events exq)).
    { intros v own ct fl al d slot portion T. rewrite LAST in T. remember (evl ++ [Got auth]) as z eqn:E. destruct T as [ev0 n m r0 _ SW _ _]. rewrite app_assoc in E. apply app_inj_tail in E as [_ E]. injection E as ->.
      destruct SW as (r & ->). discriminate. }
    destruct st as [| |s|s|s|s|]; cbn [req_now] in N.
    - contradiction.
    - destruct N as (n & E). exfalso. rewrite LAST in E. destruct n as [|n]; [destruct evl; discriminate|]. rewrite <- asks_snoc in E. apply app_inj_tail in E as [_ E]. discriminate.
    - destruct N as (ev0 & n & own & T & E & _). exfalso. apply NOA in E; [|eapply told_version_got; eauto]. subst ev0. eapply TV; eauto.
    - destruct N as (ev0 & n & na & T & E & _). exfalso. apply NOA in E; [|eapply told_capabilities_got; eauto]. subst ev0. eapply TC; eauto.
    - destruct N as (N & _). exfalso. destruct (qi_digests s).
      + destruct N as (ev0 & n & T & E). apply NOA in E; [|eapply told_digests_got; eauto]. subst ev0. eapply TD; eauto.
      + destruct N as (ev0 & n & T & E). apply NOA in E; [|eapply told_algorithms_got; eauto]. subst ev0. eapply TA; eauto.
    - destruct N as (ev0 & nonces & d & T & E & _). exfalso. destruct nonces as [|k nonces _] using rev_ind.
      + cbn in E. rewrite app_nil_r in E. subst ev0. eapply TT; eauto.
      + rewrite <- challenges_snoc, app_assoc in E. eapply not_after_sent. rewrite <- E. apply as_events_got.
    - destruct N as (v & own & ct & fl & al & [(_ & T)|[(_ & d & slot & portion & T)|(d & slot & portion & ev0 & nonces & rsp & ss & _ & T & FN & E & SL & A)]]).
      + exfalso. eapply TA; eauto.
      + exfalso. eapply TT; eauto.
      + exists v, own, ct, fl, al, d, slot, portion, ev0, nonces, rsp, ss. auto. }
  destruct H0 as (v & own & ct & fl & al & d & slot & portion & ev0 & nonces & rsp & ss & T & FN & E & SL & A).
  assert (rsp = auth) as ->. { rewrite E, app_assoc in LAST. apply app_inj_tail in LAST as [_ X]. now injection X. }
  assert (SE : selected (as_events exq) al).
  { destruct (told_certificate_algorithms _ _ _ _ _ _ _ _ _ T) as (e0 & e1 & -> & T').
    destruct T' as [ev1 n m na fs body _ _ SW FM _ _ _ HB]. exists m, body. split; [|auto]. rewrite E, !received_app. do 2 (apply in_or_app; left).
    apply in_or_app. right. apply in_or_app. right. left. reflexivity. }
  pose proof (proj2 (C37_transcript_is_log root _ Q HS H) al ss SE SL) as LG.
  destruct (as_events_last_challenge _ _ _ _ _ E (told_certificate_got _ _ _ _ _ _ _ _ _ T)) as (ex5 & nonce & X5 & E5 & ->).
  destruct T as [ev4 n5 m5 remainder T4 SW5 LP _].
  destruct (as_events_last _ _ _ _ _ E5 (told_digests_got _ _ _ _ _ _ _ T4)) as (ex4 & X4 & E4).
  destruct T4 as [ev3 n4 m4 T3 _ SW4 _ _].
  destruct (as_events_last _ _ _ _ _ E4 (told_algorithms_got _ _ _ _ _ _ T3)) as (ex3 & X3 & E3). pose proof T3 as T3'. pose proof E3 as E3'. rewrite <- E3' in T3'.
  destruct T3 as [ev2 n3 m3 na fs body T2 OO SW3 FM3 N3 A3 _ HB3].
  destruct (as_events_last _ _ _ _ _ E3 (told_capabilities_got _ _ _ _ _ T2)) as (ex2 & X2 & E2).
  destruct T2 as [ev1 n2 m2 T1 FQ _ SW2 OB2 _].
  destruct (as_events_last _ _ _ _ _ E2 (told_version_got _ _ T1)) as (ex1 & X1 & E1).
  destruct T1 as [n1 m1 es SW1 _ _ _ _].
  destruct (as_events_last _ [] _ _ _ E1 (or_introl eq_refl)) as (ex0 & X0 & E0). destruct ex0 as [|[] ?]; [|discriminate].
  subst ex1 ex2 ex3 ex4 ex5. cbn [app] in X5. rewrite X5 in *.
  exists v, own, ct, fl, al, slot, portion, na, fs, body, remainder, nonce, m1, m2, m3, m4, m5, ss.
  split; [reflexivity|]. split. { cbn [firstn]. cbn [app] in T3'. exact T3'. }
  split. { destruct SW1 as (r & ->). eexists. rewrite <- app_assoc. reflexivity. }
  repeat (split; [assumption|]).
  split. { destruct SW4 as (r & ->). eexists. rewrite <- app_assoc. reflexivity. }
  split; [assumption|]. split; [assumption|]. split; [now apply Forall_inv in FN|]. split; [assumption|].
  rewrite LG. split; [exact A|]. unfold as_events, events_log. cbn [flat_map app fst snd fold_left].
  assert (CD : forall c x m, starts_with ([0x11; c]%N ++ x) m -> code m = c) by (intros c x m (r & ->); reflexivity).
  assert (C1 : code m1 = 4%N) by (destruct SW1 as (r & ->); reflexivity).
  unfold event_log. rewrite CA, C1, (CD _ _ _ SW2), (CD _ _ _ SW3), (CD _ _ _ SW4), (CD _ _ _ SW5).
  change (code get_version_bytes) with 0x84%N. change (code (capabilities_msg own)) with 0xE1%N. change (code (offer_msg na)) with 0xE3%N.
  change (code get_digests_msg) with 0x81%N. change (code get_certificate_msg) with 0x82%N. change (code (challenge_msg slot nonce)) with 0x83%N.
  unfold flat. cbn [firstn map concat fst snd]. cbn [N.eqb Pos.eqb]. rewrite <- !app_assoc. cbn [app]. reflexivity.
Qed.
End Req.

(** * Messages without trailing bytes *)
Section Exact.
Context {cfg : Config}.
Lemma exact_get_version q : exact_request q -> starts_with get_version_bytes q -> q = get_version_bytes.
Proof.
  intros [E|[(? & ? & ->)|[(? & ? & _ & ->)|[->|[(? & ? & ? & ->)|(? & ? & ? & _ & ->)]]]]] (r & E'); [exact E|discriminate..].
Qed.
Lemma exact_get_capabilities q x : exact_request q -> starts_with ([0x11; 0xE1]%N ++ x) q -> exists ct fl, q = [0x11; 0xE1]%N ++ capabilities_layout ct fl.
Proof.
  intros [->|[E|[(? & ? & _ & ->)|[->|[(? & ? & ? & ->)|(? & ? & ? & _ & ->)]]]]] (r & E'); try discriminate. exact E.
Qed.
Lemma exact_negotiate q x : exact_request q -> starts_with ([0x11; 0xE3]%N ++ x) q -> exists body na, negotiate_fmt body na /\ q = [0x11; 0xE3]%N ++ body.
Proof.
  intros [->|[(? & ? & ->)|[E|[->|[(? & ? & ? & ->)|(? & ? & ? & _ & ->)]]]]] (r & E'); try discriminate. exact E.
Qed.
Lemma exact_get_digests q : exact_request q -> starts_with [0x11; 0x81]%N q -> q = get_digests_msg.
Proof.
  intros [->|[(? & ? & ->)|[(? & ? & _ & ->)|[E|[(? & ? & ? & ->)|(? & ? & ? & _ & ->)]]]]] (r & E'); try discriminate. exact E.
Qed.
Lemma exact_get_certificate q x : exact_request q -> starts_with ([0x11; 0x82]%N ++ x) q ->
  exists slot off len, q = [0x11; 0x82]%N ++ get_certificate_layout slot off len.
Proof.
  intros [->|[(? & ? & ->)|[(? & ? & _ & ->)|[->|[E|(? & ? & ? & _ & ->)]]]]] (r & E'); try discriminate. exact E.
Qed.
Lemma exact_challenge q : exact_request q -> starts_with [0x11; 0x83]%N q ->
  exists slot t nonce, nonce_ok nonce /\ q = [0x11; 0x83]%N ++ challenge_layout slot t nonce.
Proof.
  intros [->|[(? & ? & ->)|[(? & ? & _ & ->)|[->|[(? & ? & ? & ->)|E]]]]] (r & E'); try discriminate. exact E.
Qed.
Lemma exact_version ds ss m : exact_response ds ss m -> starts_with [0x10; 0x04]%N m -> exists es, m = [0x10; 0x04]%N ++ version_body es.
Proof.
  intros [E|[(? & ? & ->)|[(? & ? & _ & ->)|[(? & ? & _ & ->)|[(? & ? & ? & _ & ->)|(? & ? & ? & _ & ->)]]]]] (r & E'); try discriminate. exact E.
Qed.
Lemma exact_capabilities ds ss m x : exact_response ds ss m -> starts_with ([0x11; 0x61]%N ++ x) m ->
  exists ct fl, m = [0x11; 0x61]%N ++ capabilities_layout ct fl.
Proof.
  intros [(? & ->)|[E|[(? & ? & _ & ->)|[(? & ? & _ & ->)|[(? & ? & ? & _ & ->)|(? & ? & ? & _ & ->)]]]]] (r & E'); try discriminate. exact E.
Qed.
Lemma exact_algorithms ds ss m x : exact_response ds ss m -> starts_with ([0x11; 0x63]%N ++ x) m ->
  exists body al, algorithms_fmt body al /\ m = [0x11; 0x63]%N ++ body.
Proof.
  intros [(? & ->)|[(? & ? & ->)|[E|[(? & ? & _ & ->)|[(? & ? & ? & _ & ->)|(? & ? & ? & _ & ->)]]]]] (r & E'); try discriminate. exact E.
Qed.
Lemma exact_digests ds ss m : exact_response ds ss m -> starts_with [0x11; 0x01]%N m ->
  exists mask dig, (forall i, length (dig i) = ds) /\ m = [0x11; 0x01]%N ++ digests_layout 8 mask dig.
Proof.
  intros [(? & ->)|[(? & ? & ->)|[(? & ? & _ & ->)|[E|[(? & ? & ? & _ & ->)|(? & ? & ? & _ & ->)]]]]] (r & E'); try discriminate. exact E.
Qed.
Lemma exact_certificate ds ss m x : exact_response ds ss m -> starts_with ([0x11; 0x02]%N ++ x) m ->
  exists slot portion remainder, (N.of_nat (length portion) < 65536)%N /\ m = [0x11; 0x02]%N ++ certificate_layout slot portion remainder.
Proof.
  intros [(? & ->)|[(? & ? & ->)|[(? & ? & _ & ->)|[(? & ? & _ & ->)|[E|(? & ? & ? & _ & ->)]]]]] (r & E'); try discriminate. exact E.
Qed.
Lemma exact_auth ds ss m : exact_response ds ss m -> code m = 0x03%N ->
  exists a rsvd olen, ca_fields_ok ds ss a /\ m = [0x11; 0x03]%N ++ ca_bytes rsvd olen a.
Proof.
  intros [(? & ->)|[(? & ? & ->)|[(? & ? & _ & ->)|[(? & ? & _ & ->)|[(? & ? & ? & _ & ->)|E]]]]] C; try discriminate. exact E.
Qed.
End Exact.
(** Two bodies of DIGESTS with digests of one size. *)
Lemma cancel_digests n mask mask' dig dig' ds r r' : (forall i, length (dig i) = ds) -> (forall i, length (dig' i) = ds) ->
  n <= 8 -> (forall i, slot_in_mask mask' i = true -> i < n) ->
  digests_layout 8 mask dig ++ r = digests_layout n mask' dig' ++ r' -> digests_layout 8 mask dig = digests_layout n mask' dig' /\ r = r'.
Proof.
  intros D D' LE IN E. apply cancel; [|exact E].
  assert (mask = mask') as ->. { apply (f_equal (fun l => nth 1 l 0%N)) in E. exact E. }
  assert (C : forall (g : nat -> list N) l, (forall i, length (g i) = ds) -> length (concat (map g l)) = length l * ds).
  { intros g l G. induction l as [|x l IH]; [reflexivity|]. cbn [map concat length]. rewrite app_length, G, IH. lia. }
  unfold digests_layout. rewrite !app_length, !C by auto. do 3 f_equal.
  replace 8 with (n + (8 - n)) by lia. rewrite seq_app, filter_app, app_length.
  enough (X : filter (slot_in_mask mask') (seq (0 + n) (8 - n)) = []) by (rewrite X; cbn; lia).
  assert (Y : forall l, (forall i, In i l -> n <= i) -> filter (slot_in_mask mask') l = []).
  { induction l as [|x l IH]; intros G; [reflexivity|]. cbn [filter]. destruct (slot_in_mask mask' x) eqn:B.
    - apply IN in B. specialize (G x (or_introl eq_refl)). lia.
    - apply IH. intros i I. apply G. now right. }
  apply Y. intros i I. apply in_seq in I. lia.
Qed.
Lemma cancel_certificate slot portion rem slot' portion' rem' r r' :
  (N.of_nat (length portion) < 65536)%N -> (N.of_nat (length portion') < 65536)%N ->
  certificate_layout slot portion rem ++ r = certificate_layout slot' portion' rem' ++ r' ->
  certificate_layout slot portion rem = certificate_layout slot' portion' rem' /\ r = r'.
Proof.
  intros L L' E. apply cancel; [|exact E]. unfold certificate_layout in *. rewrite <- !app_assoc in E.
  apply cancel in E as [_ E]; [|reflexivity]. apply cancel in E as [_ E]; [|reflexivity]. apply cancel in E as [E _]; [|reflexivity].
  apply u16le_inj in E; auto. rewrite !app_length.
  change (length (u16le rem)) with 2. change (length (u16le rem')) with 2. change (length (u16le (N.of_nat (length portion)))) with 2.
  change (length (u16le (N.of_nat (length portion')))) with 2. cbn [length]. lia.
Qed.

Lemma own_structs_ok : Forall alg_struct_ok own_structs.
Proof.
  assert (X : forall l v, from_bits (mask_of l) v = Some v -> only_bits l v) by (intros l v H; now apply (from_bits_only _ l v v eq_refl) in H).
  repeat (constructor; [apply X; reflexivity|]). constructor.
Qed.
Lemma chosen_bound {cfg : Config} l offered c : (forall i, In i l -> (i < 32)%N) -> only_bits l offered -> SpecResponder.selected offered c -> (c < 4294967296)%N.
Proof.
  intros B O [(i & T & _ & ->)|(_ & _ & ->)]; [|reflexivity]. change 4294967296%N with (2 ^ 32)%N. apply N.pow_lt_mono_r; [lia|auto].
Qed.
Lemma chosen_structs {cfg : Config} es fs : Forall alg_struct_ok es -> Forall2 entry_selected es fs -> Forall alg_struct_ok fs.
Proof.
  intros F F2. induction F2 as [|a b es fs [ET SE] F2 IH]; [constructor|]. inversion F as [|? ? HA HF]; subst. constructor; [|auto].
  assert (EB : alg_struct_bits a = alg_struct_bits b) by (destruct a, b; try discriminate ET; reflexivity).
  unfold alg_struct_ok in *. rewrite <- EB. intros j TB. destruct SE as [(i & T & _ & E)|(_ & _ & E)]; rewrite E in TB.
  - rewrite N.pow2_bits_eqb in TB. apply N.eqb_eq in TB. subst j. auto.
  - assert (j = 0%N) as ->; [|destruct a; simpl; auto]. destruct j as [|[]]; [reflexivity|discriminate..].
Qed.
Lemma hash_len_sha2 h h' : sha2 h -> sha2 h' -> hash_len h = hash_len h' -> h = h'.
Proof. intros [->|[->| ->]] [->|[->| ->]] E; try reflexivity; discriminate E. Qed.
Section Agreement.
Variables (cq : Config) (kq : Crypto) (cr : Config) (kr : Crypto).
(** Two CHALLENGE_AUTH responses, the second without its signature, which has no opaque elements. *)
Lemma cancel_auth ds ss a rsvd olen id slots slot mask nonce r :
  @ca_fields_ok cq ds ss a -> length nonce = (if @feature_rand cq then 32 else 0) ->
  hash_len (al_base_hash (ri_algorithms id)) = ds -> length (@slot_chain_digest kr (al_base_hash (ri_algorithms id)) slots (N.to_nat slot)) = ds ->
  firstn (length ([0x11; 0x03]%N ++ ca_bytes rsvd olen a) - ss) ([0x11; 0x03]%N ++ ca_bytes rsvd olen a) =
  @unsigned_auth kr id slots slot mask nonce ++ r ->
  r = [].
Proof.
  intros (_ & _ & LC & LN & LS & _ & LSG) LN' EH LD E.
  assert (X : exists body, ca_bytes rsvd olen a = body ++ ca_signature a /\
    body = [ca_slot a + 16 * rsvd + 128 * bit (ca_use_mutual_auth a)]%N ++ [ca_slot_mask a] ++ ca_cert_chain_hash a ++ ca_nonce a ++
      ca_measurement_summary_hash a ++ u16le olen ++ opaque_bytes (ca_opaque_data a)).
  { eexists. split; [|reflexivity]. unfold ca_bytes, challenge_auth_layout. now rewrite <- !app_assoc. }
  destruct X as (body & EB & EB'). rewrite EB in E. rewrite app_assoc in E. rewrite app_length, LSG in E.
  replace (length ([17; 3]%N ++ body) + ss - ss) with (length ([17; 3]%N ++ body)) in E by lia.
  rewrite firstn_app, Nat.sub_diag, firstn_all, app_nil_r in E. subst body.
  unfold unsigned_auth, challenge_auth_layout in E. rewrite <- !app_assoc in E.
  apply cancel in E as [_ E]; [|reflexivity]. apply cancel in E as [_ E]; [|reflexivity]. apply cancel in E as [_ E]; [|reflexivity].
  apply cancel in E as [_ E]; [|congruence]. apply cancel in E as [_ E]; [|now rewrite LN, LN'].
  apply cancel in E as [_ E]; [|unfold zeros; rewrite repeat_length; congruence]. apply cancel in E as [_ E]; [|reflexivity].
  cbn [app] in E. unfold opaque_bytes in E.
  rewrite <- !app_assoc in E. apply cancel in E as [E1 E]; [|reflexivity]. apply cancel in E as [_ E]; [|reflexivity].
  injection E1 as E1. destruct (ca_opaque_data a); [|discriminate E1]. symmetry. exact E.
Qed.

Theorem C40_agreement_partial root exq Q pre req auth slots ex R id al ss :
  @req_setting cq kq -> @setting cr kr slots -> (forall h d, @sha kq h d = @sha kr h d) -> @feature_rand cq = @feature_rand cr ->
  (** The requester did these exchanges, the last of which it accepted as authentication. *)
  @req_session cq kq root (as_events exq) Q -> exq = pre ++ [(req, auth)] -> code auth = 0x03%N ->
  selected (as_events exq) al -> sig_len (al_base_asym al) = Some ss ->
  (** The responder did these exchanges, a CHALLENGE last. *)
  @session cr kr slots ex R -> rsp_state R = Some (RspChallenge id) -> (exists ex' y, ex = ex' ++ [y] /\ code (fst y) = 0x83%N) ->
  (** No message has trailing bytes. *)
  Forall (@exact_response cq (hash_len (al_base_hash al)) ss) (map snd exq) -> Forall (@exact_request cr) (map fst ex) ->
  (** The digest whose signature was accepted is the digest that was signed. *)
  @sha kq (al_base_hash al) (t_get (req_transcript Q)) = @sha kr (al_base_hash (ri_algorithms id)) (t_get (rsp_transcript R)) ->
  @collision kr (al_base_hash al) (t_get (req_transcript Q)) (t_get (rsp_transcript R)) \/
  (ri_algorithms id = al /\ ri_requester_ct id = 12%N /\ flags_named ReqFlags_from_str (@CAPABILITIES cq) (ri_requester_cap id) /\
   (exists q m, In (q, m) exq /\ m = [0x11; 0x61]%N ++ capabilities_layout (ri_responder_ct id) (ri_responder_cap id)) /\
   exists earlier recent, ex = earlier ++ recent /\ Forall2 (same_exchange ss) exq recent).
Proof.
  intros HQ HR HSH HFR SQ EX CA SE SL SR ER LAST XQ XR ED.
  destruct (@req_shape cq kq root exq Q pre req auth HQ SQ EX CA)
    as (v & own & ct & fl & al0 & slot & portion & na & fs & body & remainder & nonce & m1 & m2 & m3 & m4 & m5 & ss0 & ->
        & TA & SW1 & FN & SW2 & OB2 & OO & SW3 & FM3 & NR3 & AR3 & HB3 & SW4 & SW5 & LP & NOK & SL0 & AUTH & LQ).
  assert (al0 = al) as ->.
  { eapply (@selected_unique cq kq); eauto. destruct (told_selected _ _ _ _ _ _ TA) as (m & b & I & Y). exists m, b. split; [|exact Y].
    match goal with |- In m (received (as_events ?l)) => rewrite <- (firstn_skipn 3 l), as_events_app, received_app end.
    apply in_or_app. left. exact I. }
  assert (ss0 = ss) as -> by congruence.
  rename XQ into XQ0. cbn [map snd] in XQ0.
  apply Forall_cons_iff in XQ0 as [X1 XQ0]. apply Forall_cons_iff in XQ0 as [X2 XQ0]. apply Forall_cons_iff in XQ0 as [X3 XQ0].
  apply Forall_cons_iff in XQ0 as [X4 XQ0]. apply Forall_cons_iff in XQ0 as [X5 XQ0]. apply Forall_cons_iff in XQ0 as [X6 _].
  destruct (@session_since cr kr slots ex R HR SR) as [[E _]|(earlier & recent & st & EE & E & SI)].
  { destruct LAST as (ex' & y & E' & _). rewrite E in E'. destruct ex'; discriminate. }
  rewrite ER in E. injection E as <-.
  destruct (since_challenge slots _ _ _ SI) as (ex0 & q5 & slot5 & off & len & cs & log0 & ss1 & SL1 & ERC & SI0 & LR & SWQ5 & LP5 & FC).
  destruct (since_id slots _ _ _ SI0) as (exA & q3 & body3 & na3 & al3 & es3 & fs3 & dss & s0 & log1 & E0 & _ & SI1 & EID & SWQ3 & NF3 & AC3 & FD).
  destruct (since_algorithms slots _ _ _ SI1) as (exB & q2 & ct2 & fl2 & own2 & EA & _ & ES0 & SWQ2 & OBQ2 & FN2 & s1 & log2 & SI2).
  destruct (since_capabilities slots _ _ _ SI2) as (q1 & EB & _ & SWQ1).
  subst s0 exB exA. cbn [ra_requester_ct ra_requester_cap ra_responder_ct ra_responder_cap] in EID.
  assert (AL3 : al3 = ri_algorithms id) by (subst id; reflexivity).
  (* the last CHALLENGE *)
  assert (CS : exists c cs', cs = c :: cs').
  { destruct cs as [|c cs']; [|eauto]. exfalso. destruct LAST as (ex' & y & E' & CY). rewrite EE, ERC in E'. cbn [map app] in E'.
    rewrite app_assoc in E'. apply app_inj_tail in E' as [_ <-]. destruct SWQ5 as (r & E5). cbn [fst] in CY. rewrite E5 in CY. discriminate CY. }
  destruct CS as (c & cs' & ->).
  apply Forall_cons_iff in FC as [(mask6 & slot6 & rnd6 & RK6 & MS6 & SWQ6 & EC6 & HU & SS6) FC'].
  destruct HU as (_ & SH' & _).
  (* the hash *)
  assert (SH : sha2 (al_base_hash al)).
  { destruct (told_selection _ _ _ _ _ _ TA) as (na' & fs' & OO' & _ & _ & _ & _ & _ & (i & TB & ->) & _).
    destruct OO' as (_ & _ & _ & EB' & _). rewrite EB' in TB.
    assert (TB7 : N.testbit 7 i = true) by (destruct (@provider kq); [exact TB|destruct i as [|[]]; [reflexivity|discriminate TB..]]).
    destruct i as [|[[|[]|]|[|[]|]|]]; try discriminate TB7; [left|right; right|right; left]; reflexivity. }
  assert (EH : al_base_hash al = al_base_hash (ri_algorithms id)).
  { apply hash_len_sha2; auto. destruct HQ as (_ & _ & HCQ). destruct HR as (_ & _ & HCR).
    rewrite <- (proj1 (HCQ _ (t_get (req_transcript Q)) SH)), <- (proj1 (HCR _ (t_get (rsp_transcript R)) SH')). now rewrite ED. }
  rewrite HSH, <- EH in ED.
  destruct (list_eq_dec N.eq_dec (t_get (req_transcript Q)) (t_get (rsp_transcript R))) as [EL|NE]; [right|left; split; [|split; [exact NE|]]; auto].
  (* exact requests *)
  rewrite EE, map_app in XR. apply Forall_app in XR as [_ XR]. rewrite ERC, E0 in XR. rewrite !map_app in XR. cbn [map fst app] in XR.
  apply Forall_cons_iff in XR as [Y1 XR]. apply Forall_cons_iff in XR as [Y2 XR]. apply Forall_cons_iff in XR as [Y3 XR].
  apply Forall_app in XR as [Y4 XR]. apply Forall_cons_iff in XR as [Y5 XR]. apply Forall_cons_iff in XR as [Y6 _].
  apply exact_get_version in Y1; [|exact SWQ1]. eapply exact_get_capabilities in Y2 as (ct' & fl' & Y2); [|exact SWQ2].
  eapply exact_negotiate in Y3 as (body' & na' & NF' & Y3); [|exact SWQ3]. eapply exact_get_certificate in Y5 as (slot' & off' & len' & Y5); [|exact SWQ5].
  apply exact_challenge in Y6 as (slotc & tc & noncec & NOKC & Y6); [|exact SWQ6].
  apply exact_version in X1 as (es1 & X1); [|exact SW1]. eapply exact_capabilities in X2 as (ctx & flx & X2); [|exact SW2].
  eapply exact_algorithms in X3 as (bodyx & alx & FMX & X3); [|exact SW3]. apply exact_digests in X4 as (maskx & digx & LDX & X4); [|exact SW4].
  eapply exact_certificate in X5 as (slotx & portionx & remx & LPX & X5); [|exact SW5]. apply exact_auth in X6 as (a & rsvd & olen & FO & X6); [|exact CA].
  assert (EL' : get_version_bytes ++ m1 ++ capabilities_msg own ++ m2 ++ offer_msg na ++ m3 ++ get_digests_msg ++ m4 ++
      @get_certificate_msg cq ++ m5 ++ challenge_msg slot nonce ++ firstn (length auth - ss) auth
    = q1 ++ version_reply ++ q2 ++ ([0x11; 0x61]%N ++ capabilities_layout 12 own2) ++ q3 ++
      ([0x11; 0x63]%N ++ algorithms_layout (N.of_nat (length fs3)) (36 + 4 * N.of_nat (length fs3))
            (al_measurement_spec al3) (al_measurement_hash al3) (al_base_asym al3) (al_base_hash al3) (no_ext fs3)) ++ flat dss ++
      q5 ++ ([0x11; 0x02]%N ++ certificate_layout slot5 (slot_chain_bytes slots (N.to_nat slot5)) 0) ++
      fst (fst c) ++ snd (fst c) ++ flat (map fst cs')).
  { transitivity (t_get (req_transcript Q)).
    - rewrite LQ. unfold flat. cbn [firstn map concat fst snd]. rewrite <- !app_assoc. reflexivity.
    - rewrite EL, LR, E0, !flat_app. unfold flat. cbn [map concat fst snd]. rewrite !app_nil_r, <- !app_assoc. reflexivity. }
  clear EL LQ LR. rename EL' into EL.
  rewrite Y1 in EL. apply app_inv_head in EL.
  rewrite X1 in EL.
  assert (LE1 : length es1 = 2).
  { apply (f_equal (fun l => nth 5 l 0%N)) in EL. cbn in EL. lia. }
  apply cancel in EL as [EM1 EL].
  2: { destruct es1 as [|e1 [|e2 [|? ?]]]; try discriminate LE1. reflexivity. }
  rewrite Y2 in EL. apply cancel in EL as [EQ2 EL]; [|reflexivity].
  rewrite X2 in EL. apply cancel in EL as [EM2 EL]; [|reflexivity].
  rewrite Y3 in EL. unfold offer_msg in EL. rewrite <- !app_assoc in EL. apply cancel in EL as [_ EL]; [|reflexivity].
  symmetry in EL. change (negotiate_layout 4 48 1) with (negotiate_layout (N.of_nat (length own_structs)) 48 1) in EL.
  assert (BA : (na_base_asym_algo na < 4294967296)%N).
  { destruct OO as (_ & _ & FA & _). apply (named_only _ _ _ _ C49_asym_names) in FA. apply (only_bits_bound asym_bits _ 32); [|exact FA]. apply bound_check. reflexivity. }
  assert (BH : (na_base_hash_algo na < 4294967296)%N).
  { destruct OO as (_ & _ & _ & -> & _). destruct (@provider kq); reflexivity. }
  apply (cancel_negotiate _ _ _ _ _ _ _ _ _ NF') in EL as [EQ3 EL]; [|apply Nat.ltb_lt; reflexivity|exact BA|exact BH|reflexivity|].
  2: { exact own_structs_ok. }
  symmetry in EL. rewrite X3 in EL. rewrite <- !app_assoc in EL. apply cancel in EL as [_ EL]; [|reflexivity].
  destruct AC3 as (NE3 & AE3 & NR & AR & F2 & EMS & SHB & EMH & SAB).
  destruct NF3 as (len3 & ea & eh & t3 & _ & _ & _ & FT3 & _ & OA3 & OH3 & NT3 & AT3 & _).
  assert (BH32 : forall i, In i hash_bits -> (i < 32)%N) by (apply bound_check; reflexivity).
  assert (BA32 : forall i, In i asym_bits -> (i < 32)%N) by (apply bound_check; reflexivity).
  pose proof (chosen_bound _ _ _ BH32 OH3 SHB) as B3H. pose proof (chosen_bound _ _ _ BA32 OA3 SAB) as B3A.
  apply (cancel_algorithms _ _ _ _ _ _ _ _ _ _ FMX) in EL as (EM3 & EL & N3 & A3 & E31 & E32 & E33 & E34);
    [|destruct AR; lia|congruence|exact B3A|exact B3H|].
  2: { eapply chosen_structs; [|exact F2].
       assert (es3 = map fst t3) as -> by (eapply alg_array_unique; eauto; rewrite map_length; lia).
       apply Forall_forall. intros x Hx. apply in_map_iff in Hx as (y & <- & Hy). rewrite Forall_forall in FT3. now apply FT3. }
  assert (alx = al) as ->.
  { apply (@selected_unique cq kq root _ Q alx al HQ SQ); [|exact SE]. exists m3, bodyx. split; [|split; [exact HB3|split; [|exact FMX]]].
    - unfold as_events, received. cbn [flat_map app fst snd]. right. right. left. reflexivity.
    - exists []. rewrite app_nil_r. exact X3. }
  assert (al3 = al) as EAL.
  { destruct al3, al. cbn in *. destruct A3 as [_ ->], AR as [_ ->]. congruence. }
  rewrite EAL in *. rewrite <- AL3 in *.
  (* digests *)
  destruct HR as (LSL & NS8 & HCR).
  assert (LD : forall i, length (slot_chain_digest (al_base_hash al) slots i) = hash_len (al_base_hash al)).
  { intros i. apply (proj1 (HCR _ _ SH)). }
  destruct dss as [|[q4 r4] dss].
  { exfalso. apply (f_equal (fun l => nth 1 l 0%N)) in EL. rewrite Y5 in EL. discriminate EL. }
  apply Forall_cons_iff in FD as [(SWQ4 & mask4 & MS4 & ER4) FD]. cbn [fst snd] in SWQ4, ER4.
  cbn [map] in Y4. apply Forall_cons_iff in Y4 as [Y4 Y4']. cbn [fst] in Y4. apply exact_get_digests in Y4; [|exact SWQ4].
  change (flat ((q4, r4) :: dss)) with ((q4 ++ r4) ++ flat dss) in EL. rewrite <- !app_assoc in EL. rewrite Y4 in EL. apply app_inv_head in EL.
  rewrite X4, ER4 in EL. rewrite <- !app_assoc in EL. apply cancel in EL as [_ EL]; [|reflexivity].
  apply (cancel_digests _ _ _ _ _ _ _ _ LDX LD NS8) in EL as [EM4 EL].
  2: { intros i B. apply MS4 in B as (ch & B). unfold slot_chain in B. rewrite <- LSL. apply nth_error_Some. now destruct (nth_error slots i). }
  destruct dss as [|[q4' r4'] dss].
  2: { exfalso. apply Forall_cons_iff in FD as [((r & SWQ4') & _) _]. cbn [fst] in SWQ4'.
       apply (f_equal (fun l => nth 1 l 0%N)) in EL. rewrite SWQ4' in EL. discriminate EL. }
  change (flat []) with (@nil N) in EL. rewrite app_nil_l in EL.
  rewrite Y5 in EL. apply cancel in EL as [EQ5 EL]; [|reflexivity].
  rewrite X5 in EL. rewrite <- !app_assoc in EL. apply cancel in EL as [_ EL]; [|reflexivity].
  apply cancel_certificate in EL as [EM5 EL]; [|exact LPX|exact LP5].
  rewrite Y6 in EL. apply cancel in EL as [EQ6 EL].
  2: { unfold challenge_msg, challenge_layout, nonce_ok in *. rewrite !app_length, NOK, NOKC, HFR. reflexivity. }
  assert (ECS : flat (map fst cs') = []).
  { rewrite X6, EC6 in EL. eapply cancel_auth; [exact FO| | | |exact EL].
    - unfold wire_nonce. rewrite HFR. destruct (@feature_rand cr); [apply RK6|reflexivity].
    - rewrite <- AL3. reflexivity.
    - rewrite <- AL3. apply LD. }
  assert (cs' = []) as ->.
  { destruct cs' as [|[[q7 r7] g7] cs']; [reflexivity|]. exfalso. apply Forall_cons_iff in FC' as [(? & ? & ? & _ & _ & (r & SW7) & _) _].
    cbn [fst] in SW7. rewrite SW7 in ECS. discriminate ECS. }
  rewrite ECS, app_nil_r in EL.
  assert (ECAP : ct2 = 12%N /\ fl2 = own).
  { destruct SWQ2 as (r & EQ). rewrite Y2, <- EQ2 in EQ. unfold capabilities_msg, capabilities_layout in EQ. rewrite <- !app_assoc in EQ.
    apply cancel in EQ as [_ EQ]; [|reflexivity]. apply cancel in EQ as [_ EQ]; [|reflexivity]. apply cancel in EQ as [ECT EQ]; [|reflexivity].
    apply cancel in EQ as [_ EQ]; [|reflexivity]. rewrite <- (app_nil_r (u32le own)) in EQ. apply cancel in EQ as [EQ _]; [|reflexivity].
    injection ECT as ECT. split; [auto|].
    assert (BQ : forall v, only_bits req_flag_bits v -> (v < 4294967296)%N).
    { intros w. apply (only_bits_bound req_flag_bits w 32). apply bound_check. reflexivity. }
    symmetry. apply u32le_inj in EQ; [exact EQ|apply BQ; exact (named_only _ _ _ _ C49_requester_flag_names FN)|apply BQ; exact OBQ2]. }
  destruct ECAP as [-> ->].
  assert (EIF : ri_algorithms id = al /\ ri_requester_ct id = 12%N /\ ri_requester_cap id = own /\ ri_responder_ct id = 12%N /\ ri_responder_cap id = own2)
    by (rewrite EID; auto).
  destruct EIF as (EI1 & -> & -> & -> & ->). split; [congruence|]. split; [reflexivity|]. split; [exact FN|]. split.
  { exists (capabilities_msg own), m2. split; [right; left; reflexivity|]. rewrite X2. exact EM2. }
  exists earlier, recent. split; [exact EE|]. rewrite ERC, E0. cbn [map app].
  constructor; [split; [symmetry; exact Y1|left; rewrite X1; exact EM1]|].
  constructor; [split; [cbn [fst]; rewrite Y2; exact EQ2|left; rewrite X2; exact EM2]|].
  constructor; [split; [cbn [fst]; rewrite Y3, EQ3; reflexivity|left; cbn [snd]; rewrite X3, EM3; reflexivity]|].
  constructor; [split; [cbn [fst]; symmetry; exact Y4|left; cbn [snd]; rewrite X4, ER4, EM4; reflexivity]|].
  constructor; [split; [cbn [fst]; rewrite Y5; exact EQ5|left; cbn [snd]; rewrite X5, EM5; reflexivity]|].
  constructor; [|constructor]. split; [cbn [fst]; rewrite Y6; exact EQ6|right]. cbn [fst snd]. split; [reflexivity|].
  rewrite EL. assert (LSG : length (snd c) = ss) by congruence.
  rewrite app_length, LSG. replace (length (snd (fst c)) + ss - ss) with (length (snd (fst c))) by lia.
  rewrite firstn_app, Nat.sub_diag, firstn_all, app_nil_r. reflexivity.
Qed.
End Agreement.

(** * An attack by messages with trailing bytes *)
#[local] Existing Instance sample_cfg.
#[local] Existing Instance sample_crypto.
(** The attacker makes each side believe that the peer announced the
    capabilities CERT and CHAL only, and the requester that other key exchange
    and encryption algorithms were selected. *)
Definition weak_q : list N := [0x11; 0xE1]%N ++ capabilities_layout 12 6.
Definition weak_r : list N := [0x11; 0x61]%N ++ capabilities_layout 12 6.
Definition forged_structs : list AlgorithmRequest := [Dhe 0x10; Aead 0x04; ReqBaseAsym 0x80; KeySchedule 0x01]%N.
Definition forged_algorithms : list N := [0x11; 0x63]%N ++ algorithms_layout 4 52 1 1 0x10 1 (no_ext forged_structs).
(** What the attacker sends to the responder; requests of the sample requester are reused. *)
Definition attack_requests : list (list N) := Eval vm_compute in
  [sample_request 0; weak_q; sample_request 2 ++ sample_request 1 ++ weak_r;
   get_digests_msg ++ sample_request 2 ++ forged_algorithms ++ sample_request 3; sample_request 4; sample_request 5].
Definition attacked_ex : list (list N * list N) := Eval vm_compute in served_ex attack_requests.
(** What the attacker sends to the requester. *)
Definition attack_responses : list (list N) := Eval vm_compute in
  match map snd attacked_ex with
  | [ver; caps; alg; dig; cert; auth] =>
    [ver ++ weak_q ++ caps ++ sample_request 2; weak_r ++ alg ++ get_digests_msg; forged_algorithms; dig; cert; auth]
  | _ => []
  end.
Definition attacked_exq : list (list N * list N) := Eval vm_compute in combine sample_requests attack_responses.
Theorem C40_refuted : exists root exq Q slots ex R id al,
  req_setting /\ setting slots /\
  req_session root (as_events exq) Q /\ req_state Q = Some ReqNewSession /\ session slots ex R /\ rsp_state R = Some (RspChallenge id) /\
  (** the responder's signed answer to CHALLENGE was delivered to the requester, and both had the same transcript, but *)
  (exists exq' ex' q auth, exq = exq' ++ [(q, auth)] /\ ex = ex' ++ [(q, auth)] /\ code auth = 0x03%N) /\
  t_get (req_transcript Q) = t_get (rsp_transcript R) /\
  (** they differ on the capabilities of either side and on the algorithms selected *)
  ~ flags_named ReqFlags_from_str CAPABILITIES (ri_requester_cap id) /\
  (forall ct fl m, In m (map snd exq) -> starts_with ([0x11; 0x61]%N ++ capabilities_layout ct fl) m -> fl <> ri_responder_cap id) /\
  selected (as_events exq) al /\ al <> ri_algorithms id.
Proof.
  destruct (drive 2 attack_responses sample_q0) as [[[ev b] Q]|] eqn:E.
  2: { vm_compute in E. discriminate. }
  assert (EV : ev = as_events attacked_exq).
  { replace ev with (match drive 2 attack_responses sample_q0 with Some (ev, _, _) => ev | None => [] end) by now rewrite E. vm_compute. reflexivity. }
  assert (EQ : Q = match drive 2 attack_responses sample_q0 with Some (_, _, Q) => Q | None => sample_q0 end) by now rewrite E.
  apply (drive_session [1; 2; 3]%N _ _ _ [] _ _ _ (req_session_new _)) in E.
  2: { repeat (constructor; [vm_compute; reflexivity|]). constructor. }
  2: { vm_compute. reflexivity. }
  cbn [app] in E. rewrite EV in E.
  assert (SR : session sample_slots attacked_ex (served_R attack_requests)).
  { replace attacked_ex with (served_ex attack_requests) by (vm_compute; reflexivity). apply served_session; [reflexivity|apply bytes_all; vm_compute; reflexivity|].
    intros H. apply (f_equal (fun o => match o with Some _ => true | None => false end)) in H. vm_compute in H. discriminate. }
  exists [1; 2; 3]%N, attacked_exq, Q, sample_slots, attacked_ex, (served_R attack_requests), (mkRspId 12 6 12 sample_own_r agreed_algorithms),
    (mkAlgorithms 1 1 0x10 1 4 forged_structs).
  refine (conj sample_req_setting (conj sample_setting (conj E (conj _ (conj SR (conj _ (conj _ (conj _ (conj _ (conj _ (conj _ _))))))))))).
  - rewrite EQ. vm_compute. reflexivity.
  - vm_compute. reflexivity.
  - exists (firstn 5 attacked_exq), (firstn 5 attacked_ex). exists (sample_request 5), (nth 5 attack_responses []). vm_compute. auto.
  - rewrite EQ. vm_compute. reflexivity.
  - intros F. cbn [ri_requester_cap] in F. 
    assert (HB : gen_config true true true sample_toml = Ok sample_cfg) by reflexivity.
    pose proof (@C44_accepted_config_never_fails sample_crypto _ _ _ _ _ HB) as (_ & _ & _ & (m & E1 & E2) & _).
    change (sc_capabilities sample_toml) with (@CAPABILITIES sample_cfg) in E2. vm_compute in E1. injection E1 as <-.
    assert (X : N.testbit 6 7 = true) by (apply F, E2; reflexivity). discriminate X.
  - intros ct fl m I (r & EM). cbn [ri_responder_cap]. intros ->.
    assert (X : forallb (fun m => match m with 0x11 :: 0x61 :: _ => (nth 8 m 0 =? 6) | _ => true end)%N (map snd attacked_exq) = true) by reflexivity.
    rewrite forallb_forall in X. apply X in I. rewrite EM in I. discriminate I.
  - assert (P : algorithms_parse_body (skipn 2 forged_algorithms) = Ok (mkAlgorithms 1 1 0x10 1 4 forged_structs)) by (vm_compute; reflexivity).
    apply C10_algorithms_parse in P as (body & r & EB & FM); [|apply bytes_check; reflexivity].
    exists forged_algorithms, body. split; [vm_compute; auto|]. split; [apply bytes_check; reflexivity|]. split; [|exact FM].
    exists r. rewrite <- app_assoc, <- EB. reflexivity.
  - discriminate.
Qed.

(** The sample run of C39 meets the hypotheses of C40_agreement_partial. *)
Lemma bits_check l v : from_bits (mask_of l) v = Some v -> only_bits l v.
Proof. intros H; now apply (from_bits_only _ l v v eq_refl) in H. Qed.
Lemma one_check l v : existsb (fun i => (v =? 2 ^ i)%N) l = true -> one_bit_of l v.
Proof. intros H. apply existsb_exists in H as (i & I & E). exists i. split; [auto|now apply N.eqb_eq]. Qed.
Lemma no_ext_ok l : Forall alg_struct_ok l -> Forall alg_entry_ok (no_ext l).
Proof.
  intros F. apply Forall_forall. intros p I. unfold no_ext in I. apply in_map_iff in I as (a & <- & I). rewrite Forall_forall in F.
  split; [auto|]. exists 0. split; [lia|reflexivity].
Qed.
Lemma sample_exact_requests : Forall exact_request sample_requests.
Proof.
  constructor; [left; reflexivity|]. constructor; [right; left; exists 12%N, sample_own_q; reflexivity|].
  constructor.
  { right; right; left. exists (skipn 2 (sample_request 2)), (mkNA 1 0x10 7 4 own_structs). split; [|reflexivity].
    exists 48%N, [], [], (no_ext own_structs). split; [lia|]. split; [exists 0; split; [lia|reflexivity]|]. split; [exists 0; split; [lia|reflexivity]|].
    split; [apply no_ext_ok, own_structs_ok|]. do 3 (split; [apply bits_check; reflexivity|]). split; [reflexivity|]. split; [split; [cbn; lia|reflexivity]|].
    reflexivity. }
  constructor; [do 3 right; left; reflexivity|]. constructor; [do 4 right; left; exists 0%N, 0%N, 1024%N; reflexivity|].
  constructor; [do 5 right; exists 0%N, MHNone, (repeat 7%N 32); split; reflexivity|]. constructor.
Qed.
Definition agreed_structs : list AlgorithmRequest := [Dhe 0x02; Aead 0x02; ReqBaseAsym 0x10; KeySchedule 0x01]%N.
Lemma agreed_fmt : algorithms_fmt (skipn 2 (sample_response 2)) agreed_algorithms.
Proof.
  exists 52%N, (no_ext agreed_structs). split; [lia|]. split; [apply no_ext_ok; repeat (constructor; [apply bits_check; reflexivity|]); constructor|].
  split; [repeat (constructor; [apply one_check; reflexivity|]); constructor|]. do 4 (split; [apply one_check; reflexivity|]).
  split; [reflexivity|]. split; [split; [cbn; lia|reflexivity]|]. reflexivity.
Qed.
Lemma sample_exact_responses : Forall (exact_response 32 64) sample_responses.
Proof.
  constructor; [left; exists [mkVE 1 0 0 0; mkVE 1 1 0 0]; reflexivity|]. constructor; [right; left; exists 12%N, sample_own_r; reflexivity|].
  constructor; [right; right; left; exists (skipn 2 (sample_response 2)), agreed_algorithms; split; [exact agreed_fmt|reflexivity]|].
  constructor; [do 3 right; left|].
  { exists 9%N, (fun i => if i =? 0 then repeat 130%N 32 else repeat 164%N 32). split; [intros i; destruct (i =? 0); reflexivity|reflexivity]. }
  constructor; [do 4 right; left; exists 0%N, (chain_bytes (sample_chain 5)), 0%N; split; reflexivity|].
  constructor; [|constructor]. do 5 right.
  exists (mkChallengeAuth 0 9 false (repeat 130%N 32) (repeat 6%N 32) (zeros 32) [] (skipn (length (sample_response 5) - 64) (sample_response 5))), 0%N, 4%N.
  split; [|reflexivity]. split; [reflexivity|]. split; [cbn; lia|]. split; [reflexivity|]. split; [reflexivity|]. split; [reflexivity|].
  split; [|reflexivity]. split; [constructor|split; [apply Nat.leb_le; reflexivity|reflexivity]].
Qed.
Example C40_example :
  req_setting /\ setting sample_slots /\ req_session [1; 2; 3]%N (as_events sample_exchanges) (driven_R 6) /\
  selected (as_events sample_exchanges) agreed_algorithms /\ sig_len (al_base_asym agreed_algorithms) = Some 64 /\
  session sample_slots sample_exchanges (served_R sample_requests) /\
  rsp_state (served_R sample_requests) = Some (RspChallenge (mkRspId 12 sample_own_q 12 sample_own_r agreed_algorithms)) /\
  code (snd (last sample_exchanges ([], []))) = 0x03%N /\ code (fst (last sample_exchanges ([], []))) = 0x83%N /\
  Forall (exact_response (hash_len (al_base_hash agreed_algorithms)) 64) (map snd sample_exchanges) /\ Forall exact_request (map fst sample_exchanges) /\
  t_get (req_transcript (driven_R 6)) = t_get (rsp_transcript (served_R sample_requests)).
Proof.
  refine (conj sample_req_setting (conj sample_setting (conj _ (conj _ (conj eq_refl (conj _ (conj _ (conj eq_refl (conj eq_refl (conj _ (conj _ _))))))))))).
  - replace (as_events sample_exchanges) with (driven_ev 6) by (vm_compute; reflexivity). apply driven_session. lia.
  - exists (sample_response 2), (skipn 2 (sample_response 2)). split; [vm_compute; auto|]. split; [apply bytes_check; reflexivity|].
    split; [exists []; reflexivity|exact agreed_fmt].
  - replace sample_exchanges with (served_ex sample_requests) by (vm_compute; reflexivity).
    apply served_session; [reflexivity|apply bytes_all; reflexivity|vm_compute; discriminate].
  - vm_compute. reflexivity.
  - exact sample_exact_responses.
  - exact sample_exact_requests.
  - vm_compute. reflexivity.
Qed.
Print Assumptions C40_agreement_partial.
Print Assumptions C40_refuted.
