(** C93: no transcript is signed twice. *)
From Verif Require Import Base BaseLemmas Config Encoding MsgCommon MsgVersion MsgCapabilities MsgAlgorithms MsgDigest
     MsgCertificates MsgChallenge MsgError Transcript Crypto Responder Requester SpecWire SpecMsgs SpecResponder SpecRequester SpecAuth SpecCryptoUse
     PropTools PropTranscript RspParts RspStep PropResponder PropRspState Sample SampleRun PropSummary.

#[local] Opaque chain_bytes.
#[local] Arguments Nat.leb : simpl never.

Section SignOnce.
Context {cfg : Config} {cr : Crypto}.

(** [signs R rnd req h slot data]: handling the CHALLENGE [req], a responder whose
    session selected the SHA-2 hash [h] uses the key of [slot] for [data]: the messages
    so far, this one, and the answer up to the signature.  (With any other hash there
    is nothing to sign: no digest can be computed, C82, C32.) *)
Definition signs (R : Responder) (rnd : Rnd) (req : list N) (h : N) (slot : nat) (data : list N) : Prop :=
  sha2 h /\ exists s n t nonce filled mask,
    rsp_state R = Some (RspChallenge s) /\ al_base_hash (ri_algorithms s) = h /\ slot = N.to_nat n /\
    starts_with ([0x11; 0x83]%N ++ challenge_layout n t nonce) req /\ nonce_ok nonce /\
    nth_error (rsp_slots R) slot = Some (Some filled) /\ mask_of_slots (rsp_slots R) mask /\
    data = t_get (rsp_transcript R) ++ req ++ unsigned_auth s (rsp_slots R) n mask (wire_nonce (rnd_nonce rnd)).

(** These are all the uses of keys (C82). *)
Theorem C93_keys_used R rnd req slot r msg : rsp_asks R rnd req (SignWith slot r msg) ->
  (forall s, rsp_state R = Some (RspChallenge s) -> sha2 (al_base_hash (ri_algorithms s))) ->
  exists h data, signs R rnd req h slot data /\ msg = sha h data.
Proof.
  unfold rsp_asks. destruct (rsp_state R) as [st|] eqn:E1; [|tauto]. destruct st as [| |s|s|s|s]; try tauto.
  { intros (_ & i & c & _ & X). discriminate X. }
  intros (n & t & nonce & filled & mask & W & O & NT & M & Q) S. cbv zeta in Q. destruct Q as [Q|[Q|Q]]; try discriminate Q.
  injection Q as -> _ ->. eexists _, _. split; [|reflexivity]. split; [exact (S s eq_refl)|]. exists s, n, t, nonce, filled, mask. rewrite E1. auto 10.
Qed.

Lemma same_end (a b u v : list N) : length u = length v -> a ++ u = b ++ v -> u = v.
Proof.
  intros HL E. assert (length a = length b) by (apply (f_equal (@length N)) in E; rewrite !app_length in E; lia).
  revert b E H. induction a as [|x a IH]; intros [|y b] E L; try discriminate L; [exact E|]. injection E as _ E. injection L as L. eauto.
Qed.
Lemma app_split (a b u v : list N) : length a = length b -> a ++ u = b ++ v -> a = b /\ u = v.
Proof.
  revert b. induction a as [|x a IH]; intros [|y b] L E; try discriminate L; [auto|]. injection E as -> E. injection L as L.
  destruct (IH b L E) as [-> ->]. auto.
Qed.
Lemma hash_len_inj h h' : sha2 h -> sha2 h' -> hash_len h = hash_len h' -> h = h'.
Proof. intros [->|[->| ->]] [->|[->| ->]]; intros X; try reflexivity; discriminate X. Qed.
Lemma unsigned_parts s1 s2 slots1 slots2 i1 i2 mask1 mask2 n1 n2 :
  setting slots1 -> setting slots2 -> sha2 (al_base_hash (ri_algorithms s1)) -> al_base_hash (ri_algorithms s1) = al_base_hash (ri_algorithms s2) ->
  length n1 = length n2 ->
  let u1 := unsigned_auth s1 slots1 i1 mask1 n1 in let u2 := unsigned_auth s2 slots2 i2 mask2 n2 in
  length u1 = length u2 /\
  (u1 = u2 -> n1 = n2 /\ mask1 = mask2 /\
    slot_chain_digest (al_base_hash (ri_algorithms s1)) slots1 (N.to_nat i1) = slot_chain_digest (al_base_hash (ri_algorithms s1)) slots2 (N.to_nat i2)).
Proof.
  intros H1 H2 HA EH LN. unfold unsigned_auth, challenge_auth_layout. rewrite <- EH.
  set (h := al_base_hash (ri_algorithms s1)) in *.
  assert (LD1 : length (slot_chain_digest h slots1 (N.to_nat i1)) = hash_len h) by (destruct H1 as (_ & _ & HC); apply (HC _ _ HA)).
  assert (LD2 : length (slot_chain_digest h slots2 (N.to_nat i2)) = hash_len h) by (destruct H2 as (_ & _ & HC); apply (HC _ _ HA)).
  set (D1 := slot_chain_digest h slots1 _) in *. set (D2 := slot_chain_digest h slots2 _) in *. cbv zeta. split.
  - rewrite !app_length, LD1, LD2, LN. reflexivity.
  - intros E. cbn [app] in E. injection E as _ EM E. apply app_split in E as [ED E]; [|congruence]. apply app_split in E as [EN _]; auto.
Qed.
Lemma nonce_wire_len rnd : rnd_ok rnd -> length (wire_nonce (rnd_nonce rnd)) = nonce_len.
Proof. intros [RA _]. unfold wire_nonce, nonce_len. destruct feature_rand; [exact RA|reflexivity]. Qed.

(** The same is signed twice (by any keys, in any slots, of any two responders of a
    build or of one and the same, after any histories, in answer to any CHALLENGEs,
    framed in any way) only if both answers carry the same nonce and the digest of
    the same chain, or of two chains that collide. *)
Theorem C93_same_signed_same_answer slots1 slots2 R1 R2 rnd1 rnd2 req1 req2 h1 h2 i1 i2 data1 data2 :
  setting slots1 -> setting slots2 -> reached slots1 R1 -> reached slots2 R2 -> rnd_ok rnd1 -> rnd_ok rnd2 ->
  signs R1 rnd1 req1 h1 i1 data1 -> signs R2 rnd2 req2 h2 i2 data2 ->
  sha h1 data1 = sha h2 data2 ->
  h1 = h2 /\
  (collision h1 data1 data2 \/
   data1 = data2 /\ wire_nonce (rnd_nonce rnd1) = wire_nonce (rnd_nonce rnd2) /\
   exists c1 c2, slot_chain slots1 i1 = Some c1 /\ slot_chain slots2 i2 = Some c2 /\
     (chain_bytes c1 = chain_bytes c2 \/ collision h1 (chain_bytes c1) (chain_bytes c2))).
Proof.
  intros HS1 HS2 HR1 HR2 RK1 RK2 (A1 & s1 & j1 & t1 & n1 & f1 & m1 & ES1 & EH1 & -> & W1 & O1 & NT1 & M1 & E1)
    (A2 & s2 & j2 & t2 & n2 & f2 & m2 & ES2 & EH2 & -> & W2 & O2 & NT2 & M2 & E2) EM.
  rewrite (proj1 (reached_ok _ _ HR1)) in *. rewrite (proj1 (reached_ok _ _ HR2)) in *.
  assert (EL : hash_len h1 = hash_len h2).
  { destruct HS1 as (_ & _ & HC). apply (f_equal (@length N)) in EM. now rewrite (proj1 (HC h1 _ A1)), (proj1 (HC h2 _ A2)) in EM. }
  apply (hash_len_inj _ _ A1 A2) in EL. split; [exact EL|]. rewrite <- EL in EM, EH2. clear EL.
  destruct (list_eq_dec N.eq_dec data1 data2) as [E|NE]; [right|left; split; auto].
  split; [exact E|]. rewrite E1, E2, !app_assoc in E.
  assert (EH : al_base_hash (ri_algorithms s1) = al_base_hash (ri_algorithms s2)) by congruence.
  rewrite <- EH1 in A1.
  destruct (unsigned_parts s1 s2 slots1 slots2 j1 j2 m1 m2 (wire_nonce (rnd_nonce rnd1)) (wire_nonce (rnd_nonce rnd2)) HS1 HS2 A1 EH) as [LU EU].
  { rewrite !nonce_wire_len by assumption. reflexivity. }
  apply same_end in E; [|exact LU]. destruct (EU E) as (EN & _ & ED). unfold slot_chain_digest, slot_chain_bytes in ED.
  split; [exact EN|]. unfold slot_chain in *. rewrite NT1, NT2 in *. exists (fs_chain f1), (fs_chain f2). split; [reflexivity|]. split; [reflexivity|].
  destruct (list_eq_dec N.eq_dec (chain_bytes (fs_chain f1)) (chain_bytes (fs_chain f2))) as [|NE]; [now left|right].
  rewrite EH1 in A1, ED. split; auto.
Qed.

(** An answered CHALLENGE: the key of the slot named is used once, and the answer
    ends with its signature. *)
Theorem C93_answer_signs slots R rnd req rsp out rsp' R1 : setting slots -> reached slots R -> bytes req -> rnd_ok rnd ->
  responder_handle_msg R rnd req rsp = (Replied out (Ok tt), rsp', R1) -> code req = 0x83%N ->
  exists h i data filled u sg, signs R rnd req h i data /\ nth_error slots i = Some (Some filled) /\
    out = u ++ sg /\ fs_signer filled (rnd_sign rnd) (sha h data) = Ok sg.
Proof.
  intros HS HR HB RK HH C. pose proof (reached_ok _ _ HR) as [ESL _].
  destruct (step_sound slots R rnd req rsp out rsp' R1 HS HR HB RK HH) as (st & st' & log' & E1 & _ & _ & S & _).
  remember (t_get (rsp_transcript R)) as log0 eqn:EL.
  destruct S as [st log NE (r & ->) | s log ct flags own out (r & ->) OB NM FN ->
    | s log body na al es fs out (r & ->) NF AC -> | s log mask out (r & ->) L MS CF ->
    | s log slot off len out (r & ->) L1 L2 L3 CF -> | s log slot t nonce mask filled ss sg out SW NO NTH CF HU SL LE MS EO SG LS]; try discriminate.
  subst out. eexists _, (N.to_nat slot), _, filled, _, sg. split; [|split; [exact NTH|split; [reflexivity|exact SG]]].
  split; [apply HU|]. exists s, slot, t, nonce, filled, mask. rewrite E1, ESL, <- EL. auto 10.
Qed.

(** The randomness of a call. *)
Definition call_nonce (c : call) : option (list N) :=
  match c with CallHandle rnd _ _ => Some (rnd_nonce rnd) | CallReset => None end.
(** In the life [calls] of a responder, the call at [p] uses the key of [slot] for [data]. *)
Definition signs_at (slots : list (option FilledSlot)) (calls : list call) (p : nat) (h : N) (slot : nat) (data : list N) : Prop :=
  exists rnd req rsp, nth_error calls p = Some (CallHandle rnd req rsp) /\ signs (after (responder_new slots) (firstn p calls)) rnd req h slot data.

Lemma life_reached slots calls p : Forall call_ok calls -> reached slots (after (responder_new slots) (firstn p calls)).
Proof.
  intros F. exists (firstn p calls). split; [|reflexivity]. rewrite <- (firstn_skipn p calls) in F. now apply Forall_app in F as [F _].
Qed.
Lemma call_at calls p rnd req rsp : Forall call_ok calls -> nth_error calls p = Some (CallHandle rnd req rsp) -> rnd_ok rnd.
Proof. intros F E. apply nth_error_In in E. rewrite Forall_forall in F. exact (proj2 (F _ E)). Qed.

(** Two lives of responders: where the nonces drawn differ, what is signed differs,
    and so do the digests, unless these two logs collide. *)
Theorem C93_fresh_nonce_fresh_signature slots1 slots2 calls1 calls2 p1 p2 h1 h2 i1 i2 data1 data2 :
  setting slots1 -> setting slots2 -> Forall call_ok calls1 -> Forall call_ok calls2 -> feature_rand = true ->
  signs_at slots1 calls1 p1 h1 i1 data1 -> signs_at slots2 calls2 p2 h2 i2 data2 ->
  option_map call_nonce (nth_error calls1 p1) <> option_map call_nonce (nth_error calls2 p2) ->
  (h1 = h2 -> data1 <> data2) /\ (sha h1 data1 <> sha h2 data2 \/ collision h1 data1 data2).
Proof.
  intros HS1 HS2 F1 F2 FR (rnd1 & req1 & rsp1 & E1 & A1) (rnd2 & req2 & rsp2 & E2 & A2) NE.
  assert (K : sha h1 data1 = sha h2 data2 -> collision h1 data1 data2).
  { intros EM. destruct (C93_same_signed_same_answer slots1 slots2 _ _ rnd1 rnd2 req1 req2 h1 h2 i1 i2 data1 data2 HS1 HS2
      (life_reached _ _ p1 F1) (life_reached _ _ p2 F2) (call_at _ _ _ _ _ F1 E1) (call_at _ _ _ _ _ F2 E2) A1 A2 EM) as [_ [C|(_ & EN & _)]]; [exact C|].
    exfalso. apply NE. rewrite E1, E2. cbn. unfold wire_nonce in EN. rewrite FR in EN. now rewrite EN. }
  split.
  - intros <- <-. destruct (K eq_refl) as (_ & X & _). now apply X.
  - destruct (list_eq_dec N.eq_dec (sha h1 data1) (sha h2 data2)) as [E|D]; [right; auto|left; exact D].
Qed.
(** One life, in which no nonce is drawn twice: nothing is signed twice. *)
Theorem C93_never_twice slots calls p1 p2 h1 h2 i1 i2 data1 data2 :
  setting slots -> Forall call_ok calls -> feature_rand = true ->
  (forall a b n, nth_error (map call_nonce calls) a = Some (Some n) -> nth_error (map call_nonce calls) b = Some (Some n) -> a = b) ->
  signs_at slots calls p1 h1 i1 data1 -> signs_at slots calls p2 h2 i2 data2 -> p1 <> p2 ->
  (h1 = h2 -> data1 <> data2) /\ (sha h1 data1 <> sha h2 data2 \/ collision h1 data1 data2).
Proof.
  intros HS F FR ND A1 A2 NE. apply (C93_fresh_nonce_fresh_signature slots slots calls calls p1 p2 h1 h2 i1 i2); auto.
  destruct A1 as (rnd1 & req1 & rsp1 & E1 & _), A2 as (rnd2 & req2 & rsp2 & E2 & _). rewrite E1, E2. cbn. intros X. injection X as X.
  apply NE. apply (ND p1 p2 (rnd_nonce rnd1)); rewrite nth_error_map; [rewrite E1|rewrite E2, X]; reflexivity.
Qed.

(** A check that the call at [p] answered a CHALLENGE. *)
Definition challenge_answered (slots : list (option FilledSlot)) (calls : list call) (p : nat) : bool :=
  match nth_error calls p with
  | Some (CallHandle rnd req rsp) =>
    (code req =? 0x83)%N &&
    match responder_handle_msg (after (responder_new slots) (firstn p calls)) rnd req rsp with (Replied _ (Ok tt), _, _) => true | _ => false end
  | _ => false
  end.
Lemma answered_asked slots calls p : setting slots -> Forall call_ok calls -> challenge_answered slots calls p = true ->
  exists h i data, signs_at slots calls p h i data.
Proof.
  intros HS F. unfold challenge_answered. destruct (nth_error calls p) as [[rnd req rsp|]|] eqn:E; try discriminate.
  intros H. apply andb_true_iff in H as [HC HH]. apply N.eqb_eq in HC.
  destruct (responder_handle_msg _ rnd req rsp) as [[rep rsp'] R1] eqn:EH; try discriminate HH. destruct rep as [out [[]| |]|]; try discriminate HH.
  pose proof F as F'. rewrite Forall_forall in F'. destruct (F' _ (nth_error_In _ _ E)) as [HB RK].
  destruct (C93_answer_signs slots _ rnd req rsp out rsp' R1 HS (life_reached slots calls p F) HB RK EH HC) as (h & i & data & _ & _ & _ & A & _).
  exists h, i, data, rnd, req, rsp. auto.
Qed.
End SignOnce.

(** * The hypotheses are met: two sessions with two challenges each, all nonces different *)
#[local] Existing Instance sample_cfg.
#[local] Existing Instance sample_crypto.
Definition once_calls : list call :=
  map (fun x => CallHandle (sample_rnd (N.of_nat (fst x))) (snd x) big_buf) (combine (seq 1 7) sample_twice) ++
  CallReset :: map (fun x => CallHandle (sample_rnd (N.of_nat (fst x))) (snd x) big_buf) (combine (seq 8 7) sample_twice).
Lemma once_calls_ok : Forall call_ok once_calls.
Proof.
  unfold once_calls. apply Forall_app. split; [|constructor; [exact I|]]; apply Forall_map.
  all: apply Forall_forall; intros [k r] HI; split; [|apply sample_rnd_ok].
  1, 3: apply in_combine_r in HI; revert r HI; apply Forall_forall, bytes_all; vm_compute; reflexivity.
  all: apply in_combine_l, in_seq in HI; cbn [fst]; lia.
Qed.
Lemma once_answered : forallb (challenge_answered sample_slots once_calls) [5; 6; 13; 14] = true.
Proof. vm_compute. reflexivity. Qed.
Lemma once_distinct : forall a b n, nth_error (map call_nonce once_calls) a = Some (Some n) -> nth_error (map call_nonce once_calls) b = Some (Some n) -> a = b.
Proof.
  intros a b n Ha Hb. assert (La : a < 15) by (change 15 with (length (map call_nonce once_calls)); apply nth_error_Some; congruence).
  assert (Lb : b < 15) by (change 15 with (length (map call_nonce once_calls)); apply nth_error_Some; congruence).
  assert (K : forallb (fun a => forallb (fun b => (a =? b) || match nth_error (map call_nonce once_calls) a, nth_error (map call_nonce once_calls) b with
     | Some (Some m), Some (Some n) => negb (if list_eq_dec N.eq_dec m n then true else false) | _, _ => true end) (seq 0 15)) (seq 0 15) = true)
    by (vm_compute; reflexivity).
  rewrite forallb_forall in K. specialize (K a (proj2 (in_seq _ _ _) (conj (Nat.le_0_l _) La))). rewrite forallb_forall in K.
  specialize (K b (proj2 (in_seq _ _ _) (conj (Nat.le_0_l _) Lb))). rewrite Ha, Hb in K.
  destruct (list_eq_dec N.eq_dec n n); [|congruence]. rewrite orb_false_r in K. now apply Nat.eqb_eq in K.
Qed.
Example C93_example : setting sample_slots /\ Forall call_ok once_calls /\ feature_rand = true /\
  (forall a b n, nth_error (map call_nonce once_calls) a = Some (Some n) -> nth_error (map call_nonce once_calls) b = Some (Some n) -> a = b) /\
  forall p, In p [5; 6; 13; 14] -> exists h i data, signs_at sample_slots once_calls p h i data.
Proof.
  refine (conj sample_setting (conj once_calls_ok (conj eq_refl (conj once_distinct _)))).
  intros p HP. apply answered_asked; [exact sample_setting|exact once_calls_ok|].
  pose proof once_answered as K. rewrite forallb_forall in K. exact (K p HP).
Qed.
Print Assumptions C93_never_twice.
Print Assumptions C93_same_signed_same_answer.
