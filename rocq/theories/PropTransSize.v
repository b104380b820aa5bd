(** C72: the transcript buffer a run needs.  (The exact condition,
    C72_completes_iff, is proved in PropAgree beside C39.) *)
From Verif Require Import Base BaseLemmas Config ConfigBuild Encoding MsgCommon MsgVersion MsgCapabilities MsgAlgorithms MsgDigest
     MsgCertificates MsgChallenge MsgError Transcript Crypto Responder Requester SpecWire SpecMsgs SpecResponder SpecRequester SpecVerdict SpecAgree
     FlagLemmas PropTools PropTables RspParts ReqPanic PropReqPanic PropReqState PropAgree Sample SampleRun SampleReq.

Lemma run_bytes_bound cq slots ownq ownr f : length slots <= 8 -> run_bytes cq slots ownq ownr f <= 560 + length (chain_bytes (fs_chain f)).
Proof.
  intros L. assert (O : occupied slots <= length slots).
  { unfold occupied. clear. induction slots as [|o l IH]; simpl; [lia|]. destruct o; simpl; lia. }
  unfold run_bytes. destruct (both cert_bit ownq ownr), (both chal_bit ownq ownr), (@feature_rand cq); lia.
Qed.
(** Whatever is in the slots, 560 bytes more than the longest chain suffice. *)
Theorem C72_sufficient cq kq cr kr root slots ownq ownr f ins :
  matched cq kq cr kr root slots ownq ownr f ->
  Forall (input_ok (260 + length (chain_bytes (fs_chain f)))) ins -> length ins = rounds ownq ownr ->
  560 + @MAX_CERT_CHAIN_SIZE cr <= @TRANSCRIPT_SIZE cq -> 560 + @MAX_CERT_CHAIN_SIZE cr <= @TRANSCRIPT_SIZE cr ->
  exists ex Q R, faithful cq kq cr kr root slots ins ex true Q R.
Proof.
  intros HM FA LN TQ TR. apply (C72_completes_iff _ _ _ _ _ _ _ _ _ _ HM FA). split; [exact LN|]. destruct HM.
  destruct (@built_facts cr kr honest_built_r) as (N8 & _).
  pose proof (run_bytes_bound cq slots ownq ownr f ltac:(lia)) as B.
  assert (F : @chain_fits cr (fs_chain f)). { apply (honest_chains 0). unfold slot_chain. now rewrite honest_slot0. }
  destruct F as [F _]. lia.
Qed.

(** * What config.rs documents is not enough *)
(** config.rs.template:16: TRANSCRIPT_SIZE "must be larger than
    MAX_CERT_CHAIN_SIZE".  Here it is, build.rs accepts it, the pair is matched,
    and no run completes. *)
Definition tight_toml : SpdmConfig :=
  mkSpdmConfig 5 256 4 257 ["CERT_CAP"; "CHAL_CAP"]%string 64 ["ECDSA_ECC_NIST_P256"%string] 8 1024 2 16.
Definition tight_cfg : Config := Eval vm_compute in match gen_config true true true tight_toml with Ok c => c | _ => sample_cfg end.
#[local] Existing Instance tight_cfg.
#[local] Existing Instance sample_crypto.
Lemma tight_built : built.
Proof. exists tight_toml. vm_compute. reflexivity. Qed.
Definition tight_q : N := Eval vm_compute in match config_to_get_capabilities_msg with Ok m => gc_flags m | _ => 0%N end.
Definition tight_r : N := Eval vm_compute in match config_to_capabilities_msg with Ok m => cap_flags m | _ => 0%N end.
Lemma tight_matched : matched tight_cfg sample_crypto tight_cfg sample_crypto [1; 2; 3]%N sample_slots tight_q tight_r (sample_slot 5).
Proof.
  assert (HB : gen_config true true true tight_toml = Ok tight_cfg) by reflexivity.
  pose proof (@C44_accepted_config_never_fails sample_crypto _ _ _ _ _ HB) as (_ & _ & _ & (m & E1 & E2) & (m' & E3 & E4) & _).
  change (sc_capabilities tight_toml) with (@CAPABILITIES tight_cfg) in E2, E4.
  constructor.
  - exact tight_built.
  - exact tight_built.
  - exact toy_contract.
  - exact toy_contract.
  - reflexivity.
  - reflexivity.
  - discriminate.
  - vm_compute in E1. injection E1 as <-. exact E2.
  - vm_compute in E3. injection E3 as <-. exact E4.
  - reflexivity.
  - apply Nat.leb_le. reflexivity.
  - apply Nat.leb_le. reflexivity.
  - reflexivity.
  - intros i ch H. 
    assert (FT : forall t, In t [5; 6]%N -> chain_fits (sample_chain t)).
    { intros t [<-|[<-|[]]]; (split; [apply Nat.leb_le; reflexivity|reflexivity]). }
    destruct i as [|[|[|[|[|i]]]]]; cbn in H; try discriminate; [injection H as <-; apply FT; simpl; auto|injection H as <-; apply FT; simpl; auto|].
    unfold slot_chain in H. destruct i; discriminate.
  - split; [apply bytes_check; reflexivity|]. split; [apply Nat.leb_le; reflexivity|]. split; [|intros r digest _ _; apply toy_signs].
    split; [reflexivity|]. split; [|repeat split]. split; [reflexivity|]. split; [|split].
    + constructor; [|constructor; [|constructor]].
      * exists [1; 5; 3]%N. split; reflexivity.
      * exists []. split; reflexivity.
    + exists [5; 9]%N. split; reflexivity.
    + apply Nat.leb_le. reflexivity.
Qed.
Theorem C72_documented_rule_insufficient :
  exists (c : Config) k root slots ownq ownr f, @built c k /\ @MAX_CERT_CHAIN_SIZE c < @TRANSCRIPT_SIZE c /\
    matched c k c k root slots ownq ownr f /\
    forall ins ex Q R, Forall (input_ok (260 + length (chain_bytes (fs_chain f)))) ins ->
      ~ faithful c k c k root slots ins ex true Q R.
Proof.
  exists tight_cfg, sample_crypto, [1; 2; 3]%N, sample_slots, tight_q, tight_r, (sample_slot 5).
  split; [exact tight_built|]. split; [apply Nat.leb_le; reflexivity|]. split; [exact tight_matched|].
  intros ins ex Q R FA H. apply (C72_completes_iff _ _ _ _ _ _ _ _ _ ins tight_matched) in FA as [FA _].
  destruct (FA (ex_intro _ ex (ex_intro _ Q (ex_intro _ R H)))) as (_ & L & _).
  apply Nat.leb_le in L. vm_compute in L. discriminate.
Qed.
(** The hypotheses of the first theorem are met with room (C39_example) and here
    without; the sample pair needs exactly this many bytes. *)
Example C72_example :
  matched sample_cfg sample_crypto sample_cfg sample_crypto [1; 2; 3]%N sample_slots sample_own_q sample_own_r (sample_slot 5) /\
  Forall (input_ok (260 + length (chain_bytes (sample_chain 5)))) (map sample_input [1; 2; 3; 4; 5; 6]%N) /\
  run_bytes sample_cfg sample_slots sample_own_q sample_own_r (sample_slot 5) = 415.
Proof.
  destruct C39_example as ((HM & _) & _ & FA). split; [exact HM|]. split; [exact FA|]. vm_compute. reflexivity.
Qed.
