(** The table of protocol upgrades and the rules selected by it.

    Numbers are Go's uint32 and uint64 values.  Names are lists of bytes.  A map iteration
    followed by a sort by version is modelled by an insertion sort: the versions are the keys
    of the map, so they are distinct and the sorted order is unique. *)
From Coq Require Import String ZArith List Bool Lia.
From Verif Require Import Lib VmModel.
Import ListNotations.
Open Scope Z_scope.

(** UpgradePoint: common/upgrade/face.go:12-16. *)
Record point := Pt { p_name : list Z; p_height : Z; p_version : Z }.
(** upgradeBox: common/upgrade/upgrade.go:8-12.  The height map only ever holds true. *)
Record box := Box { b_map : list (Z * point); b_heights : list Z; b_sorted : list point }.
(** EndlessHeight: common/upgrade/face.go:31. *)
Definition endless : Z := 1000000000.

(** sortPoints and byVersion: common/upgrade/upgrade.go:114-127. *)
Fixpoint place_point (p : point) (l : list point) : list point :=
  match l with
  | [] => [p]
  | q :: r => if p_version q <? p_version p then q :: place_point p r else p :: l
  end.
Definition sort_points (m : list (Z * point)) : list point := fold_right place_point [] (map snd m).

(** checkBox: common/upgrade/upgrade.go:14-25.  False is the panic. *)
Fixpoint check_from (index last : Z) (l : list point) : bool :=
  match l with
  | [] => true
  | e :: r =>
      if negb (index =? p_version e - 1) then false
      else if p_height e <? last then false
      else check_from (index + 1) (p_height e) r
  end.

Section Text.
(** [dec v] is the decimal text of a version (fmt.Sprintf of percent d). *)
Context (dec : Z -> list Z).
(** The name given to a point without one: common/upgrade/upgrade.go:29-31. *)
Definition name_point (p : point) : point :=
  match p_name p with [] => Pt (dec (p_version p)) (p_height p) (p_version p) | _ :: _ => p end.
(** initFromArray: common/upgrade/upgrade.go:27-36. *)
Definition init_step (acc : list (Z * point) * list Z) (v : point) : list (Z * point) * list Z :=
  (assoc_set (p_version v) (name_point v) (fst acc), p_height v :: snd acc).
Definition init_box (points : list point) : box :=
  let '(m, hs) := fold_left init_step points ([], []) in Box m hs (sort_points m).
(** newUpgradeBox: common/upgrade/upgrade.go:103-112.  None is the panic of checkBox. *)
Definition new_box (points : list point) : option box :=
  let b := init_box points in
  if check_from 0 0 (b_sorted b) then Some b else None.
(** NewCustomUpgradeBox: common/upgrade/upgrade_init.go:140-149.  [entries] lists the entries
    of the configured map in the order in which the iteration visits them. *)
Definition custom_box (entries : list (list Z * point)) : option box :=
  new_box (map (fun e => match p_name (snd e) with
                         | [] => Pt (fst e) (p_height (snd e)) (p_version (snd e))
                         | _ :: _ => snd e end) entries).
(** InitUpgradeBox: common/upgrade/face.go:48-56.  The table in use is rebuilt from the points
    of the given one, and checked again. *)
Definition install (b : box) : option box := new_box (b_sorted b).
End Text.

(** AddPoint: common/upgrade/upgrade.go:38-46.  None is the panic; version-1 is a uint32. *)
Definition add_point (b : box) (version height : Z) : option box :=
  if (0 <? zlen (b_map b)) &&
     match assoc ((version - 1) mod 4294967296) (b_map b) with None => true | Some _ => false end
  then None
  else let m := assoc_set version (Pt [] height version) (b_map b) in
       Some (Box m (height :: b_heights b) (sort_points m)).

(** latestPoint and currentPoint: common/upgrade/upgrade.go:48-70.  Both keep the last point
    of the longest prefix satisfying a test. *)
Fixpoint last_while (ok : point -> bool) (found : option point) (l : list point) : option point :=
  match l with
  | [] => found
  | v :: r => if ok v then last_while ok (Some v) r else found
  end.
Definition latest_point (b : box) : option point :=
  last_while (fun v => p_height v <? endless) None (b_sorted b).
Definition current_point (b : box) (height : Z) : option point :=
  last_while (fun v => p_height v <=? height) None (b_sorted b).
(** activePoints: common/upgrade/upgrade.go:72-80. *)
Definition active_points (b : box) (height : Z) : list point :=
  filter (fun v => p_height v <=? height) (b_sorted b).
(** getUpgradePoint: common/upgrade/upgrade.go:82-84. *)
Definition get_point (b : box) (version : Z) : option point := assoc version (b_map b).
(** isActive: common/upgrade/upgrade.go:86-92. *)
Definition is_active (b : box) (version height : Z) : bool :=
  match assoc version (b_map b) with
  | None => false
  | Some p => p_height p <=? height
  end.
(** isPoint: common/upgrade/upgrade.go:94-97. *)
Definition is_point (b : box) (height : Z) : bool := existsb (Z.eqb height) (b_heights b).

(** IsSeedUpgrade … IsVersionXUpgrade: common/upgrade/face.go:96-192. *)
Definition is_seed b h := is_active b 1 h.
Definition is_dex b h := is_active b 2 h.
Definition is_dex_fee b h := is_active b 3 h.
Definition is_stem b h := is_active b 4 h.
Definition is_leaf b h := is_active b 5 h.
Definition is_earth b h := is_active b 6 h.
Definition is_dex_mining b h := is_active b 7 h.
Definition is_dex_robot b h := is_active b 8 h.
Definition is_dex_stable_market b h := is_active b 9 h.
Definition is_version10 b h := is_active b 10 h.
Definition is_version11 b h := is_active b 11 h.
Definition is_version12 b h := is_active b 12 h.
Definition is_version13 b h := is_active b 13 h.
Definition is_versionX b h := is_active b 14 h.
(** GetLeafUpgradePoint: common/upgrade/face.go:144-147.  None is the nil dereference. *)
Definition leaf_point (b : box) : option point := get_point b 5.

(** The quota tables of vm/util/quota.go:249-268, by the name of the Go variable. *)
Inductive quota_table := QInit | QVite | QDexAgent | QEarth | QDexRobot | QDexStableMarket
  | QVersion10 | QVersion11 | QVersionX.
(** QuotaTableByHeight: vm/util/quota.go:248-268. *)
Definition quota_table_by_height (b : box) (h : Z) : quota_table :=
  if is_versionX b h then QVersionX
  else if is_version11 b h then QVersion11
  else if is_version10 b h then QVersion10
  else if is_dex_stable_market b h then QDexStableMarket
  else if is_dex_robot b h then QDexRobot
  else if is_earth b h then QEarth
  else if is_stem b h then QDexAgent
  else if is_dex b h then QVite
  else QInit.

(** The built-in contract sets of vm/contracts/contracts.go:46-250. *)
Inductive contract_set := CSimple | CDex | CDexAgent | CLeaf | CEarth | CDexRobot
  | CDexStableMarket | CDexEnrichOrder | CDexCrossTransfer.
(** The choice of the set in GetBuiltinContractMethod: vm/contracts/contracts.go:252-273. *)
Definition contract_set_by_height (b : box) (h : Z) : contract_set :=
  if is_versionX b h then CDexCrossTransfer
  else if is_version11 b h then CDexEnrichOrder
  else if is_dex_stable_market b h then CDexStableMarket
  else if is_dex_robot b h then CDexRobot
  else if is_earth b h then CEarth
  else if is_leaf b h then CLeaf
  else if is_stem b h then CDexAgent
  else if is_dex b h then CDex
  else CSimple.

(** The built-in contracts: common/types/address.go. *)
Inductive builtin := AQuota | AGovernance | AAsset | ADexFund | ADexTrade.
Definition builtin_eqb (a b : builtin) : bool :=
  match a, b with
  | AQuota, AQuota | AGovernance, AGovernance | AAsset, AAsset | ADexFund, ADexFund | ADexTrade, ADexTrade => true
  | _, _ => false
  end.
(** An entry of a contract's method map: contract, name of the ABI method, name of the Go type
    that implements it. *)
Definition entry := (builtin * string * string)%type.
(** newSimpleContracts: vm/contracts/contracts.go:68-100. *)
Definition m_Simple : list entry :=
  [(AQuota, "Pledge"%string, "MethodStake"%string);
   (AQuota, "CancelPledge"%string, "MethodCancelStake"%string);
   (AGovernance, "Register"%string, "MethodRegister"%string);
   (AGovernance, "CancelRegister"%string, "MethodRevoke"%string);
   (AGovernance, "Reward"%string, "MethodWithdrawReward"%string);
   (AGovernance, "UpdateRegistration"%string, "MethodUpdateBlockProducingAddress"%string);
   (AGovernance, "Vote"%string, "MethodVote"%string);
   (AGovernance, "CancelVote"%string, "MethodCancelVote"%string);
   (AAsset, "Mint"%string, "MethodIssue"%string);
   (AAsset, "Issue"%string, "MethodReIssue"%string);
   (AAsset, "Burn"%string, "MethodBurn"%string);
   (AAsset, "Burn2"%string, "MethodBurn2"%string);
   (AAsset, "TransferOwner"%string, "MethodTransferOwnership"%string);
   (AAsset, "ChangeTokenType"%string, "MethodDisableReIssue"%string)].
(** newDexContracts: vm/contracts/contracts.go:101-141. *)
Definition add_Dex : list entry :=
  [(AQuota, "AgentPledge"%string, "MethodDelegateStake"%string);
   (AQuota, "AgentCancelPledge"%string, "MethodCancelDelegateStake"%string);
   (AAsset, "GetTokenInfo"%string, "MethodGetTokenInfo"%string);
   (ADexFund, "DexFundUserDeposit"%string, "MethodDexFundDeposit"%string);
   (ADexFund, "DexFundUserWithdraw"%string, "MethodDexFundWithdraw"%string);
   (ADexFund, "DexFundNewMarket"%string, "MethodDexFundOpenNewMarket"%string);
   (ADexFund, "DexFundNewOrder"%string, "MethodDexFundPlaceOrder"%string);
   (ADexFund, "DexFundSettleOrders"%string, "MethodDexFundSettleOrders"%string);
   (ADexFund, "DexFundPeriodJob"%string, "MethodDexFundTriggerPeriodJob"%string);
   (ADexFund, "DexFundPledgeForVx"%string, "MethodDexFundStakeForMining"%string);
   (ADexFund, "DexFundPledgeForVip"%string, "MethodDexFundStakeForVIP"%string);
   (ADexFund, "AgentPledgeCallback"%string, "MethodDexFundDelegateStakeCallback"%string);
   (ADexFund, "AgentCancelPledgeCallback"%string, "MethodDexFundCancelDelegateStakeCallback"%string);
   (ADexFund, "GetTokenInfoCallback"%string, "MethodDexFundGetTokenInfoCallback"%string);
   (ADexFund, "DexFundOwnerConfig"%string, "MethodDexFundDexAdminConfig"%string);
   (ADexFund, "DexFundOwnerConfigTrade"%string, "MethodDexFundTradeAdminConfig"%string);
   (ADexFund, "DexFundMarketOwnerConfig"%string, "MethodDexFundMarketAdminConfig"%string);
   (ADexFund, "DexFundTransferTokenOwner"%string, "MethodDexFundTransferTokenOwnership"%string);
   (ADexFund, "NotifyTime"%string, "MethodDexFundNotifyTime"%string);
   (ADexFund, "DexFundNewInviter"%string, "MethodDexFundCreateNewInviter"%string);
   (ADexFund, "DexFundBindInviteCode"%string, "MethodDexFundBindInviteCode"%string);
   (ADexFund, "DexFundEndorseVx"%string, "MethodDexFundEndorseVx"%string);
   (ADexFund, "DexFundSettleMakerMinedVx"%string, "MethodDexFundSettleMakerMinedVx"%string);
   (ADexTrade, "DexTradeNewOrder"%string, "MethodDexTradePlaceOrder"%string);
   (ADexTrade, "DexTradeCancelOrder"%string, "MethodDexTradeCancelOrder"%string);
   (ADexTrade, "DexTradeNotifyNewMarket"%string, "MethodDexTradeSyncNewMarket"%string);
   (ADexTrade, "DexTradeCleanExpireOrders"%string, "MethodDexTradeClearExpiredOrders"%string)].
Definition m_Dex : list entry := m_Simple ++ add_Dex.
(** newDexAgentContracts: vm/contracts/contracts.go:143-150. *)
Definition add_DexAgent : list entry :=
  [(ADexFund, "DexFundPledgeForSuperVip"%string, "MethodDexFundStakeForSVIP"%string);
   (ADexFund, "DexFundConfigMarketsAgent"%string, "MethodDexFundConfigMarketAgents"%string);
   (ADexFund, "DexFundNewAgentOrder"%string, "MethodDexFundPlaceAgentOrder"%string);
   (ADexTrade, "DexTradeCancelOrderByHash"%string, "MethodDexTradeCancelOrderByTransactionHash"%string)].
Definition m_DexAgent : list entry := m_Dex ++ add_DexAgent.
(** newLeafContracts: vm/contracts/contracts.go:152-199. *)
Definition add_Leaf : list entry :=
  [(AQuota, "Stake"%string, "MethodStake"%string);
   (AQuota, "CancelStake"%string, "MethodCancelStake"%string);
   (AQuota, "DelegateStake"%string, "MethodDelegateStake"%string);
   (AQuota, "CancelDelegateStake"%string, "MethodCancelDelegateStake"%string);
   (AGovernance, "UpdateBlockProducingAddress"%string, "MethodUpdateBlockProducingAddress"%string);
   (AGovernance, "Revoke"%string, "MethodRevoke"%string);
   (AGovernance, "WithdrawReward"%string, "MethodWithdrawReward"%string);
   (AAsset, "IssueToken"%string, "MethodIssue"%string);
   (AAsset, "ReIssue"%string, "MethodReIssue"%string);
   (AAsset, "DisableReIssue"%string, "MethodDisableReIssue"%string);
   (AAsset, "TransferOwnership"%string, "MethodTransferOwnership"%string);
   (ADexFund, "Deposit"%string, "MethodDexFundDeposit"%string);
   (ADexFund, "Withdraw"%string, "MethodDexFundWithdraw"%string);
   (ADexFund, "OpenNewMarket"%string, "MethodDexFundOpenNewMarket"%string);
   (ADexFund, "PlaceOrder"%string, "MethodDexFundPlaceOrder"%string);
   (ADexFund, "SettleOrders"%string, "MethodDexFundSettleOrders"%string);
   (ADexFund, "TriggerPeriodJob"%string, "MethodDexFundTriggerPeriodJob"%string);
   (ADexFund, "StakeForMining"%string, "MethodDexFundStakeForMining"%string);
   (ADexFund, "StakeForVIP"%string, "MethodDexFundStakeForVIP"%string);
   (ADexFund, "DelegateStakeCallback"%string, "MethodDexFundDelegateStakeCallback"%string);
   (ADexFund, "CancelDelegateStakeCallback"%string, "MethodDexFundCancelDelegateStakeCallback"%string);
   (ADexFund, "DexAdminConfig"%string, "MethodDexFundDexAdminConfig"%string);
   (ADexFund, "TradeAdminConfig"%string, "MethodDexFundTradeAdminConfig"%string);
   (ADexFund, "MarketAdminConfig"%string, "MethodDexFundMarketAdminConfig"%string);
   (ADexFund, "TransferTokenOwnership"%string, "MethodDexFundTransferTokenOwnership"%string);
   (ADexFund, "CreateNewInviter"%string, "MethodDexFundCreateNewInviter"%string);
   (ADexFund, "BindInviteCode"%string, "MethodDexFundBindInviteCode"%string);
   (ADexFund, "EndorseVx"%string, "MethodDexFundEndorseVx"%string);
   (ADexFund, "SettleMakerMinedVx"%string, "MethodDexFundSettleMakerMinedVx"%string);
   (ADexTrade, "PlaceOrder"%string, "MethodDexTradePlaceOrder"%string);
   (ADexTrade, "CancelOrder"%string, "MethodDexTradeCancelOrder"%string);
   (ADexTrade, "SyncNewMarket"%string, "MethodDexTradeSyncNewMarket"%string);
   (ADexTrade, "ClearExpiredOrders"%string, "MethodDexTradeClearExpiredOrders"%string);
   (ADexFund, "StakeForSVIP"%string, "MethodDexFundStakeForSVIP"%string);
   (ADexFund, "ConfigMarketAgents"%string, "MethodDexFundConfigMarketAgents"%string);
   (ADexFund, "PlaceAgentOrder"%string, "MethodDexFundPlaceAgentOrder"%string);
   (ADexTrade, "CancelOrderByTransactionHash"%string, "MethodDexTradeCancelOrderByTransactionHash"%string)].
Definition m_Leaf : list entry := m_DexAgent ++ add_Leaf.
(** newEarthContracts: vm/contracts/contracts.go:201-224. *)
Definition add_Earth : list entry :=
  [(AAsset, "GetTokenInformation"%string, "MethodGetTokenInfo"%string);
   (AGovernance, "RegisterSBP"%string, "MethodRegister"%string);
   (AGovernance, "UpdateSBPBlockProducingAddress"%string, "MethodUpdateBlockProducingAddress"%string);
   (AGovernance, "UpdateSBPRewardWithdrawAddress"%string, "MethodUpdateRewardWithdrawAddress"%string);
   (AGovernance, "RevokeSBP"%string, "MethodRevoke"%string);
   (AGovernance, "WithdrawSBPReward"%string, "MethodWithdrawReward"%string);
   (AGovernance, "VoteForSBP"%string, "MethodVote"%string);
   (AGovernance, "CancelSBPVoting"%string, "MethodCancelVote"%string);
   (ADexFund, "LockVxForDividend"%string, "MethodDexFundLockVxForDividend"%string);
   (ADexFund, "SwitchConfig"%string, "MethodDexFundSwitchConfig"%string);
   (ADexFund, "StakeForPrincipalSVIP"%string, "MethodDexFundStakeForPrincipalSVIP"%string);
   (ADexFund, "CancelStakeById"%string, "MethodDexFundCancelStakeById"%string);
   (ADexFund, "StakeForQuotaWithCallbackCallback"%string, "MethodDexFundDelegateStakeCallbackV2"%string);
   (ADexFund, "CancelQuotaStakingWithCallbackCallback"%string, "MethodDexFundCancelDelegateStakeCallbackV2"%string);
   (AQuota, "StakeForQuota"%string, "MethodStakeV3"%string);
   (AQuota, "CancelQuotaStaking"%string, "MethodCancelStakeV3"%string);
   (AQuota, "StakeForQuotaWithCallback"%string, "MethodStakeV3"%string);
   (AQuota, "CancelQuotaStakingWithCallback"%string, "MethodCancelStakeV3"%string)].
Definition m_Earth : list entry := m_Leaf ++ add_Earth.
(** newDexRobotContracts: vm/contracts/contracts.go:226-231. *)
Definition add_DexRobot : list entry :=
  [(ADexFund, "CancelOrderBySendHash"%string, "MethodDexCancelOrderBySendHash"%string);
   (ADexTrade, "InnerCancelOrderBySendHash"%string, "MethodDexTradeInnerCancelOrderBySendHash"%string)].
Definition m_DexRobot : list entry := m_Earth ++ add_DexRobot.
(** newDexStableMarketContracts: vm/contracts/contracts.go:233-237. *)
Definition add_DexStableMarket : list entry :=
  [(ADexFund, "CommonAdminConfig"%string, "MethodDexCommonAdminConfig"%string)].
Definition m_DexStableMarket : list entry := m_DexRobot ++ add_DexStableMarket.
(** newDexEnrichOrderContracts: vm/contracts/contracts.go:239-243. *)
Definition add_DexEnrichOrder : list entry :=
  [(ADexFund, "Transfer"%string, "MethodDexTransfer"%string)].
Definition m_DexEnrichOrder : list entry := m_DexStableMarket ++ add_DexEnrichOrder.
(** newDexCrossTransferContracts: vm/contracts/contracts.go:245-250. *)
Definition add_DexCrossTransfer : list entry :=
  [(ADexFund, "AgentDeposit"%string, "MethodDexAgentDeposit"%string);
   (ADexFund, "AssignedWithdraw"%string, "MethodDexAssignedWithdraw"%string)].
Definition m_DexCrossTransfer : list entry := m_DexEnrichOrder ++ add_DexCrossTransfer.
(** The method map of each set; the variables of vm/contracts/contracts.go:56-66. *)
Definition methods (s : contract_set) : list entry :=
  match s with
  | CSimple => m_Simple
  | CDex => m_Dex
  | CDexAgent => m_DexAgent
  | CLeaf => m_Leaf
  | CEarth => m_Earth
  | CDexRobot => m_DexRobot
  | CDexStableMarket => m_DexStableMarket
  | CDexEnrichOrder => m_DexEnrichOrder
  | CDexCrossTransfer => m_DexCrossTransfer
  end.
(** A lookup in a set's maps.  An assignment to an existing key would replace it, so the last
    entry wins. *)
Definition lookup (l : list entry) (a : builtin) (name : string) : option string :=
  fold_left (fun r e => let '(a', n', i) := e in
                        if builtin_eqb a a' && String.eqb name n' then Some i else r) l None.
(** GetBuiltinContractMethod: vm/contracts/contracts.go:252-286, for a method of the
    contract's ABI (the name stands for the four-byte selector).  None is
    ErrAbiMethodNotFound, or an address that is not yet a built-in contract. *)
Definition builtin_method (b : box) (a : builtin) (name : string) (h : Z) : option string :=
  lookup (methods (contract_set_by_height b h)) a name.

(** The version written in a new snapshot block: producer/tools.go:53-55.  None is the nil
    dereference; before the Leaf upgrade the field stays zero. *)
Definition snapshot_version (b : box) (height : Z) : option Z :=
  if is_leaf b height then option_map p_version (latest_point b) else Some 0.

(** The points of NewLatestUpgradeBox: common/upgrade/upgrade_init.go:4-63; no names. *)
Definition latest_points : list point :=
  map (fun v => Pt [] 1 v) [1; 2; 3; 4; 5; 6; 7; 8; 9; 10; 11; 12; 13; 14].
(** The points of NewMainnetUpgradeBox: common/upgrade/upgrade_init.go:65-138.  The names are
    left out: the theorems about this table are about heights and versions. *)
Definition mainnet_points : list point :=
  [Pt [83] 3488471 1; Pt [68] 5442723 2; Pt [70] 8013367 3; Pt [84] 8403110 4; Pt [76] 9413600 5;
   Pt [69] 16634530 6; Pt [77] 17142720 7; Pt [82] 31305900 8; Pt [66] 39694000 9;
   Pt [48] 77106666 10; Pt [49] 101320000 11; Pt [50] 116480000 12; Pt [51] 166869900 13;
   Pt [88] endless 14].
