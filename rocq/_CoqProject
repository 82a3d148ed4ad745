-Q theories Verif
theories/Lib.v
theories/VmWordModel.v
theories/VmWordSpec.v
theories/VmWordProofs.v
theories/VmWordProps.v
theories/VmJumpModel.v
theories/VmJumpSpec.v
theories/VmJumpProofs.v
theories/VmJumpProps.v
theories/VmModel.v
theories/VmSpec.v
theories/VmProofs.v
theories/VmProofs2.v
theories/VmProofs3.v
theories/VmProps.v
theories/LedgerModel.v
theories/LedgerSpec.v
theories/LedgerProofs.v
theories/LedgerProps.v
theories/ChainModel.v
theories/ChainSpec.v
theories/ChainProofs.v
theories/ChainProofs2.v
theories/ChainProofs3.v
theories/ChainProofs4.v
theories/ChainProofs5.v
theories/ChainLinked.v
theories/ChainProps.v
theories/VmDbModel.v
theories/VmDbSpec.v
theories/VmDbProofs.v
theories/VmDbProofs2.v
theories/VmDbProofs3.v
theories/VmDbProps.v
theories/QuotaTables.v
theories/QuotaModel.v
theories/QuotaSpec.v
theories/QuotaProofs.v
theories/QuotaProofs2.v
theories/QuotaProps.v
theories/QuotaWinModel.v
theories/QuotaWinSpec.v
theories/QuotaWinProofs.v
theories/QuotaWinProofs2.v
theories/QuotaWinProps.v
theories/FlushModel.v
theories/FlushSpec.v
theories/FlushProofs.v
theories/FlushProofs2.v
theories/FlushProps.v
theories/AssetModel.v
theories/AssetSpec.v
theories/AssetProofs.v
theories/AssetProps.v
theories/StakeModel.v
theories/StakeSpec.v
theories/StakeProofs.v
theories/StakeProofs2.v
theories/StakeProps.v
theories/SchedModel.v
theories/SchedSpec.v
theories/SchedProofs.v
theories/SchedProofs2.v
theories/SchedProps.v
theories/StatsModel.v
theories/StatsSpec.v
theories/StatsProofs.v
theories/StatsProofs2.v
theories/StatsProofs3.v
theories/StatsProofs4.v
theories/StatsProofs5.v
theories/StatsProofs6.v
theories/StatsProps.v
theories/GovModel.v
theories/GovSpec.v
theories/GovProofs.v
theories/GovProofs2.v
theories/GovProofs3.v
theories/GovProofs4.v
theories/GovProofs5.v
theories/GovProofs6.v
theories/GovChain.v
theories/GovProps.v
theories/ElectModel.v
theories/ElectSpec.v
theories/ElectProofs.v
theories/ElectProofs2.v
theories/ElectProofs3.v
theories/ElectProps.v
theories/ElectNodes.v
theories/DexFloat.v
theories/DexFloatProofs.v
theories/DexModel.v
theories/DexSpec.v
theories/DexProofs.v
theories/DexProofs2.v
theories/DexProofs3.v
theories/DexProofs4.v
theories/DexProofs5.v
theories/DexProofs6.v
theories/DexProps.v
theories/BatchModel.v
theories/BatchSpec.v
theories/BatchProofs.v
theories/BatchProofs2.v
theories/BatchProofs3.v
theories/BatchProps.v
theories/TextModel.v
theories/TextSpec.v
theories/TextProofs.v
theories/TextProps.v
theories/WireModel.v
theories/WireSpec.v
theories/WireProofs.v
theories/WireProofs2.v
theories/WireProofs3.v
theories/WireProofs4.v
theories/WireProofs5.v
theories/WireProps.v
theories/UpgradeModel.v
theories/UpgradeSpec.v
theories/UpgradeProofs.v
theories/UpgradeProps.v
theories/SeedModel.v
theories/SeedSpec.v
theories/SeedProofs.v
theories/SeedProps.v
theories/AbiModel.v
theories/AbiSpec.v
theories/AbiProofs.v
theories/AbiProofs2.v
theories/AbiProofs3.v
theories/AbiProofs4.v
theories/AbiProps.v
theories/TreeModel.v
theories/TreeSpec.v
theories/TreeProofs.v
theories/TreeProofs2.v
theories/TreeProofs3.v
theories/TreeProofs4.v
theories/TreeProofs5.v
theories/TreeProofs6.v
theories/TreeProofs7.v
theories/TreeProofs8.v
theories/TreeProofs9.v
theories/TreeProofs10.v
theories/TreeProofs11.v
theories/TreeProofs12.v
theories/TreeProofs13.v
theories/TreeProofs14.v
theories/TreeProofs15.v
theories/TreeProps.v
theories/StateModel.v
theories/StateSpec.v
theories/StateProofs.v
theories/StateProofs2.v
theories/StateProofs3.v
theories/StateProofs4.v
theories/StateProofs5.v
theories/StateProofs6.v
theories/StateProofs7.v
theories/StateProofs8.v
theories/StateProofs9.v
theories/StateProps.v
theories/HistModel.v
theories/HistSpec.v
theories/HistProofs.v
theories/HistProps.v
theories/HistChain.v
theories/BlkModel.v
theories/BlkSpec.v
theories/BlkProofs.v
theories/BlkProofs2.v
theories/BlkProofs3.v
theories/BlkProofs4.v
theories/BlkProofs5.v
theories/BlkProofs6.v
theories/BlkProps.v
theories/RoadModel.v
theories/RoadSpec.v
theories/RoadProofs.v
theories/RoadProofs2.v
theories/RoadProofs3.v
theories/RoadProps.v
theories/TurnModel.v
theories/TurnSpec.v
theories/TurnProofs.v
theories/TurnProofs2.v
theories/TurnProofs3.v
theories/TurnProofs4.v
theories/TurnProofs5.v
theories/TurnProofs6.v
theories/TurnProofs7.v
theories/TurnProps.v
theories/IdxModel.v
theories/IdxSpec.v
theories/IdxProofs.v
theories/IdxProofs2.v
theories/IdxProofs3.v
theories/IdxProofs4.v
theories/IdxProofs5.v
theories/IdxProofs6.v
theories/IdxProofs7.v
theories/IdxProofs8.v
theories/IdxProofs9.v
theories/IdxProps.v
theories/DivModel.v
theories/DivSpec.v
theories/DivProofs.v
theories/DivProofs2.v
theories/DivProofs3.v
theories/DivProofs4.v
theories/DivProofs5.v
theories/DivProofs6.v
theories/DivProps.v
theories/PendModel.v
theories/PendSpec.v
theories/PendProofs.v
theories/PendProofs2.v
theories/PendProofs3.v
theories/PendProofs4.v
theories/PendProofs5.v
theories/PendProps.v
theories/NetModel.v
theories/NetSpec.v
theories/NetProofs.v
theories/NetProofs2.v
theories/NetProps.v
theories/PowModel.v
theories/PowProps.v
