-Q theories Verif
theories/Bytes.v
theories/BytesProofs.v
theories/Rlp.v
theories/RlpProofs.v
theories/Keccak.v
theories/TxModel.v
theories/TxExamples.v
theories/TxSpec.v
theories/TxProofs.v
theories/TxProofs2.v
theories/TxProps.v
theories/BlockModel.v
theories/BlockProofs.v
theories/BlockProps.v
theories/BloomModel.v
theories/BloomProofs.v
theories/BloomProps.v
theories/PoolModel.v
theories/PoolProofs.v
theories/PoolProofs2.v
theories/PoolProofs3.v
theories/PoolProofs4.v
theories/PoolProofs5.v
theories/PoolProps.v
theories/PoolProps2.v
theories/PoolProps3.v
theories/MempoolModel.v
theories/MempoolProps.v
theories/CellModel.v
theories/CellProofs.v
theories/CellProps.v
theories/MetaModel.v
theories/MetaProofs.v
theories/MetaProps.v
theories/ExecModel.v
theories/ExecProofs.v
theories/ExecProps.v
theories/TrieDbModel.v
theories/TrieDbProps.v
theories/StorageModel.v
theories/StorageProofs.v
theories/StorageProps.v
theories/WalModel.v
theories/WalProps.v
theories/ConsensusModel.v
theories/ConsensusProofs.v
theories/ConsensusProps.v
theories/ConsensusProps2.v
theories/NetModel.v
theories/NetProps.v
theories/RpcProps.v
theories/PeerModel.v
theories/PeerProofs.v
theories/BookProps.v
theories/PeerProps.v
theories/PeerProps2.v
theories/ApiModel.v
theories/ApiProps.v
theories/FilterProps.v
theories/FilterProps2.v
theories/SubProps.v
theories/FeeProps.v
theories/PrecompModel.v
theories/ReadModel.v
theories/ModExpProps.v
theories/Blake2Props.v
theories/PrecompProps.v
theories/ToolsModel.v
theories/ToolsProps.v
theories/GovProps.v
theories/BackendModel.v
theories/BackendProps.v
theories/ProtoModel.v
theories/ProtoProps.v
theories/P2pModel.v
theories/PingProps.v
theories/IdentifyProps.v
theories/DiscoveryProps.v
theories/SyncModel.v
theories/SyncProps.v
theories/CryptoModel.v
theories/CryptoProps.v
theories/CheckProps.v
theories/Web3Model.v
theories/Web3Props.v
theories/Web3Props2.v
theories/Web3Props3.v
theories/Web3Props4.v
theories/Web3Props5.v
theories/HexModel.v
theories/HexProps.v
theories/HardforkModel.v
theories/HardforkProps.v
theories/GenesisModel.v
theories/GenesisProps.v
theories/VersionModel.v
theories/VersionProps.v
theories/TrieModel.v
theories/TrieProofs.v
theories/TrieCodec.v
theories/TrieOps.v
theories/TrieDelete.v
theories/TriePaths.v
theories/TrieProps.v
theories/TrieProps2.v
theories/DialModel.v
theories/DialProps.v
theories/WorldModel.v
theories/WorldProofs.v
theories/WorldProps.v
theories/SigModel.v
theories/SigProps.v
theories/ForkProps.v
theories/CommitModel.v
theories/CommitProps.v
theories/ReplayModel.v
theories/ReplayProps.v
theories/DbModel.v
theories/DbProps.v
theories/DbProps2.v
theories/DbProps3.v
theories/AbiModel.v
theories/AbiProps.v
theories/CbmtModel.v
theories/CbmtProps.v
theories/GossipModel.v
theories/GossipProps.v
theories/LogModel.v
theories/LogProps.v
theories/JsonModel.v
theories/JsonProps.v
theories/CkbDataModel.v
theories/CkbDataProps.v
theories/ProcModel.v
theories/ProcProps.v
theories/KeyModel.v
theories/KeyProps.v
theories/MetaCliModel.v
theories/MetaCliProps.v
theories/ServerModel.v
theories/ServerProps.v
theories/PoolProps4.v
