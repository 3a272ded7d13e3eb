-Q theories Verif
theories/Base.v
theories/MMRIndexModel.v
theories/MMRIndexSpec.v
theories/MMRIndexProofs.v
theories/MMRIndexProps.v
theories/Bytes.v
theories/MMRHashModel.v
theories/MMRHashProofs.v
theories/MMRHashProps.v
theories/MMRHashSpec.v
theories/U128Model.v
theories/U128Proofs.v
theories/U128Props.v
theories/U128Spec.v
theories/BitmapModel.v
theories/BitmapProofs.v
theories/BitmapProps.v
theories/BitmapSpec.v
theories/FileModel.v
theories/FileProofs.v
theories/FileProps.v
theories/FileSpec.v
theories/CodecModel.v
theories/CodecProofs.v
theories/CodecProps.v
theories/CodecSpec.v
theories/SerialModel.v
theories/SerialProofs.v
theories/SerialProps.v
theories/SerialSpec.v
theories/PruneModel.v
theories/PruneProofs.v
theories/PruneProofs2.v
theories/PruneProofs3.v
theories/PruneProps.v
theories/PruneSpec.v
theories/ChainModel.v
theories/ChainProofs.v
theories/ChainProps.v
theories/ChainSpec.v
theories/CuckooModel.v
theories/CuckooProofs.v
theories/CuckooProps.v
theories/CuckooSpec.v
theories/ConsensusModel.v
theories/DifficultyModel.v
theories/DifficultyProofs.v
theories/DifficultyProps.v
theories/DifficultySpec.v
theories/ValidationModel.v
theories/ValidationProofs.v
theories/ValidationProps.v
theories/ValidationSpec.v
theories/CacheModel.v
theories/CacheProofs.v
theories/CacheProps.v
theories/CacheSpec.v
theories/HeaderModel.v
theories/HeaderProofs.v
theories/HeaderSpec.v
theories/HeaderInv.v
theories/HeaderLink.v
theories/HeaderProps.v
theories/HeaderWork.v
theories/UtxoModel.v
theories/UtxoProofs.v
theories/UtxoProps.v
theories/UtxoRewind.v
theories/UtxoRoots.v
theories/UtxoSpec.v
theories/BlockFinal.v
theories/BlockHeaders.v
theories/BlockModel.v
theories/BlockNode.v
theories/BlockProofs.v
theories/BlockProps.v
theories/BlockSpec.v
theories/PoolModel.v
theories/PoolProofs.v
theories/PoolProps.v
theories/PoolSpec.v
theories/MnemonicModel.v
theories/MnemonicProofs.v
theories/MnemonicProps.v
theories/MnemonicSpec.v
theories/MnemonicText.v
theories/Sha256Spec.v
theories/TextCheck.v
theories/TextModel.v
theories/TextProofs.v
theories/TextProps.v
theories/TextSpec.v
theories/WordListData.v
theories/KeyPathModel.v
theories/KeyPathProofs.v
theories/KeyPathProps.v
theories/KeyPathSpec.v
theories/WalletModel.v
theories/WalletSpec.v
theories/CoinProofs.v
theories/CoinProps.v
theories/LockProofs.v
theories/SendProofs.v
theories/TableProofs.v
theories/WalletProps.v
theories/ExchangeMain.v
theories/ExchangeModel.v
theories/ExchangeProofs.v
theories/ExchangeProps.v
theories/ExchangeSpec.v
theories/ToyCurve.v
theories/CrashMain.v
theories/CrashModel.v
theories/CrashProofs.v
theories/CrashProps.v
theories/CrashRestart.v
theories/CrashSpec.v
theories/SlateCodecModel.v
theories/SlateCodecProofs.v
theories/SlateCodecProps.v
theories/SlateCodecSpec.v
theories/Bech32Errors.v
theories/Bech32Four.v
theories/Bech32Model.v
theories/Bech32Poly.v
theories/Bech32Proofs.v
theories/Bech32Spec.v
theories/Bech32Text.v
theories/HeaderStored.v
theories/SlatepackModel.v
theories/SlatepackProofs.v
theories/SlatepackProps.v
theories/ReceiveProofs.v
theories/MessageModel.v
theories/MessageProofs.v
theories/MessageProps.v
theories/MessageSizes.v
theories/MessageSpec.v
theories/LocatorModel.v
theories/LocatorProofs.v
theories/LocatorProps.v
theories/LocatorSpec.v
theories/AcceptProofs.v
theories/AcceptProps.v
theories/AcceptSpec.v
theories/CompactModel.v
theories/CompactProofs.v
theories/CompactProps.v
theories/CompactSpec.v
theories/StateModel.v
theories/StateProofs.v
theories/StateProps.v
theories/StateSpec.v
theories/SyncModel.v
theories/SyncProofs.v
theories/SyncProps.v
theories/SyncSpec.v
theories/AccountModel.v
theories/AccountProofs.v
theories/AccountProps.v
theories/AccountSpec.v
theories/RestoreModel.v
theories/RestoreProofs.v
theories/RestoreProps.v
theories/RestoreSpec.v
theories/PeerModel.v
theories/PeerProofs.v
theories/PeerProps.v
theories/PeerSpec.v
theories/SocketModel.v
theories/SocketProofs.v
theories/SocketProps.v
theories/SocketSpec.v
theories/PipeModel.v
theories/PipeProofs.v
theories/PipeProps.v
theories/PipeSpec.v
theories/TorModel.v
theories/TorProofs.v
theories/TorProps.v
theories/TorSpec.v
theories/StoreModel.v
theories/StoreProofs.v
theories/StoreProps.v
theories/StoreSpec.v
theories/QueryModel.v
theories/QuerySpec.v
theories/QueryProofs.v
theories/QueryProps.v
theories/TxJsonModel.v
theories/TxJsonSpec.v
theories/TxJsonProofs.v
theories/TxJsonProps.v
theories/AgeModel.v
theories/AgeSpec.v
theories/AgeProofs.v
theories/AgeProps.v
