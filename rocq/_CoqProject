-Q theories Verif

theories/Base.v
theories/BaseLemmas.v
theories/PackLemmas.v
theories/AesModel.v
theories/AesSpec.v
theories/AesProof.v
theories/AesProof2.v
theories/AesProof3.v
theories/AesProps.v
theories/Outcome.v
theories/StringInfoModel.v
theories/StringInfoProof.v
theories/StringInfoProps.v
theories/CipherModel.v
theories/CipherSpec.v
theories/CipherProof.v
theories/Mem32.v
theories/ChachaModel.v
theories/ChachaSpec.v
theories/ChachaProof.v
theories/ChachaProps.v
theories/TwofishModel.v
theories/TwofishProof.v
theories/TwofishSpec.v
theories/TwofishProof2.v
theories/TwofishProof3.v
theories/TwofishProps.v
theories/SerpentModel.v
theories/SerpentSpec.v
theories/SerpentProof.v
theories/SerpentProof2.v
theories/SerpentProps.v
theories/CipherInfoModel.v
theories/CipherProps.v
theories/MdModel.v
theories/MdSpec.v
theories/MdProof.v
theories/Sha2Model.v
theories/Sha2Spec.v
theories/Sha2Proof.v
theories/Sha2Props.v
theories/Sha1Model.v
theories/Sha1Spec.v
theories/Sha1Props.v
theories/Md5Model.v
theories/Md5Spec.v
theories/Md5Props.v
theories/BitsSpec.v
theories/Crc64Model.v
theories/Crc64Spec.v
theories/Crc64Props.v
theories/Sha3Spec.v
theories/Sha3Model.v
theories/Sha3Proof.v
theories/Sha3Stream.v
theories/Sha3Props.v
theories/HashModel.v
theories/HashSpec.v
theories/HmacModel.v
theories/HashProof.v
theories/HashProps.v
theories/HmacProps.v
theories/ListModel.v
theories/ListSpec.v
theories/ListProof.v
theories/ListProps.v
theories/HashmapModel.v
theories/HashmapSpec.v
theories/HashmapProof.v
theories/HashmapProps.v
theories/SplayModel.v
theories/SplaySpec.v
theories/SplayProof.v
theories/SplayProof2.v
theories/SplayProps.v
theories/FileModel.v
theories/FileProps.v
theories/RandomModel.v
theories/RandomSpec.v
theories/RandomProof.v
theories/RandomProof2.v
theories/RandomProps.v
theories/RandomFileProps.v
theories/XoshiroProps.v
theories/RandomValueModel.v
theories/RandomValueProps.v
theories/ReadLemmas.v
theories/KeyringSpec.v
theories/KeyringModel.v
theories/KeyringProof.v
theories/KeyringInv.v
theories/KeyringProps.v
theories/CtrStream.v
theories/SecretModel.v
theories/SecretProps.v
theories/KeyModel.v
theories/KeySpec.v
theories/KeyProps.v
theories/CStringModel.v
theories/CStringSpec.v
theories/CStringProps.v
theories/CStringProps2.v
theories/GlobModel.v
theories/GlobSpec.v
theories/GlobProps.v
theories/Base64Model.v
theories/Base64Spec.v
theories/Base64Props.v
theories/ResourceModel.v
theories/ResourceSpec.v
theories/ResourceProps.v
theories/MemoryModel.v
theories/MemoryProps.v
theories/LockModel.v
theories/LockProps.v
theories/FileToBlobModel.v
theories/FileToBlobProps.v
theories/OptionModel.v
theories/OptionProps.v
theories/ContentModel.v
theories/ContentProof.v
theories/ContentProps.v
theories/SignatureModel.v
theories/SignatureProps.v
theories/BlobModel.v
theories/BlobProps.v
theories/ScanModel.v
theories/ScanProof.v
theories/ScanProof2.v
theories/ScanProof3.v
theories/ScanProps.v
theories/XmlModel.v
theories/XmlSpec.v
theories/XmlTreeSpec.v
theories/XmlProof.v
theories/XmlProof2.v
theories/XmlProof3.v
theories/XmlProof4.v
theories/XmlProof5.v
theories/XmlProps.v
theories/XmlLinkModel.v
theories/XmlLinkSpec.v
theories/XmlLinkProof.v
theories/XmlLinkProof2.v
theories/XmlLinkProof3.v
theories/XmlLinkProps.v
theories/RdfModel.v
theories/RdfProof.v
theories/RdfProof2.v
theories/RdfProps.v
theories/PoolModel.v
theories/PoolProof.v
theories/PoolProof2.v
theories/PoolProof3.v
theories/PoolProof4.v
theories/PoolProof5.v
theories/PoolProof6.v
theories/PoolSpec.v
theories/PoolProof7.v
theories/PoolProof8.v
theories/PoolProof9.v
theories/PoolProps.v
theories/PoolReset.v
theories/TimeModel.v
theories/TimeSpec.v
theories/TimeProof.v
theories/TimeProps.v
theories/PathModel.v
theories/PathProps.v
theories/ArgvModel.v
theories/ArgvProps.v
theories/TokenModel.v
theories/TokenProps.v
theories/MimeModel.v
theories/MimeProps.v
theories/LocaleModel.v
theories/LocaleProps.v
theories/ExceptionModel.v
theories/ExceptionProps.v
theories/TimerModel.v
theories/TimerProps.v
theories/PhraseModel.v
theories/PhraseProps.v
theories/EntropyModel.v
theories/EntropyProps.v
theories/LogModel.v
theories/LogProps.v
theories/TempModel.v
theories/TempProps.v
theories/Utf16Model.v
theories/Utf16Proof.v
theories/Utf16Props.v
theories/ConfigureModel.v
theories/ConfigureProof.v
theories/ConfigureProps.v
theories/OnceModel.v
theories/OnceProps.v
theories/LifeModel.v
theories/LifeProps.v
theories/DoctypeModel.v
theories/DoctypeProof.v
theories/DoctypeEnds.v
theories/DoctypeProps.v
theories/XmlPathModel.v
theories/XmlPathProps.v
theories/LimitModel.v
theories/LimitProps.v
theories/ExpandModel.v
theories/ExpandProof.v
theories/ExpandProps.v
theories/CommandModel.v
theories/CommandProps.v
theories/KeylessProps.v
theories/ListingModel.v
theories/ListingProps.v
theories/OpenModel.v
theories/OpenProps.v
theories/DigestCommandModel.v
theories/DigestCommandProps.v
theories/InfoCommandModel.v
theories/InfoCommandProps.v
theories/LogCacheModel.v
theories/LogCacheProps.v
theories/AuthenticateModel.v
theories/AuthenticateProps.v
theories/SizeModel.v
theories/SizeProof.v
theories/SizeProps.v
theories/MimeLoadModel.v
theories/MimeLoadProps.v
theories/ListInfoModel.v
theories/ListInfoProps.v
theories/ObjectModel.v
theories/ObjectProof.v
theories/ObjectWorld.v
theories/ObjectProps.v
theories/ThreadModel.v
theories/ThreadSpec.v
theories/ThreadProof.v
theories/ThreadObjects.v
theories/ThreadRandom.v
theories/ThreadProps.v
theories/XmlMemoryModel.v
theories/XmlMemorySpec.v
theories/XmlMemoryProof.v
theories/XmlMemoryRun.v
theories/XmlMemoryOps.v
theories/XmlMemoryMain.v
theories/XmlMemoryInv.v
theories/XmlMemoryTotal.v
theories/XmlMemoryCalm.v
theories/XmlMemorySafe.v
theories/XmlMemoryProps.v
theories/XmlTagsModel.v
theories/XmlTagsSpec.v
theories/XmlTagsProof.v
theories/XmlTagsLink.v
theories/XmlTagsInsert.v
theories/XmlTagsMain.v
theories/XmlTagsProps.v
theories/LocaleListModel.v
theories/LocaleListProps.v
theories/StringHeapModel.v
theories/StringHeapSpec.v
theories/StringHeapProof.v
theories/StringHeapProps.v
theories/ClientModel.v
theories/ClientProps.v
theories/XmlDocumentModel.v
theories/XmlDocumentEnds.v
theories/XmlDocumentSpec.v
theories/XmlDocumentProof.v
theories/XmlDocumentRead.v
theories/XmlDocumentProps.v
theories/HashmapOwnerModel.v
theories/HashmapOwnerProps.v
theories/SplayOwnerModel.v
theories/SplayOwnerProps.v
theories/ListOwnerModel.v
theories/ListOwnerProps.v
theories/CoderModel.v
theories/CoderProps.v
theories/BlobChunkModel.v
theories/BlobChunkProps.v
theories/GatherModel.v
theories/GatherProps.v
theories/ExceptionLockModel.v
theories/ExceptionLockProps.v
theories/OptionListModel.v
theories/OptionListProps.v
theories/TempSignalModel.v
theories/TempSignalProps.v
theories/BlobOwnerModel.v
theories/BlobOwnerProps.v
theories/MemoryMethodsModel.v
theories/MemoryMethodsProps.v
theories/FatalModel.v
theories/FatalProps.v
theories/ThreadKeyModel.v
theories/ThreadKeyProps.v
theories/LogCloseModel.v
theories/LogCloseProps.v
theories/XmlAttributesModel.v
theories/XmlAttributesProps.v
theories/ResourceReadModel.v
theories/ResourceReadProps.v
theories/LogNameModel.v
theories/LogNameProps.v
theories/GlobWordsProps.v
