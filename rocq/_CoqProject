-Q theories Verif

theories/Base.v
theories/Bits.v
theories/CppText.v
theories/TextSpec.v
theories/TextLemmas.v
theories/BitSpec.v
theories/BitLemmas.v
theories/StringModel.v
theories/StringSpec.v
theories/StringProofs.v
theories/StringProofs2.v
theories/StringProps.v
theories/IntegerModel.v
theories/IntegerProofs.v
theories/IntegerProofs2.v
theories/IntegerProofs3.v
theories/IntegerProps.v
theories/Swar.v
theories/CharacterModel.v
theories/LongModel.v
theories/LongProofs.v
theories/LongProofs2.v
theories/LongProps.v
theories/MathModel.v
theories/MathProofs.v
theories/MathProps.v
theories/BitSetModel.v
theories/BitSetProofs.v
theories/BitSetProofs2.v
theories/BitSetProofs3.v
theories/BitSetSpec.v
theories/BitSetProps.v
theories/Base64Model.v
theories/Base64Spec.v
theories/Base64Proofs.v
theories/Base64Proofs2.v
theories/Base64Proofs3.v
theories/Base64Proofs4.v
theories/Base64Proofs5.v
theories/Base64Props.v
theories/ArraysModel.v
theories/ArraysSpec.v
theories/ArraysProofs.v
theories/ArraysProofs2.v
theories/ArraysProps.v
theories/HashMapSpec.v
theories/HashMapModel.v
theories/HashMapProofs.v
theories/HashMapProps.v
theories/ListSpec.v
theories/StdVector.v
theories/ArrayListModel.v
theories/VectorModel.v
theories/ListProofs.v
theories/ArrayListProps.v
theories/VectorProofs.v
theories/VectorProofs2.v
theories/VectorProps.v
theories/StackSpec.v
theories/StackModel.v
theories/StackProps.v
theories/LinkedListSpec.v
theories/LinkedListModel.v
theories/LinkedListProps.v
theories/PriorityQueueSpec.v
theories/PriorityQueueModel.v
theories/PriorityQueueProps.v
theories/CMem.v
theories/StringBuilderSpec.v
theories/StringBuilderModel.v
theories/StringBuilderProofs.v
theories/StringBuilderProps.v
theories/StringBuilderSearchProps.v
theories/StringBufferModel.v
theories/StringBufferProofs.v
theories/StringBufferProps.v
theories/Monitor.v
theories/StringBufferThreadsModel.v
theories/StringBufferThreadsProps.v
theories/UrlSpec.v
theories/UrlModel.v
theories/UrlProps.v
theories/Md5Spec.v
theories/Md5Model.v
theories/Md5Proofs.v
theories/Sha1Spec.v
theories/Sha1Model.v
theories/Sha1Proofs.v
theories/MessageDigestSpec.v
theories/MessageDigestModel.v
theories/MessageDigestProofs.v
theories/MessageDigestProps.v
theories/RandomSpec.v
theories/RandomModel.v
theories/RandomProofs.v
theories/RandomProps.v
theories/RandomThreadsModel.v
theories/RandomThreadsProps.v
theories/UuidSpec.v
theories/UuidLibModel.v
theories/UuidModel.v
theories/UuidProofs.v
theories/UuidLibProofs.v
theories/UuidLibProofs2.v
theories/UuidProofs3.v
theories/UuidProps.v
theories/SemaphoreModel.v
theories/SemaphoreSpec.v
theories/SemaphoreProofs.v
theories/SemaphoreProofs2.v
theories/SemaphoreProps.v
theories/ThreadModel.v
theories/ThreadProofs.v
theories/ThreadProps.v
theories/ConcMapSpec.v
theories/ConcMapModel.v
theories/ConcMapJava.v
theories/ConcMapProofs.v
theories/ConcMapProps.v
theories/MediaTypeModel.v
theories/MediaTypeSpec.v
theories/MediaTypeProofs.v
theories/MediaTypeProps.v
theories/CharacterSpec.v
theories/CharacterProps.v
theories/BytesModel.v
theories/BytesProps.v
theories/DateSpec.v
theories/DateModel.v
theories/DateProofs.v
theories/DateProps.v
theories/DateParseProofs.v
theories/DateParseProofs2.v
theories/DateParseProps.v
theories/NumberProofs.v
theories/NumberProps.v
theories/StringPiecesProps.v
theories/CollectionPiecesSpec.v
theories/CollectionPiecesProps.v
theories/TextPiecesModel.v
theories/TextPiecesProps.v
theories/Ieee.v
theories/IeeeProofs.v
theories/FloatBitsSpec.v
theories/FloatBitsModel.v
theories/FloatBitsProofs.v
theories/FloatBitsProofs2.v
theories/FloatBitsProofs3.v
theories/FloatBitsProofs4.v
theories/FloatBitsProofs5.v
theories/FloatBitsProofs6.v
theories/FloatBitsProps.v
theories/MathFloatSpec.v
theories/MathFloatModel.v
theories/MathFloatProofs.v
theories/MathFloatProps.v
theories/LwSemModel.v
theories/LwSemSpec.v
theories/LwSemProofs.v
theories/LwSemProps.v
theories/BlockingQueueModel.v
theories/BlockingQueueSpec.v
theories/BlockingQueueProofs.v
theories/BlockingQueueProps.v
theories/ShortModel.v
theories/ShortSpec.v
theories/ShortProps.v
theories/ArrayModel.v
theories/ArraySpec.v
theories/ArrayProps.v
theories/ToStringModel.v
theories/ToStringSpec.v
theories/ToStringProps.v
theories/SubQueueModel.v
theories/SubQueueSpec.v
theories/SubQueueProofs.v
theories/SubQueueProofs2.v
theories/SubQueueProofs3.v
theories/SubQueueProofs4.v
theories/SubQueueProps.v
theories/DateZoneSpec.v
theories/DateZoneProps.v
theories/LwSemTakeProps.v
theories/FreeListModel.v
theories/FreeListSpec.v
theories/FreeListProofs.v
theories/FreeListProofs2.v
theories/FreeListProofs3.v
theories/FreeListProofs4.v
theories/FreeListProps.v
theories/FloatHashProps.v
theories/FormatSpec.v
theories/FormatModel.v
theories/FormatProofs.v
theories/FormatProps.v
theories/Utf8Spec.v
theories/Utf8Model.v
theories/Utf8Props.v
theories/ExceptionsSpec.v
theories/ExceptionsModel.v
theories/ExceptionsProps.v
theories/ObjectModel.v
theories/ObjectProps.v
theories/NetModel.v
theories/NetProps.v
theories/DateTextSpec.v
theories/DateTextModel.v
theories/DateTextProps.v
theories/StringMakeModel.v
theories/StringMakeProps.v
theories/CuckooSpec.v
theories/CuckooModel.v
theories/CuckooRunModel.v
theories/CuckooProofs1.v
theories/CuckooProofs2.v
theories/CuckooProofs3.v
theories/CuckooProofs4.v
theories/CuckooProofs5.v
theories/CuckooProofs6.v
theories/CuckooProofs7.v
theories/CuckooProofs8.v
theories/CuckooProofs9.v
theories/CuckooProps.v
theories/CuckooThreadsModel.v
theories/CuckooProofs10.v
theories/CuckooProofs11.v
theories/CuckooProofs12.v
theories/CuckooThreadsProps.v
theories/CuckooLocksModel.v
theories/CuckooLocksSpec.v
theories/CuckooProofs13.v
theories/CuckooProofs14.v
theories/CuckooProofs15.v
theories/CuckooLocksProps.v
theories/CuckooAloneSpec.v
theories/CuckooProofs16.v
theories/CuckooAloneProps.v
theories/ProducerHashModel.v
theories/ProducerHashSpec.v
theories/ProducerHashProofs.v
theories/ProducerHashProofs2.v
theories/ProducerHashProps.v
theories/LinkedQueueModel.v
theories/LinkedQueueSpec.v
theories/LinkedQueueProofs.v
theories/LinkedQueueProps.v
theories/QueueWholeModel.v
theories/QueueWholeSpec.v
theories/QueueWholeProofs.v
theories/QueueWholeProofs2.v
theories/QueueWholeProofs3.v
theories/QueueWholeProps.v
theories/BlockIndexModel.v
theories/BlockIndexSpec.v
theories/BlockIndexProofs.v
theories/BlockIndexProofs2.v
theories/BlockIndexProofs3.v
theories/BlockIndexProofs4.v
theories/BlockIndexProofs5.v
theories/BlockIndexProofs6.v
theories/BlockIndexProps.v
theories/DestroyModel.v
theories/DestroySpec.v
theories/DestroyProofs.v
theories/DestroyProofs2.v
theories/DestroyProofs3.v
theories/DestroyProps.v
theories/BlockPoolModel.v
theories/BlockPoolSpec.v
theories/BlockPoolProofs.v
theories/BlockPoolProofs2.v
theories/BlockPoolProps.v
theories/CuckooIterModel.v
theories/CuckooIterSpec.v
theories/CuckooIterProofs.v
theories/CuckooIterProofs2.v
theories/CuckooIterProps.v
theories/RandomSeedModel.v
theories/RandomSeedSpec.v
theories/RandomSeedProofs.v
theories/RandomSeedProofs2.v
theories/RandomSeedProps.v
theories/RandomGaussModel.v
theories/RandomGaussSpec.v
theories/RandomGaussProofs.v
theories/RandomGaussProps.v
theories/RandomCopyModel.v
theories/RandomCopyProps.v
theories/KeysSpec.v
theories/KeysModel.v
theories/KeysProps.v
theories/FloatBoxModel.v
theories/FloatBoxProps.v
theories/LongValueModel.v
theories/LongValueProps.v
theories/NarrowModel.v
theories/NarrowProps.v
theories/SbCodePointModel.v
theories/SbCodePointProps.v
theories/HttpModel.v
theories/HttpProps.v
