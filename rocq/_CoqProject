-Q theories Verif

theories/Base.v
theories/Chunker.v
theories/ChunkerSpec.v
theories/ChunkerProofs.v
theories/SetSize.v
theories/ChunkerProofs2.v
theories/Properties_Chunker.v
theories/Bst.v
theories/BstProofs.v
theories/Properties_Bst.v
theories/ChunkId.v
theories/ChunkIdProofs.v
theories/Properties_ChunkId.v
theories/FeatureFlags.v
theories/FeatureFlagsSpec.v
theories/FeatureFlagsProofs.v
theories/FeatureFlagsProofs2.v
theories/Properties_Flags.v
theories/Index.v
theories/IndexSpec.v
theories/IndexRun.v
theories/IndexProofs.v
theories/IndexProofs2.v
theories/IndexProofs3.v
theories/IndexProofs4.v
theories/IndexProofs5.v
theories/IndexProofs6.v
theories/Properties_Index.v
theories/ReallocBuffer.v
theories/ReallocBufferProofs.v
theories/ReallocBufferSpec.v
theories/ReallocBufferProofs2.v
theories/Properties_ReallocBuffer.v
theories/ArchiveBase.v
theories/Decoder.v
theories/DecoderSpec.v
theories/DecoderProofs.v
theories/DecoderProofs2.v
theories/DecoderProofs3.v
theories/DecoderProofs4.v
theories/DecoderProofs5.v
theories/DecoderProofs6.v
theories/DecoderProofs7.v
theories/DecoderProofs8.v
theories/Properties_Decoder.v
theories/Encoder.v
theories/EncoderSpec.v
theories/EncoderProofs.v
theories/EncoderProofs2.v
theories/EncoderProofs3.v
theories/Properties_Encoder.v
theories/RoundTrip1.v
theories/RoundTrip2.v
theories/RoundTrip3.v
theories/RoundTrip4.v
theories/ArchiveSpec.v
theories/EncoderProofs4.v
theories/EncoderProofs5.v
theories/RoundTrip5.v
theories/Properties_RoundTrip.v
theories/Posix.v
theories/ChunkFile.v
theories/PosixProofs.v
theories/Store.v
theories/StoreSpec.v
theories/StoreProofs1.v
theories/StoreProofs2.v
theories/StoreProofs3.v
theories/StoreProofs4.v
theories/StoreProofs5.v
theories/StoreProofs6.v
theories/StoreProofs7.v
theories/StoreProofs8.v
theories/StoreProofs9.v
theories/StoreProofs10.v
theories/StoreProofs11.v
theories/StoreProofs12.v
theories/Properties_Store.v
theories/Gc.v
theories/GcSpec.v
theories/GcProofs1.v
theories/GcProofs2.v
theories/GcProofs3.v
theories/GcProofs4.v
theories/Properties_Gc.v
theories/UidShift.v
theories/Properties_UidShift.v
theories/Locator.v
theories/Properties_Locator.v
theories/ParseSize.v
theories/Properties_ParseSize.v
theories/Match.v
theories/MatchSpec.v
theories/MatchProofs1.v
theories/MatchProofs2.v
theories/MatchProofs3.v
theories/MatchProofs4.v
theories/MatchProofs5.v
theories/Properties_Match.v
theories/Number.v
theories/NumberProofs.v
theories/Location.v
theories/LocationSpec.v
theories/LocationProofs1.v
theories/LocationProofs2.v
theories/LocationHeap.v
theories/LocationHeapProofs.v
theories/Origin.v
theories/OriginSpec.v
theories/OriginProofs1.v
theories/OriginProofs2.v
theories/OriginProofs3.v
theories/Properties_Location.v
theories/Properties_Origin.v
theories/SharedDir.v
theories/Cache.v
theories/CacheSpec.v
theories/CacheProofs1.v
theories/CacheProofs2.v
theories/CacheProofs3.v
theories/Properties_Cache.v
theories/Queue.v
theories/QueueSpec.v
theories/QueueProofs1.v
theories/QueueProofs2.v
theories/QueueProofs3.v
theories/QueueProofs4.v
theories/Properties_Queue.v
theories/Remote.v
theories/RemoteSpec.v
theories/RemoteScript.v
theories/RemoteProofs1.v
theories/RemoteProofs2.v
theories/RemoteProofs3.v
theories/RemoteProofs4.v
theories/RemoteProofs5.v
theories/RemoteProofs6.v
theories/Properties_Remote.v
theories/SyncGet.v
theories/SyncGetSpec.v
theories/SyncGetProofs1.v
theories/SyncGetProofs2.v
theories/SyncGetProofs3.v
theories/SyncGetProofs4.v
theories/SyncGetProofs5.v
theories/SyncGetProofs6.v
theories/Properties_SyncGet.v
theories/SyncWrite.v
theories/SyncWriteSpec.v
theories/SyncWriteProofs1.v
theories/SyncWriteProofs2.v
theories/SyncWriteProofs3.v
theories/SyncWriteProofs4.v
theories/Properties_SyncWrite.v
theories/SyncCache.v
theories/SyncCacheSpec.v
theories/SyncCacheProofs1.v
theories/SyncCacheProofs2.v
theories/SyncCacheProofs3.v
theories/SyncCacheProofs4.v
theories/SyncCacheProofs5.v
theories/Properties_SyncCache.v
theories/Seek.v
theories/SeekSpec.v
theories/SeekProofs1.v
theories/SeekProofs2.v
theories/SeekProofs3.v
theories/SeekProofs4.v
theories/SeekProofs5.v
theories/SeekProofs6.v
theories/Properties_Seek.v
theories/Holes.v
theories/HolesProofs.v
theories/Properties_Holes.v
theories/Fs.v
theories/Extract.v
theories/ExtractSpec.v
theories/ExtractProofs1.v
theories/ExtractProofs2.v
theories/ExtractProofs3.v
theories/ExtractProofs4.v
theories/ExtractProofs5.v
theories/ExtractProofs6.v
theories/Properties_Extract.v
theories/ExtractedSpec.v
theories/ExtractedProofs1.v
theories/ExtractedProofs2.v
theories/ExtractedProofs3.v
theories/ExtractedProofs4.v
theories/ExtractedProofs5.v
theories/ExtractedProofs6.v
theories/ExtractedProofs7.v
theories/ExtractedProofs8.v
theories/Properties_Extracted.v
theories/Reflink.v
theories/ReflinkSpec.v
theories/ReflinkProofs.v
theories/Properties_Reflink.v
theories/Nbd.v
theories/NbdSpec.v
theories/NbdProofs.v
theories/Properties_Nbd.v
theories/Digest.v
theories/DigestSpec.v
theories/DigestProofs1.v
theories/DigestProofs2.v
theories/DigestProofs3.v
theories/DigestProofs4.v
theories/DigestProofs5.v
theories/Properties_Digest.v
theories/Hardlink.v
theories/HardlinkSpec.v
theories/HardlinkProofs.v
theories/HardlinkProofs2.v
theories/HardlinkCache.v
theories/HardlinkCacheSpec.v
theories/HardlinkCacheProofs.v
theories/Properties_Hardlink.v
theories/Siphash.v
theories/SiphashSpec.v
theories/SiphashProofs.v
theories/Properties_Siphash.v
