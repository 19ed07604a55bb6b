-Q theories Verif
theories/Bytes.v
theories/Memcmp.v
theories/MemcmpProofs.v
theories/KeyModel.v
theories/Numeric.v
theories/Float.v
theories/Compact.v
theories/P_Codec.v
theories/SMap.v
theories/Provider.v
theories/ProviderProofs.v
theories/World.v
theories/ProviderMore.v
theories/P_Provider.v
theories/KvUtil.v
theories/Struct.v
theories/StructProofs.v
theories/StructHash.v
theories/StructList.v
theories/UtilTxn.v
theories/StructRef.v
theories/P_Struct.v
theories/P_Util.v
theories/Pb.v
theories/PbProofs.v
theories/PbLoop.v
theories/PbMsgs.v
theories/P_Pb.v
theories/Remote.v
theories/RemoteProofs.v
theories/RemoteTxn.v
theories/P_Remote.v
theories/TxPost.v
theories/Sequence.v
theories/SequenceProofs.v
theories/OldSequence.v
theories/P_Sequence.v
theories/DocKeys.v
theories/P_DocKeys.v
theories/Model.v
theories/Schema.v
theories/DocTxn.v
theories/P_Schema.v
theories/Dml.v
theories/DmlProofs.v
theories/P_Dml.v
theories/Wrote.v
theories/InsertWorld.v
theories/P_Insert.v
theories/Meta.v
theories/MetaCodec.v
theories/MetaSpec.v
theories/MetaProofs.v
theories/MetaOps.v
theories/MetaRun.v
theories/P_Meta.v
theories/P_GlobalIds.v
theories/Ddl.v
theories/DdlProofs.v
theories/DdlWorker.v
theories/DdlSpec.v
theories/DdlSys.v
theories/DdlIndex.v
theories/DdlMore.v
theories/P_Ddl.v
theories/Domain.v
theories/DomainProofs.v
theories/P_Domain.v
theories/OldDoc.v
theories/P_OldDoc.v
theories/OldColl.v
theories/OldInsert.v
theories/P_OldColl.v
theories/OldIndex.v
theories/OldIndexProofs.v
theories/OldIndexRun.v
theories/OldIndexMem.v
theories/P_OldIndex.v
theories/ModelHeap.v
theories/ModelHeapProofs.v
theories/P_ModelHeap.v
theories/Process.v
theories/ProcessProofs.v
theories/P_Process.v
theories/ProcessSpec.v
theories/ProcessIds.v
theories/P_ProcessIds.v
theories/MetaWrites.v
theories/DocLife.v
theories/DocLifeSpec.v
theories/DocLifeProofs.v
theories/P_DocLife.v
theories/Serial.v
theories/SerialProofs.v
theories/P_Serial.v
theories/OldClose.v
theories/OldCloseProofs.v
theories/P_OldClose.v
theories/DocSerial.v
theories/DocSerialProofs.v
theories/P_DocSerial.v
theories/StructSerial.v
theories/StructSerialProofs.v
theories/P_StructSerial.v
theories/DdlSerial.v
theories/DdlSerialProofs.v
theories/P_DdlSerial.v
theories/DomSerial.v
theories/DomSerialProofs.v
theories/P_DomSerial.v
theories/RemoteSerial.v
theories/RemoteSerialProofs.v
theories/P_RemoteSerial.v
theories/AllSerial.v
theories/AllSerialProofs.v
theories/P_AllSerial.v
theories/P_Leases.v
theories/P_Conflict.v
theories/P_Float.v
theories/InsertSerial.v
theories/InsertSerialProofs.v
theories/P_InsertSerial.v
theories/P_DocConflict.v
theories/P_AllConflict.v
theories/P_StructConflict.v
theories/P_FirstWins.v
theories/P_AllFirstWins.v
