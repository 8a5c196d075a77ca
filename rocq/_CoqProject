-Q theories Verif
theories/Base.v
theories/Vint.v
theories/VintSpec.v
theories/VintProof.v
theories/PropVint.v
theories/BufferSpec.v
theories/Buffer.v
theories/BufDynProof.v
theories/BufStaticProof.v
theories/BufStaticProof2.v
theories/BufStaticProof3.v
theories/BufStaticProof4.v
theories/BufRunProof.v
theories/PropBuffer.v
theories/SubnetSpec.v
theories/Subnet.v
theories/SubnetProof.v
theories/Route.v
theories/RouteProof.v
theories/PropSubnet.v
theories/PropRoute.v
theories/AddressSpec.v
theories/Address.v
theories/AddressProof.v
theories/PropAddress.v
theories/MemSpec.v
theories/Mem.v
theories/MemProof.v
theories/MemAnyProof.v
theories/PropMem.v
theories/MemConc.v
theories/MemConcSpec.v
theories/MemConcLib.v
theories/MemConcStores.v
theories/MemConcInv.v
theories/MemConcProof.v
theories/MemConcRead.v
theories/MemConcLive.v
theories/MemConcSeq.v
theories/PropMemConc.v
theories/IoSpec.v
theories/IoRecv.v
theories/IoRecvSpec.v
theories/IoRecvProof.v
theories/PropIoRecv.v
theories/IoWrite.v
theories/IoWriteSpec.v
theories/IoWriteProof.v
theories/PropIoWrite.v
theories/IoWriteS.v
theories/IoWriteSSpec.v
theories/IoRing.v
theories/IoWriteSProof.v
theories/PropIoWriteS.v
theories/NodeTypes.v
theories/NodeConn.v
theories/NodeCore.v
theories/NodeMsg.v
theories/Node.v
theories/NodeFrame.v
theories/NodeReset.v
theories/NodeInv.v
theories/NodeKeep.v
theories/NodeSteps.v
theories/NodeCtx.v
theories/NodeReach.v
theories/NodeSpec.v
theories/NodeLog.v
theories/NodeNotice.v
theories/NodeRoute.v
theories/NodeTrace.v
theories/NodeHandle.v
theories/NodeAuth.v
theories/NodeTime.v
theories/NodePing.v
theories/NodeWeary.v
theories/NodeDead.v
theories/NodeStat.v
theories/NodeExample.v
theories/PropNodeLife.v
theories/PropNodeMsg.v
theories/PropNodeAuth.v
theories/PropNodeConn.v
theories/PropNodeTime.v
theories/PropNodePing.v
theories/PropNodeDead.v
theories/SelfMsg.v
theories/SelfSpec.v
theories/SelfProof.v
theories/PropSelf.v
theories/PropSeq.v
theories/Shm.v
theories/PropShm.v
theories/NodeCount.v
theories/NetSpec.v
theories/NetProof.v
theories/PropNet.v
theories/Proto.v
theories/PropSize.v
theories/TreeSpec.v
theories/TreeProof.v
theories/PropTree.v
theories/PropCmd.v
theories/NodeUb.v
theories/PropUb.v
theories/NodeReg.v
theories/PropReg.v
theories/IoConn.v
theories/IoConnInv.v
theories/IoConnSpec.v
theories/IoConnAll.v
theories/IoConnStep.v
theories/IoConnEnd.v
theories/PropConn.v
theories/NodeParent.v
theories/PropParent.v
theories/NodeCalm.v
theories/PropSilent.v
theories/NodeStay.v
theories/PropStay.v
theories/NodeUp.v
theories/NodeGrant.v
theories/PropUp.v
theories/MemLayout.v
theories/PropLayout.v
theories/CauseSpec.v
theories/NodeCause.v
theories/PropCause.v
theories/OpenSpec.v
theories/NodeOpen.v
theories/NodeSync.v
theories/NodeListen.v
theories/PropOpen.v
theories/ShakeSpec.v
theories/LifeSpec.v
theories/NodeLife.v
theories/NodeIntro.v
theories/PropShake.v
theories/StreamConf.v
theories/PropStream.v
theories/PropMeet.v
theories/PropConnLife.v
theories/PropDrop.v
theories/NodeInert.v
theories/PropInert.v
