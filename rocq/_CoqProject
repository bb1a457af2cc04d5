-Q theories Verif
theories/PyBase.v
theories/Utf8.v
theories/Struct.v
theories/Crc32.v
theories/Primitives.v
theories/Snappy.v
theories/Messages.v
theories/Protocol.v
theories/BaseLemmas.v
theories/Utf8Proofs.v
theories/StructProofs.v
theories/SpecWire.v
theories/ProtocolProofs.v
theories/WireMore.v
theories/MessagesProofs.v
theories/SnappyProofs.v
theories/SpecCodec.v
theories/CompressProofs.v
theories/Request.v
theories/Schemas.v
theories/SpecDocs.v
theories/Constants.v
theories/SpecRequest.v
theories/RequestProofs.v
theories/WireProps.v
theories/ParseErrors.v
theories/ConsumerWrites.v
theories/Connection.v
theories/SpecConn.v
theories/ConnProofs.v
theories/ConnStream.v
theories/PropsWire.v
theories/PropsConn.v
theories/Cluster.v
theories/Client.v
theories/SpecCluster.v
theories/ClusterProofs.v
theories/PropsCluster.v
theories/Producer.v
theories/SpecProducer.v
theories/ProducerProofs.v
theories/ProducerOrder.v
theories/ProducerAnswers.v
theories/PropsProducer.v
theories/Iterables.v
theories/Json.v
theories/SpecJson.v
theories/JsonProofs.v
theories/Zookeeper.v
theories/SpecZk.v
theories/ZkProofs.v
theories/ZkAlloc.v
theories/PropsZk.v
theories/Consumer.v
theories/SpecConsumer.v
theories/ConsumerProofs.v
theories/ConsumerSteps.v
theories/ConsumerRuns.v
theories/ConsumerSync.v
theories/ConsumerWire.v
theories/PropsConsumer.v
theories/PropsStart.v
theories/SpecGroup.v
theories/GroupProofs.v
theories/AllocRuns.v
theories/PropsGroup.v
theories/PropsCoord.v
theories/SpecLog.v
theories/FollowRuns.v
theories/PropsLog.v
theories/SpecHistory.v
theories/PropsHistory.v
theories/SpecSent.v
theories/PropsSent.v
theories/SpecFlow.v
theories/ProducerRun.v
theories/ProducerWire.v
theories/SpecProduced.v
theories/ProducerBytes.v
theories/PropsFlow.v
theories/SpecEnd.v
theories/PropsEnd.v
theories/SpecCrc.v
theories/PropsCrc.v
theories/Closing.v
theories/SpecClosed.v
theories/PropsClosed.v
theories/SpecShare.v
theories/PropsShare.v
theories/JsonValues.v
theories/SpecJsonValues.v
theories/JsonValueProofs.v
theories/JsonSound.v
theories/PropsJson.v
theories/SpecHeal.v
theories/PropsHeal.v
theories/Heals.v
theories/SpecHeals.v
theories/HealsProofs.v
theories/PropsHeals.v
theories/SpecKafka.v
theories/ResponseRead.v
theories/KafkaProofs.v
theories/PropsKafka.v
theories/SpecBytes.v
theories/PropsBytes.v
theories/KafkaUnique.v
theories/KafkaProduced.v
theories/SpecSets.v
theories/PropsSets.v
theories/Stack.v
theories/SpecStack.v
theories/StackWire.v
theories/StackHeld.v
theories/StackProofs.v
theories/PropsStack.v
theories/Group.v
theories/SpecGroupRun.v
theories/SpecGroupAny.v
theories/GroupAny.v
theories/GroupRuns.v
theories/GroupOpen.v
theories/GroupStart.v
theories/PropsGroupRun.v
theories/ProducerStack.v
theories/SpecProducerStack.v
theories/ProducerStackProofs.v
theories/PropsProducerStack.v
theories/SpecGroupLog.v
theories/PropsGroupLog.v
theories/SpecGroupStack.v
theories/PropsGroupStack.v
theories/PropsIds.v
theories/SpecHang.v
theories/HangProofs.v
theories/PropsHang.v
theories/SpecFlushWait.v
theories/ProducerHang.v
theories/PropsFlushWait.v
theories/Full.v
theories/HealOrigin.v
theories/FullProofs.v
theories/FullProducer.v
theories/RouteProducer.v
theories/SpecRoute.v
theories/RouteHeard.v
theories/PropsRoute.v
theories/SpecAsks.v
theories/ConsumerNet.v
theories/FullConsumer.v
theories/RouteConsumer.v
theories/PropsRouteConsumer.v
theories/SpecNamed.v
theories/NamedCoord.v
theories/PropsNamed.v
theories/SpecAttr.v
theories/AttrProofs.v
theories/PropsAttr.v
theories/SpecProgress.v
theories/PropsProgress.v
theories/Crew.v
theories/SpecCrew.v
theories/CrewProofs.v
theories/CrewSettle.v
theories/PropsCrew.v
theories/Threads.v
theories/SpecThreads.v
theories/ThreadProofs.v
theories/ThreadCalm.v
theories/PropsThreads.v
theories/SpecStart.v
theories/StartProofs.v
theories/SpecTeam.v
theories/TeamProofs.v
theories/PropsTeam.v
theories/PropsBoot.v
theories/Worker.v
theories/SpecWorker.v
theories/WorkerProofs.v
theories/PropsWorker.v
theories/SpecOnce.v
theories/OnceProofs.v
theories/PropsOnce.v
theories/Counter.v
theories/SpecCounter.v
theories/CounterProofs.v
theories/PropsCounter.v
theories/SpecTurns.v
theories/TurnsProofs.v
theories/PropsTurns.v
theories/Maker.v
theories/PropsMaker.v
theories/PropsRound.v
theories/SpecTurnsStack.v
theories/PropsTurnsStack.v
theories/PropsGroupAny.v
theories/PropsShareAny.v
theories/PropsSpread.v
theories/SoundProofs.v
theories/PropsMakerWork.v
theories/PropsMakerStack.v
theories/SpecHandover.v
theories/PropsHandover.v
theories/PropsMakerGroup.v
theories/PropsStackGroup.v
theories/PropsHandoverStack.v
theories/PropsBytesGroup.v
