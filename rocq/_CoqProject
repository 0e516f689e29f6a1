-Q theories Verif
theories/Common.v
theories/CommonFacts.v
theories/Base64Model.v
theories/Base64Spec.v
theories/Base64Proofs.v
theories/Base64Props.v
theories/Bytes.v
theories/BytesFacts.v
theories/HeaderModel.v
theories/HeaderSpec.v
theories/HeaderProofs.v
theories/HeaderProps.v
theories/TimeModel.v
theories/TimeSpec.v
theories/TimeProofs.v
theories/TimeProps.v
theories/VectorModel.v
theories/VectorSpec.v
theories/VectorProofs.v
theories/VectorProps.v
theories/HashMapModel.v
theories/HashMapSpec.v
theories/HashMapProofs.v
theories/HashMapProps.v
theories/ListModel.v
theories/ListSpec.v
theories/ListProofs.v
theories/ListProps.v
theories/FramingModel.v
theories/FramingSpec.v
theories/FramingProofs.v
theories/FramingProps.v
theories/Value.v
theories/BufferModel.v
theories/BufferSpec.v
theories/BufferProofs.v
theories/BufferProps.v
theories/CompareModel.v
theories/CompareSpec.v
theories/CompareProofs.v
theories/CompareProps.v
theories/TextModel.v
theories/TextSpec.v
theories/TextProofs.v
theories/TextProps.v
theories/MsgModel.v
theories/MsgSpec.v
theories/MsgProofs.v
theories/MsgProps.v
theories/WireModel.v
theories/WireSpec.v
theories/WireFloat.v
theories/WireProofs.v
theories/WireProps.v
theories/Errors.v
theories/SessionModel.v
theories/SessionSpec.v
theories/SessionProofs.v
theories/SessionProps.v
theories/RefModel.v
theories/RefSpec.v
theories/RefProofs.v
theories/RefProofs2.v
theories/RefProofs3.v
theories/RefProofs4.v
theories/RefProofs5.v
theories/RefProps.v
theories/VecList.v
theories/CoreModel.v
theories/CoreSpec.v
theories/VecFacts.v
theories/CoreProofs.v
theories/CoreProps.v
theories/PrivModel.v
theories/PrivSpec.v
theories/PrivProofs.v
theories/PrivProps.v
theories/HandleModel.v
theories/HandleSpec.v
theories/HandleProofs.v
theories/HandleProps.v
theories/RetainModel.v
theories/RetainSpec.v
theories/RetainProofs.v
theories/RetainProps.v
theories/SemModel.v
theories/SemSpec.v
theories/SemProofs.v
theories/SemProps.v
theories/TokenModel.v
theories/TokenSpec.v
theories/TokenProofs.v
theories/TokenProps.v
theories/ElemModel.v
theories/ElemSpec.v
theories/ElemProofs.v
theories/ElemRows.v
theories/ElemProps.v
theories/RouteModel.v
theories/RouteSpec.v
theories/RouteProofs.v
theories/RouteInv.v
theories/RouteRun.v
theories/RouteLook.v
theories/RouteProps.v
theories/RouterModel.v
theories/RouterSpec.v
theories/RouterProofs.v
theories/RouterProps.v
theories/PendModel.v
theories/PendSpec.v
theories/PendProofs.v
theories/PendProps.v
theories/ListenModel.v
theories/ListenSpec.v
theories/ListenProofs.v
theories/ListenProps.v
theories/SubsModel.v
theories/SubsSpec.v
theories/SubsTree.v
theories/SubsProofs.v
theories/SubsFacts.v
theories/SubsProps.v
theories/CacheModel.v
theories/CacheSpec.v
theories/CacheProofs.v
theories/CacheProps.v
theories/WatchModel.v
theories/WatchSpec.v
theories/WatchProofs.v
theories/WatchProps.v
theories/LockModel.v
theories/LockSpec.v
theories/LockProofs.v
theories/IntervalModel.v
theories/IntervalSpec.v
theories/IntervalProps.v
theories/LockProps.v
theories/RetryModel.v
theories/RetrySpec.v
theories/RetryProofs.v
theories/RetryProps.v
theories/ConsumeModel.v
theories/ConsumeSpec.v
theories/ConsumeProofs.v
theories/ConsumeProps.v
theories/PoolModel.v
theories/PoolSpec.v
theories/PoolProofs.v
theories/PoolProps.v
theories/TransModel.v
theories/TransSpec.v
theories/TransProofs.v
theories/TransBatches.v
theories/TransProps.v
theories/RegModel.v
theories/RegSpec.v
theories/RegProofs.v
theories/RegProps.v
theories/WalkModel.v
theories/WalkSpec.v
theories/WalkProofs.v
theories/WalkProps.v
theories/DiscModel.v
theories/DiscSpec.v
theories/DiscProofs.v
theories/DiscProps.v
theories/PollSpec.v
theories/PollProofs.v
theories/PollProps.v
theories/LinkModel.v
theories/LinkSpec.v
theories/LinkProofs.v
theories/LinkProps.v
theories/NamesModel.v
theories/NamesSpec.v
theories/NamesProofs.v
theories/NamesList.v
theories/NamesProps.v
theories/MethodModel.v
theories/MethodSpec.v
theories/MethodProofs.v
theories/MethodProps.v
theories/ParamModel.v
theories/ParamSpec.v
theories/ParamProofs.v
theories/ParamProps.v
theories/TapModel.v
theories/TapSpec.v
theories/TapProofs.v
theories/TapProps.v
theories/UnregProps.v
theories/RowModel.v
theories/RowSpec.v
theories/RowProofs.v
theories/RowProps.v
theories/CrowdModel.v
theories/CrowdSpec.v
theories/CrowdProofs.v
theories/CrowdProps.v
theories/NotifyModel.v
theories/NotifySpec.v
theories/NotifyProofs.v
theories/NotifyProps.v
theories/DirectModel.v
theories/DirectSpec.v
theories/DirectProofs.v
theories/DirectFacts.v
theories/DirectProps.v
theories/OwnModel.v
theories/OwnSpec.v
theories/OwnProofs.v
theories/OwnFacts.v
theories/OwnSteps.v
theories/OwnComp.v
theories/OwnLists.v
theories/OwnValues.v
theories/OwnSafe.v
theories/OwnProps.v
theories/JsonModel.v
theories/JsonSpec.v
theories/JsonProofs.v
theories/JsonProps.v
theories/ReconModel.v
theories/ReconSpec.v
theories/ReconProofs.v
theories/ReconProps.v
theories/AddrModel.v
theories/AddrSpec.v
theories/AddrProofs.v
theories/AddrProps.v
theories/WaitModel.v
theories/WaitSpec.v
theories/WaitProofs.v
theories/WaitProps.v
theories/RawModel.v
theories/RawSpec.v
theories/RawProofs.v
theories/RawProps.v
theories/TraceModel.v
theories/TraceSpec.v
theories/TraceProofs.v
theories/TraceProps.v
theories/LegacyModel.v
theories/LegacySpec.v
theories/LegacyProofs.v
theories/LegacyProps.v
theories/AdviceModel.v
theories/AdviceSpec.v
theories/AdviceProofs.v
theories/AdviceProps.v
theories/GuardModel.v
theories/GuardSpec.v
theories/GuardProofs.v
theories/GuardProps.v
theories/DmModel.v
theories/DmSpec.v
theories/DmProofs.v
theories/DmProps.v
theories/TourModel.v
theories/TourSpec.v
theories/TourProofs.v
theories/TourRun.v
theories/TourEnds.v
theories/TourProps.v
theories/TypedModel.v
theories/TypedSpec.v
theories/TypedProofs.v
theories/TypedProps.v
theories/InfoModel.v
theories/InfoSpec.v
theories/InfoProofs.v
theories/InfoProps.v
theories/RowmemModel.v
theories/RowmemSpec.v
theories/RowmemProofs.v
theories/RowmemProps.v
theories/SkipModel.v
theories/SkipSpec.v
theories/SkipProps.v
