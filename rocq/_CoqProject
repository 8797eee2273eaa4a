-Q theories Verif
theories/Model/Base.v
theories/Model/Chomp.v
theories/Model/Data.v
theories/Model/Galois.v
theories/Model/BlockInfo.v
theories/Model/QR.v
theories/Model/Format.v
theories/Model/Blocks.v
theories/Model/Correct.v
theories/Model/QRDecoder.v
theories/Model/Float.v
theories/Model/Prepare.v
theories/Model/Detect.v
theories/Model/Extract.v
theories/Model/Pipeline.v
theories/Model/Debug.v
theories/Spec/Bits.v
theories/Proofs/BitsP.v
theories/Proofs/BaseP.v
theories/Spec/Reader.v
theories/Proofs/ChompP.v
theories/Props/ChompProps.v
theories/Spec/Segments.v
theories/Proofs/DataP.v
theories/Proofs/StreamP.v
theories/Proofs/EncodeP.v
theories/Props/DataProps.v
theories/Spec/GF256.v
theories/Proofs/GaloisP.v
theories/Spec/RS.v
theories/Proofs/PolyP.v
theories/Proofs/SolveP.v
theories/Proofs/LinearP.v
theories/Proofs/NewtonP.v
theories/Proofs/HankelP.v
theories/Proofs/CorrectP.v
theories/Proofs/RestoreP.v
theories/Proofs/RSBridgeP.v
theories/Props/CorrectProps.v
theories/Spec/Symbol.v
theories/Spec/Bridge.v
theories/Spec/Layout.v
theories/Spec/Encoder.v
theories/Proofs/FormatP.v
theories/Props/FormatProps.v
theories/Proofs/LayoutP.v
theories/Proofs/InterleaveP.v
theories/Proofs/CountP.v
theories/Proofs/BlocksP.v
theories/Proofs/StreamBytesP.v
theories/Proofs/DrawP.v
theories/Props/BlockProps.v
theories/Spec/Message.v
theories/Proofs/EncoderP.v
theories/Proofs/DecodeP.v
theories/Props/DecoderProps.v
theories/Props/ReportProps.v
theories/Props/PipelineProps.v
theories/Spec/Window.v
theories/Proofs/PrepareP.v
theories/Proofs/FloatP.v
theories/Props/PrepareProps.v
theories/Proofs/ApproxP.v
theories/Spec/Finder.v
theories/Proofs/DetectP.v
theories/Spec/Plane.v
theories/Proofs/GeometryP.v
theories/Proofs/BlankP.v
theories/Props/DetectProps.v
theories/Proofs/ExtractP.v
theories/Spec/Drawing.v
theories/Proofs/AlignP.v
theories/Proofs/RefineP.v
theories/Proofs/RefineF.v
theories/Proofs/ScanP.v
theories/Proofs/CrossP.v
theories/Proofs/CrossScan.v
theories/Proofs/LocateP.v
theories/Proofs/CompleteP.v
theories/Proofs/CornersP.v
theories/Proofs/WholeP.v
theories/Props/ExtractProps.v
theories/Props/CleanProps.v
theories/Props/FinderProps.v
theories/Props/WholeProps.v
theories/Props/TurnProps.v
theories/Spec/Perspective.v
theories/Spec/Angle.v
theories/Spec/Slant.v
theories/Spec/Margin.v
theories/Spec/Cross.v
theories/Proofs/GridP.v
theories/Proofs/AngleP.v
theories/Props/GridProps.v
theories/Props/PictureProps.v
theories/Props/AngleProps.v
theories/Proofs/SlantP.v
theories/Proofs/SlantF.v
theories/Proofs/SlantScan.v
theories/Props/SlantProps.v
theories/Props/TiltProps.v
theories/Props/InexactProps.v
theories/Props/NoiseProps.v
theories/Props/LightProps.v
theories/Props/ReversalProps.v
theories/Proofs/StraightP.v
theories/Proofs/StraightScan.v
theories/Props/StraightProps.v
theories/Props/UprightProps.v
theories/Proofs/MarginP.v
theories/Props/MarginProps.v
theories/Props/GrayProps.v
theories/Proofs/SoundP.v
theories/Proofs/SoundF.v
theories/Proofs/QuietP.v
theories/Props/SoundProps.v
theories/Spec/Decoy.v
theories/Proofs/RowP.v
theories/Proofs/ColumnF.v
theories/Proofs/MosaicP.v
theories/Proofs/DecoyP.v
theories/Props/DecoyProps.v
theories/Props/SameProps.v
theories/Props/FewProps.v
theories/Proofs/DebugP.v
theories/Props/DebugProps.v
theories/Props/BlindProps.v
theories/Props/RepoTests.v
