-Q theories Verif
theories/Num.v
theories/Py.v
theories/Cal.v
theories/Fmt.v
theories/Model.v
theories/Base.v
theories/Dummy.v
theories/Ex.v
theories/CalSweep.v
theories/CalProofs.v
theories/ModelProofs.v
theories/CacheProofs.v
theories/NumProofs.v
theories/ListProofs.v
theories/Fixed.v
theories/FixedProofs.v
theories/BaseProofs.v
theories/SeasonProofs.v
theories/DummyProofs.v
theories/GuessProofs.v
theories/ShapeProofs.v
theories/Properties1.v
theories/Properties2.v
theories/Naive.v
theories/NaiveProofs.v
theories/SnaiveProofs.v
theories/Properties3.v
theories/Freq.v
theories/FreqProofs.v
theories/GridProofs.v
theories/Aic.v
theories/FloatProofs.v
theories/AicProofs.v
theories/Properties4.v
theories/GuessProofs2.v
theories/Normalize.v
theories/StringProofs.v
theories/GroupProofs.v
theories/NormalizeProofs.v
theories/Fit.v
theories/FitProofs.v
theories/Properties5.v
theories/Interp.v
theories/InterpProofs.v
theories/Select.v
theories/Stats.v
theories/SelectProofs.v
theories/StatsProofs.v
theories/Outliers.v
theories/OutlierProofs.v
theories/OutlierReals.v
theories/QuantileProofs.v
theories/Properties6.v
theories/Pi.v
theories/Forecast.v
theories/ForecastProofs.v
theories/ForecastProofs2.v
theories/PiProofs.v
theories/Plot.v
theories/App.v
theories/PlotProofs.v
theories/AppProofs.v
theories/Properties7.v
theories/Properties8.v
theories/Properties9.v
theories/ExtendProofs.v
theories/MetaProofs.v
theories/LsqProofs.v
theories/OrderProofs.v
theories/RobustProofs.v
theories/Properties10.v
theories/Properties11.v
theories/TotalProofs.v
theories/HardyProofs.v
theories/TotalProofs2.v
theories/TotalProofs3.v
theories/SpareProofs.v
theories/TotalProofs4.v
theories/Properties12.v
theories/UniqueProofs.v
theories/Properties13.v
theories/ScaleProofs.v
theories/Properties14.v
theories/Main.v
theories/MainProofs.v
theories/Properties15.v
theories/ShiftProofs.v
theories/Properties16.v
theories/Input.v
theories/InputProofs.v
theories/Info.v
theories/InfoProofs.v
theories/Properties17.v
theories/ExistProofs.v
theories/Properties18.v
theories/MonthProofs.v
theories/Properties19.v
theories/ExactProofs.v
theories/Properties20.v
theories/WeightProofs.v
theories/Properties21.v
theories/NameProofs.v
theories/Properties22.v
theories/HolidayProofs.v
theories/Properties23.v
theories/Properties24.v
theories/GuessProofs3.v
theories/Properties25.v
theories/Properties26.v
theories/Mask.v
theories/MaskProofs.v
theories/Properties27.v
theories/CacheRunProofs.v
theories/Properties28.v
theories/RenameProofs.v
theories/Properties29.v
theories/ListOrderProofs.v
theories/Properties30.v
theories/FewerProofs.v
theories/Properties31.v
theories/HorizonProofs.v
theories/HorizonRunProofs.v
theories/Properties32.v
theories/Properties33.v
theories/IgnoredProofs.v
theories/Properties34.v
theories/Properties35.v
theories/BoundProofs.v
theories/Properties36.v
theories/SourceProofs.v
theories/Properties37.v
theories/DefaultProofs.v
theories/Properties38.v
theories/Bands.v
theories/BandProofs.v
theories/Properties39.v
theories/NaiveHorizonProofs.v
theories/IdemProofs.v
theories/Properties40.v
theories/NaiveRunProofs.v
theories/Properties41.v
theories/RepeatProofs.v
theories/Properties42.v
theories/NestProofs.v
theories/Properties43.v
theories/FixFitProofs.v
theories/Properties44.v
theories/ConfirmProofs.v
theories/Properties45.v
theories/StableProofs.v
theories/Properties46.v
theories/PullProofs.v
theories/Properties47.v
theories/LevelProofs.v
theories/Properties48.v
theories/BiasProofs.v
theories/Properties49.v
theories/PartProofs.v
theories/Properties50.v
theories/MirrorProofs.v
theories/MirrorProofs2.v
theories/Properties51.v
theories/SilentProofs.v
theories/Properties52.v
